(** C75: the compact genetic algorithm *)
From Coq Require Import List Arith Lia QArith Lqa Bool.
From Verif.Model Require Import Prelude MultiValue Cga.
From Verif.Spec Require Import Cga.
From Verif.Proofs Require Import MultiValue Cga.
Import ListNotations.
Open Scope nat_scope.

(** After any history, each variable has a probability distribution over its values, and none of them is below
    1 / (llambda + arity + 1): every candidate remains possible for ever. *)
Theorem C75_distribution : forall lam d n tells, 0 < lam -> 0 < n -> Forall (valid_tell d n) tells ->
  length (cg_p (cga_run lam tells (cga_init d n))) = d /\
  forall row, In row (cg_p (cga_run lam tells (cga_init d n))) -> distribution n (1 / (qnat lam + qnat n + 1)) row.
Proof.
  intros lam d n ts Hl Hn F. destruct (run_ok lam d n Hl ts (cga_init d n) (init_ok lam d n Hl Hn) F) as (A & B & _). auto.
Qed.
Print Assumptions C75_distribution.

(** The probabilities are exactly what the comparisons of the successive pairs of told candidates make of the uniform
    ones: candidate 0 with candidate 1, then 2 with 3, and so on, in the order of the tells; the first one of a pair
    wins when they are equal; a last candidate without a rival changes nothing. *)
Theorem C75_pairs : forall lam d n tells, 0 < lam -> 0 < n -> Forall (valid_tell d n) tells ->
  follows (1 / qnat lam) (pairs tells) (repeat (repeat (1 / qnat n)%Q n) d) (cg_p (cga_run lam tells (cga_init d n))).
Proof.
  intros lam d n ts Hl Hn F. exact (run_pairs lam d n Hl ts (cga_init d n) (init_ok lam d n Hl Hn) F eq_refl).
Qed.
Print Assumptions C75_pairs.

Lemma compared_order step w l row row' j xj xw xj' xw' : (0 < step)%Q -> compared step w l row row' -> w <> l -> j <> w ->
  nth_error row w = Some xw -> nth_error row j = Some xj -> nth_error row' w = Some xw' -> nth_error row' j = Some xj' ->
  (0 < xw)%Q -> (xj <= xw)%Q -> (xj' < xw')%Q.
Proof.
  intros Hs C N J Ew Ej Ew' Ej' P Le. unfold compared in C. destruct (Nat.eq_dec w l) as [|_]; [contradiction|].
  destruct C as (_ & _ & s & S1 & C).
  destruct (C w xw Ew) as (yw & Yw & Cw). destruct (C j xj Ej) as (yj & Yj & Cj).
  rewrite Yw in Ew'. injection Ew' as ->. rewrite Yj in Ej'. injection Ej' as ->. cbn zeta in *.
  destruct (Nat.eq_dec w w) as [_|X]; [|contradiction]. destruct (Nat.eq_dec j w) as [X|_]; [contradiction|].
  destruct Cw as [Cw _]. specialize (Cw ltac:(lra)).
  assert (K : (xj' * s < xw' * s)%Q).
  { rewrite Cw. destruct (Nat.eq_dec j l) as [_|_].
    - destruct (Qlt_le_dec (xj - step) step) as [A|A]; [destruct Cj as [_ Cj]; rewrite Cj by lra; lra|destruct Cj as [Cj _]; rewrite Cj by lra; lra].
    - destruct (Qlt_le_dec xj step) as [A|A]; [destruct Cj as [_ Cj]; rewrite Cj by lra; lra|destruct Cj as [Cj _]; rewrite Cj by lra; lra]. }
  destruct (Qlt_le_dec xj' xw') as [A|A]; [exact A|exfalso]. assert ((xw' * s <= xj' * s)%Q); [|lra].
  apply Qmult_le_compat_r; lra.
Qed.

(** A value which has won a comparison, and which was at least as probable as another one, is now strictly more probable. *)
Theorem C75_winner_ahead : forall lam d n tells t1 t2 i w l j row row' xw xj xw' xj', 0 < lam -> 0 < n ->
  Forall (valid_tell d n) (tells ++ [t1; t2]) -> Nat.even (length tells) = true ->
  nth_error (snd (fst (better t1 t2))) i = Some w -> nth_error (snd (snd (better t1 t2))) i = Some l -> w <> l -> j <> w ->
  nth_error (cg_p (cga_run lam tells (cga_init d n))) i = Some row ->
  nth_error (cg_p (cga_run lam (tells ++ [t1; t2]) (cga_init d n))) i = Some row' ->
  nth_error row w = Some xw -> nth_error row j = Some xj -> nth_error row' w = Some xw' -> nth_error row' j = Some xj' ->
  (xj <= xw)%Q -> (xj' < xw')%Q.
Proof.
  intros lam d n ts t1 t2 i w l j row row' xw xj xw' xj' Hl Hn F Ev Hw Hlo N J R R' W X W' X' Le.
  apply Forall_app in F as (F & F2). inversion F2 as [|? ? V1 F3]; subst. inversion F3 as [|? ? V2 _]; subst.
  pose proof (run_ok lam d n Hl ts (cga_init d n) (init_ok lam d n Hl Hn) F) as O.
  pose proof (proj2 (run_prev lam Hl ts (cga_init d n) eq_refl) Ev) as P.
  destruct (tell_pair lam d n Hl _ t1 t2 O V1 V2 P) as (_ & _ & C).
  unfold cga_run in R'. rewrite fold_left_app in R'. cbn [fold_left] in R'. fold (cga_run lam ts (cga_init d n)) in R'.
  pose proof (C i w l row row' Hw Hlo R R') as C'.
  assert (St : (0 < 1 / qnat lam)%Q) by (pose proof (qnat_pos lam Hl); apply Qlt_shift_div_l; lra).
  assert (Px : (0 < xw)%Q).
  { destruct O as (_ & D & _). destruct (D row (nth_error_In _ _ R)) as (_ & _ & D3). pose proof (D3 xw (nth_error_In _ _ W)).
    pose proof (low_pos lam n Hl). lra. }
  exact (compared_order _ _ _ _ _ _ _ _ _ _ St C' N J W X W' X' Px Le).
Qed.
Print Assumptions C75_winner_ahead.

(** While no probability is near the minimum, a comparison moves exactly 1 / llambda from the loser's value to the winner's. *)
Theorem C75_exact_step : forall step w l row row', (0 < step)%Q -> compared step w l row row' -> w <> l -> w < length row -> l < length row ->
  (total row == 1)%Q -> (forall x, In x row -> (step <= x)%Q) -> (forall x, nth_error row l = Some x -> (2 * step <= x)%Q) ->
  forall j x, nth_error row j = Some x -> exists x', nth_error row' j = Some x' /\
    (x' == (if Nat.eq_dec j w then x + step else if Nat.eq_dec j l then x - step else x))%Q.
Proof.
  intros step w l row row' Hs C N Hw Hl S1 Low Lowl. unfold compared in C. destruct (Nat.eq_dec w l) as [|_]; [contradiction|].
  destruct C as (L & T & s & Sge & C).
  set (moved := upd l (fun x => x - step)%Q (upd w (fun x => x + step)%Q row)).
  assert (Tm : (total moved == 1)%Q).
  { unfold moved. destruct (nth_error row w) as [xw|] eqn:Ew; [|apply nth_error_None in Ew; lia].
    destruct (nth_error row l) as [xl|] eqn:El; [|apply nth_error_None in El; lia].
    assert (El' : nth_error (upd w (fun x => x + step)%Q row) l = Some xl) by (rewrite upd_nth; destruct (Nat.eq_dec l w); [congruence|exact El]).
    rewrite (upd_total l (- step)%Q _ xl El' : (total (upd l (fun x => x - step)%Q (upd w (fun x => x + step)%Q row)) == _)%Q), (upd_total w step _ xw Ew), S1. ring. }
  assert (M : forall j x, nth_error row j = Some x -> nth_error moved j = Some (if Nat.eq_dec j w then x + step else if Nat.eq_dec j l then x - step else x)%Q).
  { intros j x E. unfold moved. rewrite !upd_nth. rewrite E. destruct (Nat.eq_dec j l), (Nat.eq_dec j w); try congruence; reflexivity. }
  assert (G : forall j x, nth_error row j = Some x -> exists x', nth_error row' j = Some x' /\
     (x' * s == (if Nat.eq_dec j w then x + step else if Nat.eq_dec j l then x - step else x))%Q).
  { intros j x E. destruct (C j x E) as (x' & E' & A & _). exists x'. split; [exact E'|]. apply A.
    pose proof (Low x (nth_error_In _ _ E)). destruct (Nat.eq_dec j w); [lra|]. destruct (Nat.eq_dec j l) as [->|]; [|lra].
    specialize (Lowl x E). lra. }
  assert (Es : (s == 1)%Q).
  { assert (K : (total row' * s == total moved)%Q).
    { assert (Lm : length moved = length row') by (unfold moved; rewrite !upd_length; auto).
      assert (GG : forall j x' m, nth_error row' j = Some x' -> nth_error moved j = Some m -> (x' * s == m)%Q).
      { intros j x' m E' Em. destruct (nth_error row j) as [x|] eqn:E.
        - destruct (G j x E) as (y & Ey & Q). rewrite Ey in E'. injection E' as ->. rewrite (M j x E) in Em. injection Em as <-. exact Q.
        - apply nth_error_None in E. assert (nth_error row' j <> None) as X by congruence. apply nth_error_Some in X. lia. }
      clearbody moved. clear - Lm GG. revert moved Lm GG. induction row' as [|x r IH]; intros [|m mv] Lm GG; try discriminate Lm.
      - cbn. ring.
      - cbn [total fold_right]. fold (total r). fold (total mv). rewrite <- (IH mv); [|cbn in Lm; lia|intros j; apply (GG (S j))].
        rewrite <- (GG 0 x m eq_refl eq_refl). ring. }
    rewrite T, Tm in K. lra. }
  intros j x E. destruct (G j x E) as (x' & E' & Q). exists x'. split; [exact E'|]. rewrite <- Q, Es. ring.
Qed.
Print Assumptions C75_exact_step.

(** The value of a variable is [v] for the draws [u] of an interval whose length is the probability of [v]; the
    candidates which are asked are valid, so the theorems above apply to the histories of asks and tells. *)
Theorem C75_draw : forall n low row u v, distribution n low row -> (0 <= low)%Q -> (0 <= u)%Q -> (u < 1)%Q ->
  (draw_value u row = v <-> v < n /\ (v = 0 \/ (total (firstn v row) < u)%Q) /\ (u <= total (firstn (S v) row))%Q).
Proof.
  intros n low row u v (L & S1 & P) Hlow U0 U1.
  assert (P0 : forall x, In x row -> (0 <= x)%Q) by (intros x Hx; specialize (P x Hx); lra).
  destruct (cumsum_filter u row P0 0) as (A & B & C). cbn zeta in *. fold (draw_value u row) in *.
  assert (V : draw_value u row < n).
  { rewrite <- L. destruct (Nat.eq_dec (draw_value u row) (length row)) as [E|E]; [exfalso|lia].
    destruct (length row) as [|k] eqn:Lk.
    - destruct row; [cbn in S1; lra|discriminate Lk].
    - specialize (B k ltac:(lia)). rewrite <- Lk, firstn_all in B. lra. }
  split.
  - intros <-. split; [exact V|]. split.
    + destruct (draw_value u row) as [|k]; [left; reflexivity|right]. specialize (B k ltac:(lia)). lra.
    + specialize (C ltac:(lia)). lra.
  - intros (Vn & V0 & V1).
    assert (Mono : forall a b, a <= b -> (total (firstn a row) <= total (firstn b row))%Q).
    { clear - P0. induction row as [|x r IH]; intros [|a] [|b] H; cbn [firstn]; try lia; try (cbn; lra).
      - cbn [total fold_right]. pose proof (P0 x (or_introl eq_refl)). pose proof (total_nonneg (firstn b r)) as T.
        unfold total in *. assert (0 <= fold_right Qplus 0 (firstn b r))%Q; [|lra]. apply T. intros y Hy. apply P0. right.
        rewrite <- (firstn_skipn b r). apply in_or_app; left; exact Hy.
      - cbn [total fold_right]. specialize (IH (fun y Hy => P0 y (or_intror Hy)) a b ltac:(lia)). unfold total in IH. lra. }
    destruct (lt_eq_lt_dec (draw_value u row) v) as [[H|H]|H]; [exfalso|exact H|exfalso].
    + specialize (C ltac:(lia)). pose proof (Mono (S (draw_value u row)) v ltac:(lia)). destruct V0 as [->|V0]; [lia|]. lra.
    + specialize (B v ltac:(lia)). lra.
Qed.
Print Assumptions C75_draw.

Theorem C75_asked : forall lam d n tells us loss, 0 < lam -> 0 < n -> Forall (valid_tell d n) tells ->
  length us = d -> (forall u, In u us -> 0 <= u /\ u < 1)%Q ->
  valid_tell d n (loss, cga_ask us (cga_run lam tells (cga_init d n))).
Proof.
  intros lam d n ts us loss Hl Hn F Lu U. destruct (C75_distribution lam d n ts Hl Hn F) as (L & D). split; cbn [snd]; unfold cga_ask.
  - rewrite map_length, combine_length, L, Lu. apply Nat.min_id.
  - intros v Hv. apply in_map_iff in Hv as ([u row] & <- & Hin). cbn [fst snd].
    destruct (U u (in_combine_l _ _ _ _ Hin)) as (U0 & U1). pose proof (D row (in_combine_r _ _ _ _ Hin)) as Dr.
    assert (LP : (0 <= 1 / (qnat lam + qnat n + 1))%Q) by (pose proof (low_pos lam n Hl); lra).
    apply (proj1 (C75_draw n _ row u (draw_value u row) Dr LP U0 U1) eq_refl).
Qed.
Print Assumptions C75_asked.

(** One would hope that a value which wins again and again becomes probable.  With more values than [llambda], no
    probability ever exceeds 1 / (arity - llambda), whatever the losses. *)
Theorem C75_flat : forall lam d n tells row x, 0 < lam -> lam < n -> Forall (valid_tell d n) tells ->
  In row (cg_p (cga_run lam tells (cga_init d n))) -> In x row -> (x <= 1 / (qnat n - qnat lam))%Q.
Proof.
  intros lam d n ts row x Hl Hn F.
  assert (E : qnat n == qnat lam + qnat (n - lam)) by (rewrite <- qnat_plus; replace (lam + (n - lam)) with n by lia; reflexivity).
  pose proof (qnat_pos lam Hl) as PL. pose proof (qnat_pos (n - lam) ltac:(lia)) as PN.
  assert (MP : (0 < 1 / (qnat n - qnat lam))%Q) by (apply Qlt_shift_div_l; lra).
  apply (flat_run lam d n Hl).
  - lra.
  - assert (K : (1 / (qnat n - qnat lam) + 1 / qnat lam == 1 / (qnat n - qnat lam) * (qnat n * (1 / qnat lam)))%Q) by (field; lra).
    rewrite K. rewrite Qmult_plus_distr_r. pose proof (Qmult_lt_0_compat _ _ MP MP). lra.
  - apply init_ok; lia.
  - exact F.
  - intros r y Hr Hy. apply repeat_spec in Hr. subst r. apply repeat_spec in Hy. subst y.
    apply Qle_shift_div_r; [lra|]. setoid_replace (1 / (qnat n - qnat lam) * qnat n)%Q with (qnat n / (qnat n - qnat lam))%Q by (field; lra).
    apply Qle_shift_div_l; lra.
Qed.
Print Assumptions C75_flat.
(** With the default arity of 500, and at most 40 workers, nothing can be learnt. *)
Theorem C75_learning_refuted : forall num_workers d tells row x, num_workers <= 40 -> Forall (valid_tell d 500) tells ->
  In row (cg_p (cga_run (llambda num_workers) tells (cga_init d 500))) -> In x row -> (1 # 541 <= x <= 1 # 460)%Q.
Proof.
  intros nw d ts row x Hw F Hr Hx. unfold llambda in *. rewrite Nat.max_r in Hr by exact Hw. split.
  - destruct (C75_distribution 40 d 500 ts ltac:(lia) ltac:(lia) F) as (_ & D). destruct (D row Hr) as (_ & _ & L). apply (L x Hx).
  - apply (C75_flat 40 d 500 ts row x ltac:(lia) ltac:(lia) F Hr Hx).
Qed.
Print Assumptions C75_learning_refuted.

(** Two variables with two values, two comparisons and a pending candidate *)
Definition tells5 : list (Q * list nat) :=
  [(3%Q, [0; 1]); (1%Q, [1; 1]); (2%Q, [1; 0]); (2%Q, [0; 1]); (5%Q, [0; 0])].
Lemma in2 (P : nat -> Prop) a b : P a -> P b -> forall v, In v [a; b] -> P v.
Proof. intros A B v [<-|[<-|[]]]; assumption. Qed.
Example C75_nontrivial :
  Forall (valid_tell 2 2) tells5 /\ length (pairs tells5) = 2 /\
  Forall2 (Forall2 Qeq) (cg_p (cga_run (llambda 1) tells5 (cga_init 2 2))) [[9 # 20; 11 # 20]; [21 # 40; 19 # 40]]%Q /\
  cg_prev (cga_run (llambda 1) tells5 (cga_init 2 2)) = Some (5%Q, [0; 0]) /\
  cga_ask [1 # 2; 1 # 2]%Q (cga_run (llambda 1) tells5 (cga_init 2 2)) = [1; 0].
Proof.
  split.
  { unfold tells5. repeat (apply Forall_cons; [split; [reflexivity|cbn [snd]; apply in2; lia]|]). apply Forall_nil. }
  split; [reflexivity|]. split; [|split; reflexivity].
  vm_compute. repeat constructor.
Qed.
(** With two values the winner becomes more and more probable. *)
Example C75_wins :
  let s := cga_run 4 (concat (repeat [(1%Q, [0]); (2%Q, [1])] 3)) (cga_init 1 2) in
  match cg_p s with [[a; b]] => (a == 21 # 26)%Q | _ => False end.
Proof. vm_compute. reflexivity. Qed.
Example C75_flat_nontrivial :
  Forall (valid_tell 1 3) [(1%Q, [0]); (2%Q, [1])] /\
  Forall2 (Forall2 Qeq) (cg_p (cga_run 2 [(1%Q, [0]); (2%Q, [1])] (cga_init 1 3))) [[5 # 11; 3 # 11; 3 # 11]]%Q.
Proof.
  split; [repeat (apply Forall_cons; [split; [reflexivity|cbn [snd]; intros v [<-|[]]; lia]|]); apply Forall_nil|].
  vm_compute. repeat constructor.
Qed.
(** The hypotheses of [C75_exact_step] *)
Example C75_exact_step_nontrivial :
  let row := [1 # 2; 1 # 4; 1 # 4]%Q in
  compared (1 # 10) 0 1 row [6 # 10; 15 # 100; 1 # 4]%Q /\ (total row == 1)%Q /\ nth_error row 1 = Some (1 # 4)%Q.
Proof.
  cbn zeta. split; [|split; [reflexivity|reflexivity]]. unfold compared. destruct (Nat.eq_dec 0 1) as [X|_]; [discriminate X|].
  split; [reflexivity|]. split; [reflexivity|]. exists 1%Q. split; [discriminate|].
  intros [|[|[|j]]] x E; cbn in E; try (destruct j; discriminate E); injection E as <-; (eexists; split; [reflexivity|]); vm_compute; split; auto; intros H; try reflexivity; elim H; reflexivity.
Qed.

From Coq Require Import Arith ZArith QArith Qround Qpower Bool Lia Lqa List.
From Verif.Model Require Import Prelude MultiValue OnePlusOne.
From Verif.Spec Require Import OnePlusOne.
From Verif.Proofs Require Import MultiValue Mutator.
Import ListNotations.
Open Scope nat_scope.

Section Run.
Variables (m : mutation) (annealing : bool) (dimension arity memory_size : nat).
Notation tell := (opo_tell m annealing dimension arity memory_size).
Notation run := (opo_run m annealing dimension arity memory_size).

Lemma run_app ts1 ts2 s : run (ts1 ++ ts2) s = bind (run ts1 s) (run ts2).
Proof. revert s; induction ts1 as [|t ts1 IH]; intros s; cbn; [reflexivity|]. destruct (tell t s); cbn; [apply IH|reflexivity]. Qed.
Lemma run_snoc ts t s s' : run (ts ++ [t]) s = Ok s' -> exists s1, run ts s = Ok s1 /\ tell t s1 = Ok s'.
Proof.
  rewrite run_app. destruct (run ts s) as [s1|]; cbn; [|discriminate]. intros E. exists s1. split; [reflexivity|].
  destruct (tell t s1); cbn in E; [exact E|discriminate].
Qed.
Lemma bind_ok {A B} (x : result A) (f : A -> result B) b : bind x f = Ok b -> exists a, x = Ok a /\ f a = Ok b.
Proof. destruct x; cbn; [eauto|discriminate]. Qed.

(** what a tell does to each part of the state *)
Lemma tell_prev t s s' : tell t s = Ok s' -> o_prev s' = Some (t_best t).
Proof. unfold opo_tell. destruct (anneal _ _ _ _ _ _). intros E. apply bind_ok in E as (s2 & _ & E). injection E as <-. reflexivity. Qed.
Lemma tell_sigma t s s' : tell t s = Ok s' ->
  o_sigma s' = if different (t_loss t) (o_prev s) then (o_sigma s * (if below (t_loss t) (o_prev s) then 2 else 84 # 100))%Q else o_sigma s.
Proof.
  unfold opo_tell. destruct (anneal _ _ _ _ _ _). intros E. apply bind_ok in E as (s2 & E2 & E). injection E as <-. cbn [o_sigma].
  destruct m; try (injection E2 as <-; reflexivity). apply bind_ok in E2 as (d & _ & E2). injection E2 as <-. reflexivity.
Qed.
Lemma tell_base t s s' : tell t s = Ok s' -> o_base s' = fst (anneal annealing (t_before_budget t) (t_accept t) (t_x t) (t_loss t) s).
Proof.
  unfold opo_tell. destruct (anneal _ _ _ _ _ _). intros E. apply bind_ok in E as (s2 & E2 & E). injection E as <-. cbn [o_base].
  destruct m; try (injection E2 as <-; reflexivity). apply bind_ok in E2 as (d & _ & E2). injection E2 as <-. reflexivity.
Qed.
Lemma tell_mr t s s' : tell t s = Ok s' -> o_mr s' =
  match m with Adaptive => qmin 1 ((if below_eq (t_loss t) (o_prev s) then 12 # 10 else 731 # 1000) * o_mr s) | _ => o_mr s end.
Proof.
  unfold opo_tell. destruct (anneal _ _ _ _ _ _). intros E. apply bind_ok in E as (s2 & E2 & E). injection E as <-. cbn [o_mr].
  destruct m; try (injection E2 as <-; reflexivity). apply bind_ok in E2 as (d & _ & E2). injection E2 as <-. reflexivity.
Qed.
Lemma tell_velocity t s s' : tell t s = Ok s' -> o_velocity s' =
  match m with
  | Coordinatewise => map (fun v => clip 1 (inject_Z (Z.of_nat arity) / 4) (v * (if below (t_loss t) (o_prev s) then 12 # 10 else 731 # 1000))) (o_velocity s)
  | _ => o_velocity s end.
Proof.
  unfold opo_tell. destruct (anneal _ _ _ _ _ _). intros E. apply bind_ok in E as (s2 & E2 & E). injection E as <-. cbn [o_velocity].
  destruct m; try (injection E2 as <-; reflexivity). apply bind_ok in E2 as (d & _ & E2). injection E2 as <-. reflexivity.
Qed.
Lemma tell_memory t s s' : tell t s = Ok s' -> m = Lognormal ->
  let index := (o_memory s + 1) mod memory_size in
  let recent_mr := if below (t_loss t) (o_recent s) then t_rate t else o_recent_mr s in
  o_memory s' = index /\ o_recent_mr s' = recent_mr /\
  o_recent s' = (if index =? 0 then None else if below (t_loss t) (o_recent s) then Some (t_loss t) else o_recent s) /\
  o_global s' = (if index =? 0 then recent_mr else o_global s).
Proof.
  unfold opo_tell. destruct (anneal _ _ _ _ _ _). intros E M. rewrite M in E. apply bind_ok in E as (s2 & E2 & E). injection E2 as <-. injection E as <-.
  cbv zeta. repeat split; reflexivity.
Qed.
End Run.

(** ** the step size *)
Lemma filter_ext_seq (f g : nat -> bool) n : (forall i, i < n -> f i = g i) -> filter f (seq 0 n) = filter g (seq 0 n).
Proof. intros H. apply filter_ext_in. intros i Hi. apply in_seq in Hi. apply H. lia. Qed.
Lemma snoc_firstn {A} (l : list A) x i : i <= length l -> firstn i (l ++ [x]) = firstn i l.
Proof. intros H. rewrite firstn_app. replace (i - length l) with 0 by lia. cbn. apply app_nil_r. Qed.
Lemma records_snoc ls x : records (ls ++ [x]) = records ls + if forallb (fun y => qlt x y) ls then 1 else 0.
Proof.
  unfold records. rewrite app_length. cbn [length]. rewrite Nat.add_1_r, seq_S, filter_app, app_length. cbn [plus filter].
  f_equal.
  - f_equal. apply filter_ext_seq. intros i Hi. rewrite app_nth1, snoc_firstn by lia. reflexivity.
  - rewrite app_nth2, Nat.sub_diag, snoc_firstn, firstn_all by lia. cbn [nth]. destruct (forallb _ ls); reflexivity.
Qed.
Lemma setbacks_snoc ls x : setbacks (ls ++ [x]) = setbacks ls + if existsb (fun y => qlt y x) ls then 1 else 0.
Proof.
  unfold setbacks. rewrite app_length. cbn [length]. rewrite Nat.add_1_r, seq_S, filter_app, app_length. cbn [plus filter].
  f_equal.
  - f_equal. apply filter_ext_seq. intros i Hi. rewrite app_nth1, snoc_firstn by lia. reflexivity.
  - rewrite app_nth2, Nat.sub_diag, snoc_firstn, firstn_all by lia. cbn [nth]. destruct (existsb _ ls); reflexivity.
Qed.
Lemma noise_free_snoc ts t : noise_free (ts ++ [t]) -> noise_free ts /\ is_min (t_best t) (map t_loss ts ++ [t_loss t]).
Proof.
  intros H. split.
  - intros i t' E. assert (i < length ts) by (apply nth_error_Some; congruence).
    specialize (H i t'). rewrite nth_error_app1 in H by lia. specialize (H E). rewrite snoc_firstn in H by lia. exact H.
  - specialize (H (length ts) t). rewrite nth_error_app2, Nat.sub_diag in H by lia. specialize (H eq_refl).
    rewrite firstn_all2 in H by (rewrite app_length; cbn; lia). rewrite map_app in H. exact H.
Qed.
Lemma Qpower_S (q : Q) n : ~ (q == 0)%Q -> (Qpower q (Z.of_nat (S n)) == Qpower q (Z.of_nat n) * q)%Q.
Proof. intros N. rewrite Nat2Z.inj_succ, <- Z.add_1_r, Qpower_plus by exact N. reflexivity. Qed.
Lemma qlt_eq_compat x a b : (a == b)%Q -> qlt x a = qlt x b.
Proof. intros E. destruct (qlt x b) eqn:C; [apply qlt_iff in C; apply qlt_iff; lra|apply qlt_false in C; apply qlt_false; lra]. Qed.

Section Sigma.
Variables (m : mutation) (annealing : bool) (dimension arity memory_size : nat).
Notation run := (opo_run m annealing dimension arity memory_size).
Definition prev_is (s : oneplusone) (ls : list Q) : Prop :=
  match o_prev s with None => ls = [] | Some b => is_min b ls end.
Lemma prev_below s ls x : prev_is s ls -> below x (o_prev s) = forallb (fun y => qlt x y) ls.
Proof.
  unfold prev_is, below. destruct (o_prev s) as [b|]; [|intros ->; reflexivity]. intros ((y & Hy & Ey) & Hm).
  destruct (qlt x b) eqn:C.
  - apply qlt_iff in C. symmetry. apply forallb_forall. intros z Hz. apply qlt_iff. specialize (Hm z Hz). lra.
  - apply qlt_false in C. symmetry. destruct (forallb _ ls) eqn:F; [|reflexivity].
    rewrite forallb_forall in F. specialize (F y Hy). apply qlt_iff in F. lra.
Qed.
Lemma prev_worse s ls x : prev_is s ls -> (different x (o_prev s) && negb (below x (o_prev s)))%bool = existsb (fun y => qlt y x) ls.
Proof.
  unfold prev_is, below, different. destruct (o_prev s) as [b|]; [|intros ->; reflexivity]. intros ((y & Hy & Ey) & Hm).
  destruct (existsb (fun y => qlt y x) ls) eqn:C.
  - apply existsb_exists in C as (z & Hz & C). apply qlt_iff in C. specialize (Hm z Hz).
    assert (qlt x b = false) as -> by (apply qlt_false; lra). cbn. rewrite andb_true_r. apply negb_true_iff.
    destruct (Qeq_bool b x) eqn:E; [apply Qeq_bool_iff in E; lra|reflexivity].
  - destruct (qlt x b) eqn:D; cbn; [apply andb_false_r|]. rewrite andb_true_r. apply negb_false_iff, Qeq_bool_iff. apply qlt_false in D.
    apply Qle_antisym; [exact D|]. apply Qnot_lt_le. intros L.
    assert (existsb (fun y => qlt y x) ls = true); [|congruence]. apply existsb_exists. exists y. split; [exact Hy|apply qlt_iff; lra].
Qed.
Lemma sigma_run s0 : o_prev s0 = None -> forall ts s, run ts s0 = Ok s -> noise_free ts ->
  prev_is s (map t_loss ts) /\
  (o_sigma s == o_sigma s0 * Qpower 2 (Z.of_nat (records (map t_loss ts))) * Qpower (84 # 100) (Z.of_nat (setbacks (map t_loss ts))))%Q.
Proof.
  intros P0. induction ts as [|t ts IH] using rev_ind; intros s E F.
  - cbn in E. injection E as <-. split; [unfold prev_is; rewrite P0; reflexivity|]. cbn. ring.
  - apply run_snoc in E as (s1 & E1 & E). apply noise_free_snoc in F as [F1 F2]. destruct (IH s1 E1 F1) as [P S].
    rewrite map_app. cbn [map]. split.
    { unfold prev_is. rewrite (tell_prev _ _ _ _ _ _ _ _ E). exact F2. }
    rewrite (tell_sigma _ _ _ _ _ _ _ _ E), records_snoc, setbacks_snoc.
    rewrite <- (prev_below s1 _ (t_loss t) P), <- (prev_worse s1 _ (t_loss t) P).
    destruct (below (t_loss t) (o_prev s1)) eqn:B.
    + assert (different (t_loss t) (o_prev s1) = true) as ->.
      { unfold different, below in *. destruct (o_prev s1) as [b|]; [|reflexivity]. apply negb_true_iff.
        apply qlt_iff in B. destruct (Qeq_bool b (t_loss t)) eqn:Q; [apply Qeq_bool_iff in Q; lra|reflexivity]. }
      cbn [negb andb]. rewrite Nat.add_1_r, Nat.add_0_r, Qpower_S, S by discriminate. ring.
    + cbn [negb]. rewrite andb_true_r, Nat.add_0_r. destruct (different (t_loss t) (o_prev s1)).
      * rewrite Nat.add_1_r, Qpower_S, S by discriminate. ring.
      * rewrite Nat.add_0_r. exact S.
Qed.
End Sigma.

(** ** the memory of the log-normal mutation *)
Section Memory.
Variables (annealing : bool) (dimension arity size : nat).
Notation run := (opo_run Lognormal annealing dimension arity size).
Hypothesis size_pos : 1 <= size.

(** [p]: the tells of the current window *)
Definition in_window (p : list told) (g : Q) (s : oneplusone) : Prop :=
  o_memory s = length p /\ o_global s = g /\
  match o_recent s with
  | None => p = []
  | Some b => exists i t, nth_error p i = Some t /\ t_loss t = b /\ t_rate t = o_recent_mr s /\
      forall j t', nth_error p j = Some t' -> (t_loss t <= t_loss t')%Q /\ (j < i -> (t_loss t < t_loss t')%Q)
  end.
Lemma first_best_snoc p g t s : in_window p g s ->
  rate_of_best (p ++ [t]) (if below (t_loss t) (o_recent s) then t_rate t else o_recent_mr s) /\
  exists i t0, nth_error (p ++ [t]) i = Some t0 /\
     (if below (t_loss t) (o_recent s) then Some (t_loss t) else o_recent s) = Some (t_loss t0) /\
     t_rate t0 = (if below (t_loss t) (o_recent s) then t_rate t else o_recent_mr s) /\
     forall j t', nth_error (p ++ [t]) j = Some t' -> (t_loss t0 <= t_loss t')%Q /\ (j < i -> (t_loss t0 < t_loss t')%Q).
Proof.
  intros (_ & _ & R).
  assert (exists i t0, nth_error (p ++ [t]) i = Some t0 /\
     (if below (t_loss t) (o_recent s) then Some (t_loss t) else o_recent s) = Some (t_loss t0) /\
     t_rate t0 = (if below (t_loss t) (o_recent s) then t_rate t else o_recent_mr s) /\
     forall j t', nth_error (p ++ [t]) j = Some t' -> (t_loss t0 <= t_loss t')%Q /\ (j < i -> (t_loss t0 < t_loss t')%Q)) as X.
  { unfold below. destruct (o_recent s) as [b|].
    - destruct R as (i & t0 & E & L & Rt & M). subst b. destruct (qlt (t_loss t) (t_loss t0)) eqn:C.
      + apply qlt_iff in C. exists (length p), t. rewrite nth_error_app2, Nat.sub_diag by lia. repeat (split; [reflexivity|]).
        intros j t' Ej. destruct (Nat.lt_ge_cases j (length p)) as [G|G].
        * rewrite nth_error_app1 in Ej by exact G. destruct (M j t' Ej) as [M1 _]. split; [lra|intros _; lra].
        * assert (j < length (p ++ [t])) as Hj by (apply nth_error_Some; congruence). rewrite app_length in Hj. cbn in Hj.
          replace j with (length p) in * by lia. rewrite nth_error_app2, Nat.sub_diag in Ej by lia. injection Ej as <-. split; [lra|lia].
      + apply qlt_false in C. exists i, t0. assert (i < length p) by (apply nth_error_Some; congruence).
        rewrite nth_error_app1 by lia. split; [exact E|]. split; [reflexivity|]. split; [exact Rt|].
        intros j t' Ej. destruct (Nat.lt_ge_cases j (length p)) as [G|G].
        * rewrite nth_error_app1 in Ej by exact G. exact (M j t' Ej).
        * assert (j < length (p ++ [t])) as Hj by (apply nth_error_Some; congruence). rewrite app_length in Hj. cbn in Hj.
          replace j with (length p) in * by lia. rewrite nth_error_app2, Nat.sub_diag in Ej by lia. injection Ej as <-.
          split; [exact C|lia].
    - subst p. exists 0, t. repeat (split; [reflexivity|]). intros [|j] t' Ej; cbn in Ej.
      + injection Ej as <-. split; [lra|lia].
      + destruct j; discriminate. }
  split; [|exact X]. destruct X as (i & t0 & E & _ & Rt & M). exists i, t0. split; [exact E|]. split; [exact Rt|exact M].
Qed.
Lemma window_step p g t s s' : in_window p g s -> length p < size -> opo_tell Lognormal annealing dimension arity size t s = Ok s' ->
  (S (length p) < size -> in_window (p ++ [t]) g s') /\
  (S (length p) = size -> exists r, rate_of_best (p ++ [t]) r /\ in_window [] r s').
Proof.
  intros W L E. destruct (tell_memory _ _ _ _ _ _ _ _ E eq_refl) as (M1 & M2 & M3 & M4).
  destruct (first_best_snoc p g t s W) as (B & i & t0 & X1 & X2 & X3 & X4). destruct W as (W1 & W2 & W3).
  rewrite W1 in *. split; intros H.
  - rewrite Nat.mod_small in * by lia. replace (length p + 1 =? 0) with false in * by (symmetry; apply Nat.eqb_neq; lia).
    split; [rewrite M1, app_length; reflexivity|]. split; [congruence|]. rewrite M3, X2. exists i, t0.
    split; [exact X1|]. split; [reflexivity|]. split; [congruence|exact X4].
  - replace (length p + 1) with size in * by lia. rewrite Nat.mod_same in * by lia. cbn [Nat.eqb] in *.
    eexists. split; [exact B|]. split; [exact M1|]. split; [exact M4|]. rewrite M3. reflexivity.
Qed.
(** a list cut in complete windows and a rest *)
Lemma memory_run g0 s0 : in_window [] g0 s0 -> forall ts s, run ts s0 = Ok s ->
  exists before window rest g, ts = before ++ window ++ rest /\ in_window rest g s /\ length rest < size /\
    (exists k, length before = k * size) /\
    ((window = [] /\ before = [] /\ g = g0) \/ (length window = size /\ rate_of_best window g)).
Proof.
  intros W0. induction ts as [|t ts IH] using rev_ind; intros s E.
  - cbn in E. injection E as <-. exists [], [], [], g0. split; [reflexivity|]. split; [exact W0|]. split; [cbn; lia|].
    split; [exists 0; reflexivity|]. left. repeat split; reflexivity.
  - apply run_snoc in E as (s1 & E1 & E). destruct (IH s1 E1) as (bef & win & rest & g & -> & W & L & (k & K) & C).
    destruct (window_step rest g t s1 s W L E) as [S1 S2].
    destruct (Nat.lt_ge_cases (S (length rest)) size) as [G|G].
    + exists bef, win, (rest ++ [t]), g. split; [rewrite <- !app_assoc; reflexivity|]. split; [exact (S1 G)|].
      split; [rewrite app_length; cbn; lia|]. split; [exists k; exact K|exact C].
    + destruct (S2 ltac:(lia)) as (r & R & W'). exists (bef ++ win), (rest ++ [t]), [], r.
      split; [rewrite app_nil_r, <- !app_assoc; reflexivity|]. split; [exact W'|]. split; [cbn; lia|]. split.
      * destruct C as [(-> & -> & _)|[Lw _]]; [exists 0; reflexivity|]. exists (S k). rewrite app_length, K, Lw. lia.
      * right. split; [rewrite app_length; cbn; lia|exact R].
Qed.
End Memory.

(** ** adaptive rate, velocities *)
Lemma qmin_glb a b c : (c <= a -> c <= b -> c <= qmin a b)%Q.
Proof. intros A B. destruct (qmin_or a b) as [-> | ->]; assumption. Qed.
Lemma qmax_lub a b c : (a <= c -> b <= c -> qmax a b <= c)%Q.
Proof. intros A B. unfold qmax. destruct (qlt a b); assumption. Qed.
Lemma clip_le lo hi v : (clip lo hi v <= hi)%Q.
Proof. unfold clip. apply qmin_le_r. Qed.
Lemma clip_ge lo hi v : (qmin lo hi <= clip lo hi v)%Q.
Proof.
  unfold clip. apply qmin_glb; [|apply qmin_le_r]. apply Qle_trans with lo; [apply qmin_le_l|apply qmax_ge_r].
Qed.
Lemma clip_mono lo hi v w : (v <= w -> clip lo hi v <= clip lo hi w)%Q.
Proof.
  intros H. unfold clip. apply qmin_glb; [|apply qmin_le_r]. apply Qle_trans with (qmax v lo); [apply qmin_le_l|].
  apply qmax_lub; [|apply qmax_ge_r]. apply Qle_trans with w; [exact H|apply qmax_ge_l].
Qed.
Lemma adaptive_run (m : mutation) annealing dimension arity size s0 : (0 < o_mr s0 <= 1)%Q ->
  forall ts s, opo_run m annealing dimension arity size ts s0 = Ok s -> (0 < o_mr s <= 1)%Q.
Proof.
  intros H0. induction ts as [|t ts IH] using rev_ind; intros s E; [cbn in E; injection E as <-; exact H0|].
  apply run_snoc in E as (s1 & E1 & E). specialize (IH s1 E1). rewrite (tell_mr _ _ _ _ _ _ _ _ E).
  destruct m; try exact IH. split; [|apply qmin_le_l].
  destruct (qmin_or 1 ((if below_eq (t_loss t) (o_prev s1) then 12 # 10 else 731 # 1000) * o_mr s1)) as [-> | ->]; [lra|].
  destruct (below_eq (t_loss t) (o_prev s1)); lra.
Qed.

Section Velocity.
Variables (m : mutation) (annealing : bool) (dimension arity size : nat).
Notation run := (opo_run m annealing dimension arity size).
Notation top := (inject_Z (Z.of_nat arity) / 4)%Q.
Lemma top_pos : (0 <= top)%Q.
Proof.
  assert (0 <= inject_Z (Z.of_nat arity))%Q as H by (change 0%Q with (inject_Z 0); rewrite <- Zle_Qle; lia).
  assert (inject_Z (Z.of_nat arity) / 4 == inject_Z (Z.of_nat arity) * (1 # 4))%Q as -> by reflexivity. lra.
Qed.
Lemma velocity_run s0 : Forall (fun v => 0 <= v <= top)%Q (o_velocity s0) -> forall ts s, run ts s0 = Ok s ->
  length (o_velocity s) = length (o_velocity s0) /\ Forall (fun v => 0 <= v <= top)%Q (o_velocity s) /\
  (m = Coordinatewise -> ts <> [] -> Forall (fun v => qmin 1 top <= v)%Q (o_velocity s)).
Proof.
  intros H0. induction ts as [|t ts IH] using rev_ind; intros s E.
  - cbn in E. injection E as <-. split; [reflexivity|]. split; [exact H0|]. intros _ []; reflexivity.
  - apply run_snoc in E as (s1 & E1 & E). destruct (IH s1 E1) as (L & B & C). rewrite (tell_velocity _ _ _ _ _ _ _ _ E).
    destruct m eqn:M; try (split; [exact L|split; [exact B|intros; discriminate]]).
    rewrite map_length. split; [exact L|]. split; [|intros _ _]; apply Forall_map, Forall_forall; intros v Hv.
    + split; [|apply clip_le]. apply Qle_trans with (qmin 1 top); [|apply clip_ge]. apply qmin_glb; [lra|apply top_pos].
    + apply clip_ge.
Qed.
Lemma velocity_order s0 i j : i < length (o_velocity s0) -> j < length (o_velocity s0) ->
  (nth i (o_velocity s0) 0 <= nth j (o_velocity s0) 0)%Q -> forall ts s, run ts s0 = Ok s ->
  length (o_velocity s) = length (o_velocity s0) /\ (nth i (o_velocity s) 0 <= nth j (o_velocity s) 0)%Q.
Proof.
  intros Hi Hj H0. induction ts as [|t ts IH] using rev_ind; intros s E.
  - cbn in E. injection E as <-. split; [reflexivity|exact H0].
  - apply run_snoc in E as (s1 & E1 & E). destruct (IH s1 E1) as (L & B). rewrite (tell_velocity _ _ _ _ _ _ _ _ E).
    destruct m eqn:M; try (split; [exact L|exact B]).
    rewrite map_length. split; [exact L|].
    set (f := fun v : Q => _).
    rewrite (nth_indep _ 0%Q (f 0%Q)) by (rewrite map_length; lia). rewrite (map_nth f).
    rewrite (nth_indep (map f (o_velocity s1)) 0%Q (f 0%Q)) by (rewrite map_length; lia). rewrite (map_nth f).
    unfold f. apply clip_mono. apply Qmult_le_compat_r; [exact B|]. destruct (below _ _); lra.
Qed.
End Velocity.

(** ** annealing *)
Lemma anneal_run (m : mutation) annealing dimension arity size s0 : o_base s0 = None -> forall ts s,
  opo_run m annealing dimension arity size ts s0 = Ok s ->
  match o_base s with None => annealing = false \/ ts = [] \/ o_prev s0 <> None | Some x => annealing = true /\ In x (map t_x ts) end.
Proof.
  intros H0. induction ts as [|t ts IH] using rev_ind; intros s E.
  - cbn in E. injection E as <-. rewrite H0. tauto.
  - apply run_snoc in E as (s1 & E1 & E). specialize (IH s1 E1). rewrite (tell_base _ _ _ _ _ _ _ _ E). unfold anneal.
    assert (forall y, In y (map t_x ts) \/ y = t_x t -> In y (map t_x (ts ++ [t]))) as I.
    { intros y Hy. rewrite map_app, in_app_iff. cbn. intuition. }
    destruct annealing; cbn [fst].
    + destruct (below_eq (t_loss t) (o_prev s1)) eqn:B; [split; [reflexivity|apply I; right; reflexivity]|].
      destruct (t_before_budget t && t_accept t); [split; [reflexivity|apply I; right; reflexivity]|].
      destruct (o_base s1) as [x|]; [split; [reflexivity|apply I; left; tauto]|].
      destruct IH as [IH|[IH|IH]]; [discriminate| |tauto]. subst ts. cbn in E1. injection E1 as <-. unfold below_eq in B.
      destruct (o_prev s0); [right; right; discriminate|discriminate].
    + destruct (o_base s1) as [x|]; [destruct IH; discriminate|left; reflexivity].
Qed.

(** ** doerr *)
Lemma doerr_rates_in dimension : forall fuel k r, In r (doerr_rates fuel (3 + k * (k + 1)) (2 * k + 2) dimension) ->
  r < dimension /\ exists l, k <= l /\ r = 3 + l * (l + 1).
Proof.
  induction fuel as [|fuel IH]; intros k r H; [destruct H|]. cbn [doerr_rates] in H.
  destruct (Nat.ltb_spec (3 + k * (k + 1)) dimension) as [L|L]; [|destruct H]. destruct H as [<-|H].
  - split; [exact L|]. exists k. split; [lia|reflexivity].
  - replace (3 + k * (k + 1) + (2 * k + 2)) with (3 + S k * (S k + 1)) in H by lia.
    replace (2 * k + 2 + 2) with (2 * S k + 2) in H by lia. destruct (IH (S k) r H) as (A & l & B & C). split; [exact A|].
    exists l. split; [lia|exact C].
Qed.
Lemma doerr_rates_all dimension : forall fuel k l, dimension <= fuel + k -> k <= l -> 3 + l * (l + 1) < dimension ->
  In (3 + l * (l + 1)) (doerr_rates fuel (3 + k * (k + 1)) (2 * k + 2) dimension).
Proof.
  induction fuel as [|fuel IH]; intros k l F K L; [nia|]. cbn [doerr_rates].
  destruct (Nat.ltb_spec (3 + k * (k + 1)) dimension) as [G|G]; [|nia].
  destruct (Nat.eq_dec k l) as [->|N]; [left; reflexivity|right].
  replace (3 + k * (k + 1) + (2 * k + 2)) with (3 + S k * (S k + 1)) by lia.
  replace (2 * k + 2 + 2) with (2 * S k + 2) by lia. apply IH; lia.
Qed.
Lemma upd_length i f l : length (upd i f l) = length l.
Proof. unfold upd. rewrite map_length, combine_length, seq_length. lia. Qed.
Lemma upd_forall i f l (P : Q -> Prop) : Forall P l -> (forall x, In x l -> P x -> P (f x)) -> Forall P (upd i f l).
Proof.
  intros F H. unfold upd. apply Forall_map, Forall_forall. intros [j x] Hx. apply in_combine_r in Hx. cbn.
  rewrite Forall_forall in F. destruct (j =? i); [apply H|]; auto.
Qed.
Lemma index_max_spec l : l <> [] -> index_max l < length l /\
  forall j, j < length l -> (nth j l 0 <= nth (index_max l) l 0)%Q /\ (j < index_max l -> (nth j l 0 < nth (index_max l) l 0)%Q).
Proof.
  destruct l as [|x l]; [contradiction|]. intros _. unfold index_max.
  (* argmax_q over what remains, given that the prefix is dominated by the best so far *)
  assert (forall rest pre ib n v, n = length pre -> v = nth ib pre 0%Q -> ib < length pre ->
    (forall j, j < length pre -> (nth j pre 0 <= nth ib pre 0)%Q /\ (j < ib -> (nth j pre 0 < nth ib pre 0)%Q)) ->
    let r := argmax_q n ib v rest in
    r < length (pre ++ rest) /\
    forall j, j < length (pre ++ rest) -> (nth j (pre ++ rest) 0 <= nth r (pre ++ rest) 0)%Q /\ (j < r -> (nth j (pre ++ rest) 0 < nth r (pre ++ rest) 0)%Q)) as A.
  { induction rest as [|y rest IH]; intros pre ib n v En Ev Hb Hp.
    - cbn. rewrite app_nil_r. split; [exact Hb|exact Hp].
    - cbn [argmax_q]. replace (pre ++ y :: rest) with ((pre ++ [y]) ++ rest) by (rewrite <- app_assoc; reflexivity).
      assert (length (pre ++ [y]) = S (length pre)) as L1 by (rewrite app_length; cbn; lia).
      assert (nth (length pre) (pre ++ [y]) 0%Q = y) as L2 by (rewrite app_nth2, Nat.sub_diag by lia; reflexivity).
      destruct (qlt v y) eqn:C.
      + apply qlt_iff in C. apply IH; [lia|subst n; congruence|lia|].
        intros j Hj. subst n. rewrite L2. destruct (Nat.lt_ge_cases j (length pre)) as [G|G].
        * rewrite app_nth1 by exact G. destruct (Hp j G) as [P _]. rewrite <- Ev in P. split; [lra|intros _; lra].
        * replace j with (length pre) by lia. rewrite L2. split; [lra|lia].
      + apply qlt_false in C. assert (nth ib (pre ++ [y]) 0%Q = v) as L3 by (rewrite app_nth1 by lia; congruence).
        apply IH; [lia|congruence|lia|].
        intros j Hj. rewrite L3. destruct (Nat.lt_ge_cases j (length pre)) as [G|G].
        * rewrite app_nth1 by exact G. rewrite Ev. exact (Hp j G).
        * replace j with (length pre) by lia. rewrite L2. split; [lra|lia]. }
  apply (A l [x] 0 1 x); [reflexivity|reflexivity|cbn; lia|]. intros [|j] Hj; cbn in *; [split; [lra|lia]|lia].
Qed.
Lemma gamma_bounds dimension : 2 <= dimension -> (0 <= gamma dimension)%Q.
Proof.
  intros H. unfold gamma. assert (2 <= inject_Z (Z.of_nat dimension))%Q as G.
  { change 2%Q with (inject_Z 2). rewrite <- Zle_Qle. lia. }
  assert (2 / inject_Z (Z.of_nat dimension) <= 1)%Q as X by (apply Qle_shift_div_r; lra). lra.
Qed.

Section Doerr.
Variable dimension : nat.
Hypothesis dim2 : 2 <= dimension.
Definition good (rates : list nat) (d : doerr) : Prop :=
  d_rates d = rates /\ length (d_rewards d) = length rates /\ length (d_counters d) = length rates /\
  Forall (fun r => 0 <= r)%Q (d_rewards d) /\ Forall (fun c => 0 <= c)%Q (d_counters d).
(** an index is pending only if a loss is known *)
Lemma doerr_tell_good rates loss d : good rates d -> (d_best d = None -> d_index d = None) ->
  exists d', doerr_tell dimension loss d = Ok d' /\ good rates d' /\ d_index d' = None /\ d_best d' <> None.
Proof.
  intros (G1 & G2 & G3 & G4 & G5) P. unfold doerr_tell. destruct (d_best d) as [b|].
  - destruct (d_index d) as [i|].
    + set (c := nth i (d_counters d) 0%Q). assert (0 <= c)%Q as Hc.
      { unfold c. destruct (Nat.lt_ge_cases i (length (d_counters d))) as [L|L].
        - rewrite Forall_forall in G5. apply G5, nth_In, L.
        - rewrite nth_overflow by exact L. lra. }
      assert (Hg := gamma_bounds dimension dim2).
      assert (0 <= gamma dimension * c)%Q as Hgc by (apply Qmult_le_0_compat; assumption).
      destruct (Qeq_bool (gamma dimension * c + 1) 0) eqn:Z; [apply Qeq_bool_iff in Z; lra|].
      eexists. split; [reflexivity|]. split; [|split; [reflexivity|discriminate]].
      split; [exact G1|]. cbn [d_rewards d_counters]. rewrite !upd_length, map_length. split; [exact G2|]. split; [exact G3|]. split.
      * apply upd_forall; [exact G4|]. intros r _ Hr. apply Qle_shift_div_l; [lra|].
        assert (0 <= gamma dimension * c * r)%Q by (apply Qmult_le_0_compat; assumption).
        assert (0 <= qmax 0 (b - loss))%Q by apply qmax_ge_l. lra.
      * apply upd_forall.
        -- apply Forall_map. eapply Forall_impl; [|exact G5]. cbv beta. intros x Hx. apply Qmult_le_0_compat; assumption.
        -- intros x _ Hx. lra.
    + eexists. split; [reflexivity|]. split; [repeat split; assumption|]. split; [reflexivity|discriminate].
  - rewrite (P eq_refl). eexists. split; [reflexivity|]. split; [repeat split; assumption|]. split; [reflexivity|discriminate].
Qed.
Lemma doerr_ask_good rates explore d : good rates d -> rates <> [] -> d_index d = None ->
  match explore with Some i => i < length rates | None => True end ->
  exists r d', doerr_ask explore d = (d', Ok r) /\ In r rates /\ good rates d' /\ d_index d' = explore /\ d_best d' = d_best d.
Proof.
  intros (G1 & G2 & G3 & G4 & G5) N I Hx. unfold doerr_ask. rewrite I.
  set (index := match explore with Some i => i | None => _ end).
  assert (index < length rates) as L.
  { unfold index. destruct explore as [i|]; [exact Hx|]. rewrite <- G2. apply index_max_spec.
    intros C. rewrite C in G2. destruct rates; [contradiction|discriminate]. }
  rewrite G1. destruct (nth_error rates index) as [r|] eqn:E; [|apply nth_error_None in E; lia].
  exists r. eexists. split; [reflexivity|]. split; [exact (nth_error_In _ _ E)|]. split; [repeat split; assumption|]. split; reflexivity.
Qed.
Lemma doerr_run_good rates : rates <> [] -> forall steps d, good rates d -> d_index d = None ->
  (d_best d = None -> match steps with (Some _, _) :: _ => False | _ => True end) ->
  Forall (fun s : option nat * Q => match fst s with Some i => i < length rates | None => True end) steps ->
  exists rs d', doerr_run dimension steps d = Ok (rs, d') /\ Forall (fun r => In r rates) rs /\ length rs = length steps /\ good rates d' /\ d_index d' = None.
Proof.
  intros N. induction steps as [|[explore loss] steps IH]; intros d G I P F; cbn [doerr_run].
  - exists [], d. split; [reflexivity|]. split; [constructor|]. split; [reflexivity|]. split; [exact G|exact I].
  - apply Forall_cons_iff in F as [F1 F2]. cbn [fst] in F1.
    destruct (doerr_ask_good rates explore d G N I F1) as (r & d1 & E1 & Hr & G1 & I1 & B1). rewrite E1. cbn [bind].
    assert (d_best d1 = None -> d_index d1 = None) as P1.
    { rewrite B1, I1. intros B. specialize (P B). destruct explore; [destruct P|reflexivity]. }
    destruct (doerr_tell_good rates loss d1 G1 P1) as (d2 & E2 & G2 & I2 & B2). rewrite E2. cbn [bind].
    destruct (IH d2 G2 I2) as (rs & d3 & E3 & R3 & L3 & G3 & I3); [intros C; contradiction|exact F2|]. rewrite E3. cbn [bind].
    exists (r :: rs), d3. split; [reflexivity|]. split; [constructor; assumption|]. split; [cbn; congruence|]. split; assumption.
Qed.
End Doerr.

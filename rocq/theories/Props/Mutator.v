(** C65: the discrete mutations put the chosen coordinates into another bin and leave the others untouched. *)
From Coq Require Import Arith ZArith QArith Qround Bool Lia Lqa List.
From Verif.Model Require Import Prelude MultiValue Crossover Mutator.
From Verif.Spec Require Import Mutator.
From Verif.Proofs Require Import MultiValue Mutator.
Import ListNotations.
Open Scope nat_scope.

Section S.
(** [bin arity v]: the index of [v] among [arity] bins *)
Variable bin : nat -> Z -> Z.

(** [discrete_mutation]: the coordinates whose uniform draw is at most 1 / dimension go to another bin, there is at
    least one of them, and the others are untouched *)
Theorem C65_discrete (parent : list Z) (arity : nat) (ds ds' : list draw) (child : list Z) : 2 <= arity <= 499 ->
  discrete_mutation bin parent arity ds = (Ok child, ds') ->
  exists u, In (DRand u) ds /\ uniforms (length parent) u /\
    mutated_some bin arity parent child (drawn_below u (1 / inject_Z (Z.of_nat (length parent)))).
Proof.
  intros Ha E. destruct parent as [|a parent].
  - apply rbind_ok in E as (x & d & _ & E). discriminate.
  - rewrite discrete_masked in E by discriminate. exact (masked_ok _ _ _ _ _ _ _ Ha E).
Qed.
(** [portfolio_discrete_mutation] with an intensity, in dimension two at least: same with the rate intensity / dimension *)
Theorem C65_portfolio (parent : list Z) (intensity : Q) (arity : nat) (ds ds' : list draw) (child : list Z) :
  2 <= arity <= 499 -> 2 <= length parent ->
  portfolio_mutation bin parent (Some intensity) arity ds = (Ok child, ds') ->
  exists u, In (DRand u) ds /\ uniforms (length parent) u /\
    mutated_some bin arity parent child (drawn_below u (intensity / inject_Z (Z.of_nat (length parent)))).
Proof. intros Ha Hp E. rewrite portfolio_masked in E by exact Hp. exact (masked_ok _ _ _ _ _ _ _ Ha E). Qed.
(** ... without intensity: it is drawn between one and the dimension minus one *)
Theorem C65_portfolio_default (parent : list Z) (arity : nat) (ds ds' : list draw) (child : list Z) :
  2 <= arity <= 499 -> 2 <= length parent -> portfolio_mutation bin parent None arity ds = (Ok child, ds') ->
  exists k u, 1 <= k < length parent /\ In (DInt k) ds /\ In (DRand u) ds /\ uniforms (length parent) u /\
    mutated_some bin arity parent child (drawn_below u (inject_Z (Z.of_nat k) / inject_Z (Z.of_nat (length parent)))).
Proof.
  intros Ha Hp E. unfold portfolio_mutation in E. apply rbind_ok in E as (i & d1 & E1 & E).
  destruct (Nat.eqb_spec (length parent) 1); [lia|]. apply rbind_ok in E1 as (k & d2 & E1 & E2).
  apply randint_ok in E1 as [Hk ->]. injection E2 as <- <-.
  destruct (Nat.eqb_spec (length parent) 0); [lia|].
  destruct (masked_ok bin _ _ _ _ _ _ Ha E) as (u & Iu & Uu & M).
  exists k, u. split; [exact Hk|]. split; [left; reflexivity|]. split; [right; exact Iu|]. split; [exact Uu|exact M].
Qed.
(** [rls_mutation], in dimension two at least: exactly one coordinate goes to another bin *)
Theorem C65_rls (parent : list Z) (arity : nat) (ds ds' : list draw) (child : list Z) : 2 <= arity <= 499 ->
  length parent <> 1 -> rls_mutation bin parent arity ds = (Ok child, ds') ->
  exists ind, In (DInt ind) ds /\ ind < length parent /\ mutated bin arity parent child (fun i => i = ind).
Proof.
  intros Ha Hp E. unfold rls_mutation in E. destruct (Nat.eqb_spec (length parent) 1); [lia|].
  apply rbind_ok in E as (ind & d1 & E1 & E). apply randint_ok in E1 as [Hi ->].
  apply rbind_ok in E as (w & d2 & E2 & E).
  assert (child = firstn ind parent ++ w :: skipn (S ind) parent) as -> by (unfold give in E; congruence).
  exists ind. split; [left; reflexivity|]. split; [lia|]. split.
  - assert (Lt := skipn_length (S ind) parent). set (t := skipn (S ind) parent) in *.
    rewrite app_length, firstn_length. cbn [length]. lia.
  - intros i Hl. assert (length (firstn ind parent) = ind) as Lf by (rewrite firstn_length; lia).
    destruct (Nat.eq_dec i ind) as [->|N].
    + left. split; [reflexivity|]. unfold moved. rewrite app_nth2 by lia. rewrite Lf, Nat.sub_diag. cbn [nth].
      exact (significantly_ok bin _ _ _ _ _ Ha E2).
    + right. split; [exact N|]. unfold untouched. destruct (Nat.lt_ge_cases i ind) as [G|G].
      * rewrite app_nth1 by lia. rewrite <- (firstn_skipn ind parent) at 2. rewrite app_nth1 by lia. reflexivity.
      * rewrite app_nth2 by lia. rewrite Lf. destruct (i - ind) as [|j] eqn:J; [lia|]. cbn [nth].
        rewrite <- (firstn_skipn (S ind) parent) at 2. rewrite app_nth2; rewrite firstn_length; [|lia].
        f_equal. lia.
Qed.
(** [doubledoerr_discrete_mutation], in dimension two at least *)
Theorem C65_doubledoerr (parent : list Z) (max_ratio : Q) (arity : nat) (ds ds' : list draw) (child : list Z) :
  2 <= arity <= 499 -> 2 <= length parent ->
  doubledoerr_mutation bin parent max_ratio arity ds = (Ok child, ds') ->
  exists k u, 1 <= k /\ (k = 1 \/ (inject_Z (Z.of_nat k) < max_ratio * inject_Z (Z.of_nat (length parent)))%Q) /\
    In (DInt k) ds /\ In (DRand u) ds /\ uniforms (length parent) u /\
    mutated_some bin arity parent child (drawn_below u (inject_Z (Z.of_nat k) / inject_Z (Z.of_nat (length parent)))).
Proof.
  intros Ha Hp E. unfold doubledoerr_mutation in E. destruct (qle 0 max_ratio && qle max_ratio 1) eqn:B; [|discriminate].
  apply andb_true_iff in B as [B1 B2]. apply qle_iff in B1, B2.
  apply rbind_ok in E as (k & d1 & E1 & E). apply randint_ok in E1 as [Hk ->].
  destruct (C65_portfolio parent _ _ _ _ _ Ha Hp E) as (u & Iu & Uu & M).
  exists k, u. split; [lia|]. split.
  - destruct (Nat.eq_dec k 1) as [->|N]; [left; reflexivity|]. right.
    set (f := Qfloor (max_ratio * inject_Z (Z.of_nat (length parent)))) in *.
    assert (Z.of_nat k < f)%Z as L by lia.
    apply Qlt_le_trans with (inject_Z f); [rewrite <- Zlt_Qlt; exact L|apply Qfloor_le].
  - split; [left; reflexivity|]. split; [right; exact Iu|]. split; [exact Uu|exact M].
Qed.
(** [doerr_discrete_mutation], in dimension five at least *)
Theorem C65_doerr (parent : list Z) (arity : nat) (ds ds' : list draw) (child : list Z) : 2 <= arity <= 499 ->
  5 <= length parent -> doerr_mutation bin parent arity ds = (Ok child, ds') ->
  exists k u, 1 <= k /\ (k = 1 \/ 2 * k < length parent) /\ In (DInt k) ds /\ In (DRand u) ds /\ uniforms (length parent) u /\
    mutated_some bin arity parent child (drawn_below u (inject_Z (Z.of_nat k) / inject_Z (Z.of_nat (length parent)))).
Proof.
  intros Ha Hp E. unfold doerr_mutation in E. destruct (Nat.ltb_spec (length parent) 5); [lia|].
  destruct (C65_doubledoerr parent _ _ _ _ _ Ha ltac:(lia) E) as (k & u & H1 & H2 & H3 & H4 & H5 & H6).
  exists k, u. split; [exact H1|]. split; [|tauto]. destruct H2 as [H2|H2]; [left; exact H2|right].
  assert (inject_Z (2 * Z.of_nat k) < inject_Z (Z.of_nat (length parent)))%Q as L.
  { rewrite inject_Z_mult. change (inject_Z 2) with 2%Q. lra. }
  rewrite <- Zlt_Qlt in L. lia.
Qed.
(** in a smaller dimension the mutation is that of two bins, whatever the requested arity *)
Theorem C65_doerr_small (parent : list Z) (arity : nat) (ds ds' : list draw) (child : list Z) :
  length parent < 5 -> doerr_mutation bin parent arity ds = (Ok child, ds') ->
  exists u, In (DRand u) ds /\ uniforms (length parent) u /\
    mutated_some bin 2 parent child (drawn_below u (1 / inject_Z (Z.of_nat (length parent)))).
Proof.
  intros Hp E. unfold doerr_mutation in E. destruct (Nat.ltb_spec (length parent) 5); [|lia].
  exact (C65_discrete parent 2 _ _ _ ltac:(lia) E).
Qed.
(** ... so that it may leave every coordinate in its bin, as soon as two numbers of opposite signs share a bin *)
Theorem C65_doerr_small_refuted (arity : nat) (v w : Z) : bin 2 v <> bin 2 w -> bin arity v = bin arity w ->
  exists ds, fst (doerr_mutation bin [v] arity ds) = Ok [w] /\ bin arity w = bin arity v.
Proof.
  intros N E. exists [DRand [0%Q]; DNormal w]. split; [|congruence].
  unfold doerr_mutation, discrete_mutation. cbn [length Nat.ltb Nat.leb Nat.eqb]. cbn.
  unfold significantly_mutate, rbind. cbn. destruct (Z.eqb_spec (bin 2 w) (bin 2 v)); [congruence|reflexivity].
Qed.

(** more than 499 bins: the chosen coordinates are drawn anew, the others are untouched *)
Theorem C65_discrete_kept (parent : list Z) (arity : nat) (ds ds' : list draw) (child : list Z) :
  discrete_mutation bin parent arity ds = (Ok child, ds') ->
  exists u, In (DRand u) ds /\ uniforms (length parent) u /\ length child = length parent /\
    forall i, i < length parent -> ~ drawn_below u (1 / inject_Z (Z.of_nat (length parent))) i -> untouched parent child i.
Proof.
  intros E. destruct parent as [|a parent].
  - apply rbind_ok in E as (x & d & _ & E). discriminate.
  - rewrite discrete_masked in E by discriminate. exact (masked_kept _ _ _ _ _ _ _ E).
Qed.
Theorem C65_high_arity_refuted (arity : nat) (v : Z) : 499 < arity ->
  exists ds, fst (discrete_mutation bin [v] arity ds) = Ok [v].
Proof.
  intros Ha. exists [DRand [0%Q]; DNormal v]. unfold discrete_mutation. cbn. unfold rbind. cbn. unfold significantly_mutate.
  destruct (Nat.ltb_spec 499 arity); [reflexivity|lia].
Qed.
(** every neighbour is reachable: each coordinate may be the one which [rls_mutation] moves, to any value of another bin *)
Theorem C65_rls_reaches (parent : list Z) (arity i : nat) (v w : Z) : 2 <= arity <= 499 -> length parent <> 1 ->
  nth_error parent i = Some v -> bin arity w <> bin arity v ->
  exists ds, rls_mutation bin parent arity ds = (Ok (firstn i parent ++ w :: skipn (S i) parent), []).
Proof.
  intros Ha Hp E N. assert (Hi : i < length parent) by (apply nth_error_Some; congruence). exists [DInt i; DNormal w].
  unfold rls_mutation. destruct (Nat.eqb_spec (length parent) 1); [contradiction|]. unfold rbind, randint. cbn [Nat.leb].
  destruct (Nat.leb_spec (length parent) 0); [lia|]. cbn [andb]. destruct (Nat.ltb_spec i (length parent)); [|lia].
  unfold significantly_mutate. destruct (Nat.ltb_spec 499 arity); [lia|]. destruct (Nat.ltb_spec 1 arity); [|lia].
  rewrite (nth_error_nth _ _ 0%Z E). cbn [redraw]. destruct (Z.eqb_spec (bin arity w) (bin arity v)); [contradiction|]. reflexivity.
Qed.
(** and [discrete_mutation] may give any point which is not the parent and whose coordinates are either those of the
    parent or in other bins *)
Theorem C65_discrete_reaches (parent child : list Z) (arity : nat) : 2 <= arity <= 499 ->
  Forall2 (fun v w => w = v \/ bin arity w <> bin arity v) parent child -> child <> parent -> 2 <= length parent ->
  exists ds, discrete_mutation bin parent arity ds = (Ok child, []).
Proof.
  intros Ha H N Hl. set (same := fun p : Z * Z => Z.eqb (fst p) (snd p)). set (u := map (fun p => if same p then (3 # 4)%Q else 0%Q) (combine parent child)).
  set (ws := flat_map (fun p => if same p then [] else [DNormal (snd p)]) (combine parent child)). exists (DRand u :: ws).
  unfold discrete_mutation. destruct (Nat.eqb_spec (length parent) 0); [lia|]. unfold rbind. cbn [draw_mask].
  assert (Lc : length child = length parent) by (clear - H; induction H; cbn; congruence).
  assert (Lu : length u = length parent) by (unfold u; rewrite map_length, combine_length; lia). rewrite Lu, Nat.eqb_refl.
  replace (forallb unit_interval u) with true by (symmetry; apply forallb_forall; intros x Hx; apply in_map_iff in Hx as (p & <- & _); now destruct (same p)).
  cbn [andb]. set (rate := (1 / inject_Z (Z.of_nat (length parent)))%Q).
  assert (Hr : (0 <= rate)%Q /\ (rate < 3 # 4)%Q).
  { assert (Hz : (2 <= inject_Z (Z.of_nat (length parent)))%Q) by (replace 2%Q with (inject_Z 2) by reflexivity; rewrite <- Zle_Qle; lia).
    unfold rate. split; [apply Qle_shift_div_l; lra|]. apply Qlt_shift_div_r; lra. }
  assert (Hm : map (fun x => qlt rate x) u = map same (combine parent child)).
  { unfold u. rewrite map_map. apply map_ext. intros p. destruct (same p); [apply qlt_iff|apply qlt_false]; lra. }
  rewrite Hm. destruct (forallb (fun b => b) (map same (combine parent child))) eqn:F.
  - exfalso. apply N. rewrite forallb_forall in F. clear - F H. induction H as [|v w parent child _ H IH]; [reflexivity|]. cbn in F. f_equal.
    + specialize (F _ (or_introl eq_refl)). unfold same in F. cbn in F. now apply Z.eqb_eq in F.
    + apply IH. intros b Hb. apply F. now right.
  - assert (K : forall ds, mutate_where bin arity (map same (combine parent child)) parent (ws ++ ds) = (Ok child, ds)).
    { unfold ws. clear - H Ha. induction H as [|v w parent child Hvw H IH]; intros ds; [reflexivity|]. cbn [combine map flat_map mutate_where app].
      unfold rbind, same at 1 2. cbn [fst snd]. destruct (Z.eqb_spec v w) as [->|Nvw].
      - cbn [give app]. unfold give at 1. now rewrite IH.
      - destruct Hvw as [->|Hb]; [contradiction|]. unfold significantly_mutate. destruct (Nat.ltb_spec 499 arity); [lia|]. destruct (Nat.ltb_spec 1 arity); [|lia].
        cbn [app redraw]. destruct (Z.eqb_spec (bin arity w) (bin arity v)); [contradiction|]. now rewrite IH. }
    specialize (K []). rewrite app_nil_r in K. exact K.
Qed.
(** less than two bins: no mutation returns *)
Theorem C65_low_arity (parent : list Z) (arity : nat) (ds ds' : list draw) (child : list Z) : arity <= 1 ->
  discrete_mutation bin parent arity ds <> (Ok child, ds') /\
  (length parent <> 1 -> rls_mutation bin parent arity ds <> (Ok child, ds') /\
     forall intensity, portfolio_mutation bin parent intensity arity ds <> (Ok child, ds')).
Proof.
  intros Ha. split; [|split; [|intros intensity]].
  - destruct parent as [|a parent].
    + intros E. apply rbind_ok in E as (x & d & _ & E). discriminate.
    + rewrite discrete_masked by discriminate. apply masked_low, Ha.
  - intros E. unfold rls_mutation in E. destruct (Nat.eqb_spec (length parent) 1); [lia|].
    apply rbind_ok in E as (ind & d1 & E1 & E). apply rbind_ok in E as (w & d2 & E2 & E).
    exact (significantly_low bin _ _ _ _ _ Ha E2).
  - intros E. unfold portfolio_mutation in E. apply rbind_ok in E as (i & d1 & _ & E).
    destruct (Nat.eqb_spec (length parent) 1); [lia|]. destruct (Nat.eqb_spec (length parent) 0).
    + apply rbind_ok in E as (x & d & _ & E). discriminate.
    + exact (masked_low bin _ _ _ _ _ _ Ha E).
Qed.
(** dimension one: these two mutations draw a normal number, possibly in the same bin *)
Theorem C65_dimension_one_refuted (arity : nat) (v w : Z) (intensity : option Q) (ds : list draw) :
  rls_mutation bin [v] arity (DNormal w :: ds) = (Ok [w], ds) /\
  portfolio_mutation bin [v] intensity arity (DNormal w :: ds) = (Ok [w], ds).
Proof. split; [reflexivity|]. destruct intensity; reflexivity. Qed.

(** Failures: with two bins at least and one coordinate at least, a mutation fails only by waiting for further draws *)
Theorem C65_no_error (parent : list Z) (arity : nat) (ds ds' : list draw) (e : exn) : 2 <= arity -> parent <> [] ->
  discrete_mutation bin parent arity ds = (Err e, ds') \/ rls_mutation bin parent arity ds = (Err e, ds') \/
  (exists intensity, portfolio_mutation bin parent intensity arity ds = (Err e, ds')) \/
  (exists ratio, (0 <= ratio <= 1)%Q /\ doubledoerr_mutation bin parent ratio arity ds = (Err e, ds')) \/
  doerr_mutation bin parent arity ds = (Err e, ds') -> e = OutOfFuel.
Proof.
  intros Ha Hp.
  assert (0 < length parent) as Lp by (destruct parent; [contradiction|cbn; lia]).
  assert (forall a, 2 <= a -> discrete_mutation bin parent a ds = (Err e, ds') -> e = OutOfFuel) as HD.
  { intros a Ha' E. rewrite discrete_masked in E by exact Hp. exact (masked_err bin _ _ _ _ _ _ Ha' E). }
  assert (forall i d, portfolio_mutation bin parent i arity d = (Err e, ds') -> e = OutOfFuel) as HP.
  { intros i d E. unfold portfolio_mutation in E. apply rbind_err in E as [E|(x & d1 & E1 & E)].
    - destruct i; [discriminate|]. destruct (Nat.eqb_spec (length parent) 1); [discriminate|].
      apply rbind_err in E as [E|(x & d1 & E1 & E)]; [|discriminate]. apply randint_err in E; [exact E|lia].
    - destruct (Nat.eqb_spec (length parent) 1).
      + apply rbind_err in E as [E|(y & d2 & E2 & E)]; [exact (normal_err _ _ _ E)|discriminate].
      + destruct (Nat.eqb_spec (length parent) 0); [lia|]. exact (masked_err bin _ _ _ _ _ _ Ha E). }
  assert (forall r, (0 <= r <= 1)%Q -> doubledoerr_mutation bin parent r arity ds = (Err e, ds') -> e = OutOfFuel) as HDD.
  { intros r [R1 R2] E. unfold doubledoerr_mutation in E. apply qle_iff in R1, R2. rewrite R1, R2 in E. cbn [andb] in E.
    apply rbind_err in E as [E|(x & d1 & E1 & E)].
    - apply randint_err in E; [exact E|lia].
    - exact (HP _ _ E). }
  intros [E|[E|[[i E]|[[r [Hr E]]|E]]]].
  - exact (HD _ Ha E).
  - unfold rls_mutation in E. destruct (Nat.eqb_spec (length parent) 1).
    + apply rbind_err in E as [E|(y & d2 & E2 & E)]; [exact (normal_err _ _ _ E)|discriminate].
    + apply rbind_err in E as [E|(y & d2 & E2 & E)]; [apply randint_err in E; [exact E|lia]|].
      apply rbind_err in E as [E|(z & d3 & E3 & E)]; [|discriminate]. exact (significantly_err bin _ _ _ _ _ Ha E).
  - exact (HP _ _ E).
  - exact (HDD _ Hr E).
  - unfold doerr_mutation in E. destruct (Nat.ltb_spec (length parent) 5).
    + exact (HD 2 ltac:(lia) E).
    + apply (HDD (1 # 2)%Q); [lra|exact E].
Qed.
(** no coordinate: an error *)
Theorem C65_empty (arity : nat) (ds ds' : list draw) (child : list Z) :
  discrete_mutation bin [] arity ds <> (Ok child, ds') /\ rls_mutation bin [] arity ds = (Err ValueError, ds) /\
  portfolio_mutation bin [] None arity ds = (Err ValueError, ds).
Proof.
  split; [|split; reflexivity]. intros E. apply rbind_ok in E as (x & d & _ & E). discriminate.
Qed.

(** [crossover]: the mixed point, then at least one coordinate of it changes sign (two bins), whatever the arity *)
Theorem C65_crossover (kind : mix_kind) (pick : nat -> bool) (parent donor : list Z) (ds ds' : list draw) (child : list Z) :
  crossover bin kind pick parent donor ds = (Ok child, ds') ->
  let mixed := mix kind pick parent donor in
  exists u, In (DRand u) ds /\ uniforms (length mixed) u /\
    mutated_some bin 2 mixed child (drawn_below u (1 / inject_Z (Z.of_nat (length mixed)))).
Proof. intros E. exact (C65_discrete _ 2 _ _ _ ltac:(lia) E). Qed.

(** [coordinatewise_mutation] with two bins: the coordinates whose draw is below 1 / dimension move by their velocity,
    the others keep their bin *)
Theorem C65_coordinatewise (inverse : nat -> Q -> Z) (parent : list Z) (velocity : list Q) (signs : list bool)
  (ds ds' : list draw) (child : list Z) :
  length velocity = length parent -> length signs = length parent ->
  (forall i, 0 <= bin 2 i <= 1)%Z -> (forall k, (0 <= k <= 1)%Z -> bin 2 (inverse 2 (inject_Z k)) = k) ->
  coordinatewise_mutation bin inverse parent velocity signs 2 ds = (Ok child, ds') ->
  exists u, In (DRand u) ds /\ uniforms (length parent) u /\ length child = length parent /\
    (exists i, i < length parent /\ (nth i u 0 < 1 / inject_Z (Z.of_nat (length parent)))%Q) /\
    forall i, i < length parent ->
      let b := inject_Z (bin 2 (nth i parent 0%Z)) in
      ((nth i u 0 < 1 / inject_Z (Z.of_nat (length parent)))%Q ->
         nth i child 0%Z = inverse 2 (if nth i signs false then b + nth i velocity 0 else b - nth i velocity 0)%Q) /\
      ((1 / inject_Z (Z.of_nat (length parent)) <= nth i u 0)%Q -> bin 2 (nth i child 0%Z) = bin 2 (nth i parent 0%Z)).
Proof.
  intros Lv Ls Hb Hi E. destruct parent as [|a parent'].
  { apply rbind_ok in E as (x & d & E & _). apply rbind_ok in E as (y & d2 & _ & E). discriminate. }
  remember (a :: parent') as parent eqn:Ep. assert (length parent <> 0) as L0 by (rewrite Ep; discriminate). clear Ep.
  unfold coordinatewise_mutation in E. apply rbind_ok in E as (is & d & E & E').
  injection E' as <- <-. unfold coordinatewise_indices in E. destruct (Nat.eqb_spec (length parent) 0); [lia|].
  apply rbind_ok in E as (mask & d1 & E1 & E). injection E as <- <-.
  apply draw_some_ok in E1 as (rej & u & -> & U & -> & (x & Hx & Lx)).
  exists u. split; [apply in_app_iff; right; left; reflexivity|]. split; [exact U|].
  set (rate := (1 / inject_Z (Z.of_nat (length parent)))%Q) in *.
  assert (length u = length parent) as Lu by exact (proj1 U).
  split; [rewrite !map_length, !combine_length, map_length; lia|]. split.
  { apply (In_nth _ _ 0%Q) in Hx as (i & Hl & Ei). exists i. rewrite <- Lu, Ei. split; [exact Hl|exact Lx]. }
  intros i Hl b.
  set (f := fun x : (bool * Z) * (Q * bool) => _). set (l := combine (combine _ parent) _).
  assert (nth i l ((false, 0%Z), (0%Q, false)) = ((qlt (nth i u 0%Q) rate, nth i parent 0%Z), (nth i velocity 0%Q, nth i signs false))) as El.
  { unfold l. rewrite !combine_nth; [|lia|rewrite map_length; lia|rewrite !combine_length, map_length; lia]. f_equal. f_equal.
    rewrite (nth_indep _ false (qlt 0%Q rate)) by (rewrite map_length; lia). exact (map_nth (fun x => qlt x rate) u 0%Q i). }
  assert (length l = length parent) as Ll by (unfold l; rewrite !combine_length, map_length; lia).
  assert (nth i (map (inverse 2) (map f l)) 0%Z = inverse 2 (f (nth i l ((false, 0%Z), (0%Q, false))))) as En.
  { rewrite map_map. rewrite (nth_indep _ 0%Z (inverse 2 (f ((false, 0%Z), (0%Q, false))))) by (rewrite map_length; lia).
    exact (map_nth (fun x => inverse 2 (f x)) l _ i). }
  rewrite En, El. unfold f. cbn [fst snd]. fold b. split; intros C.
  - apply qlt_iff in C. rewrite C. reflexivity.
  - apply qlt_false in C. rewrite C. apply Hi, Hb.
Qed.
(** with more bins the centres are still those of two bins: an untouched coordinate of bin two or more goes to the
    last bin (the centre beyond the last one is replaced by the largest float [top]) *)
Theorem C65_coordinatewise_refuted (inverse : nat -> Q -> Z) (arity : nat) (x v top : Z) (velocity : list Q) (signs : list bool) :
  length velocity = 2 -> length signs = 2 -> (forall i, (2 <= i)%Q -> inverse 2 i = top) ->
  bin arity top = (Z.of_nat arity - 1)%Z -> (2 <= bin arity v < Z.of_nat arity - 1)%Z ->
  exists child, coordinatewise_mutation bin inverse [x; v] velocity signs arity [DRand [0; 9 # 10]%Q] = (Ok child, []) /\
    bin arity (nth 1 child 0%Z) <> bin arity v.
Proof.
  intros Lv Ls Ht Et Hv. destruct velocity as [|v1 [|v2 [|]]]; try discriminate. destruct signs as [|s1 [|s2 [|]]]; try discriminate.
  eexists. split; [reflexivity|]. cbn. rewrite Ht; [lia|]. change 2%Q with (inject_Z 2). rewrite <- Zle_Qle. lia.
Qed.
End S.

(** [get_roulette] gives the point with the smallest bound among distinct drawn points, [num] of them (or all) *)
Section Roulette.
Context {K : Type}.
Variable archive : list (K * Q).
Theorem C65_roulette (num : option nat) (indices : list nat) (k : K) : get_roulette archive num indices = Ok k ->
  NoDup indices /\ length indices = min (match num with Some n => n | None => default_num (length archive) end) (length archive) /\
  exists i b, In i indices /\ nth_error archive i = Some (k, b) /\
    forall j kb, In j indices -> nth_error archive j = Some kb -> (b <= snd kb)%Q.
Proof.
  intros E. apply roulette_ok in E as (L & N & x & l & F & ->). split; [exact N|]. split; [exact L|].
  assert (forall y, In y (x :: l) -> exists i, In i indices /\ nth_error archive i = Some y) as B.
  { clear -F. induction F as [|i y is ys H F IH]; intros z [].
    - subst z. exists i. split; [left; reflexivity|exact H].
    - destruct (IH z H0) as (j & Hj & Ej). exists j. split; [right; exact Hj|exact Ej]. }
  assert (forall j y, In j indices -> nth_error archive j = Some y -> In y (x :: l)) as C.
  { clear -F. induction F as [|i y is ys H F IH]; intros j z [] E.
    - subst j. left. congruence.
    - right. exact (IH j z H0 E). }
  destruct (B _ (min_by_in l x)) as (i & Hi & Ei). exists i, (snd (min_by x l)). split; [exact Hi|].
  split; [rewrite Ei; destruct (min_by x l); reflexivity|].
  intros j kb Hj Ej. apply min_by_le. exact (C j kb Hj Ej).
Qed.
(** with as many draws as points, the point has the smallest bound of the archive *)
Theorem C65_roulette_all (n : nat) (indices : list nat) (k : K) : length archive <= n ->
  get_roulette archive (Some n) indices = Ok k ->
  exists b, In (k, b) archive /\ forall kb, In kb archive -> (b <= snd kb)%Q.
Proof.
  intros Hn E. destruct (C65_roulette _ _ _ E) as (N & L & i & b & Hi & Ei & M). cbn in L. rewrite Nat.min_r in L by exact Hn.
  exists b. split; [exact (nth_error_In _ _ Ei)|]. intros kb Hk. apply In_nth_error in Hk as [j Ej].
  apply (M j kb); [|exact Ej].
  assert (incl indices (seq 0 (length archive))) as I1.
  { assert (G : exists x l, Forall2 (fun i x => nth_error archive i = Some x) indices (x :: l)).
    { apply roulette_ok in E as (_ & _ & x & l & F & _). eauto. }
    destruct G as (x & l & F). intros p Hp. apply in_seq. split; [lia|]. cbn.
    clear -F Hp. induction F as [|q y is ys H F IH]; [destruct Hp|]. destruct Hp as [<-|Hp]; [|exact (IH Hp)].
    apply nth_error_Some. congruence. }
  assert (incl (seq 0 (length archive)) indices) as I2.
  { apply NoDup_length_incl; [exact N|rewrite seq_length; lia|exact I1]. }
  apply I2, in_seq. split; [lia|]. cbn. apply nth_error_Some. congruence.
Qed.
(** nothing to choose from *)
Theorem C65_roulette_empty (num : option nat) (indices : list nat) : archive = [] -> get_roulette archive num indices = Err ValueError.
Proof. intros ->. reflexivity. Qed.
Theorem C65_roulette_zero (k : K) (indices : list nat) : get_roulette archive (Some 0) indices <> Ok k.
Proof.
  intros E. destruct (C65_roulette _ _ _ E) as (_ & L & i & b & Hi & _). destruct indices; [destruct Hi|discriminate].
Qed.
End Roulette.

(** the default number of draws is the integer part of 0.999 + sqrt n (both sides multiplied by a thousand and squared) *)
Theorem C65_default_num (n : nat) : let k := Z.of_nat (default_num n) in
  ((1000 * k - 999 <= 0 \/ (1000 * k - 999) ^ 2 <= 1000000 * Z.of_nat n) /\ 1000000 * Z.of_nat n < (1000 * k + 1) ^ 2)%Z.
Proof.
  cbv zeta. unfold default_num. set (m := Z.of_nat (Nat.sqrt n)).
  assert (m * m <= Z.of_nat n < (m + 1) * (m + 1))%Z as [S1 S2].
  { destruct (Nat.sqrt_spec n (Nat.le_0_l n)) as [A B]. unfold m. split; nia. }
  assert (0 <= m)%Z as M0 by (unfold m; lia).
  destruct (Z.leb_spec ((1000 * m + 1) * (1000 * m + 1)) (1000000 * Z.of_nat n)); rewrite Z2Nat.id by lia; split; nia.
Qed.

(** ** Concrete cases: equal bins of [-100, 100], negative and positive for two bins *)
Definition some_bin (arity : nat) (v : Z) : Z :=
  if arity =? 2 then (if (0 <? v)%Z then 1%Z else 0%Z)
  else Z.max 0 (Z.min (Z.of_nat arity - 1) (Z.of_nat arity * (v + 100) / 200)).
Definition some_parent : list Z := [-90; 10; 50; 95; 0]%Z.
Definition mask1 : draw := DRand [1#10; 9#10; 5#10; 15#100; 7#10]%Q.
(** the first vector is rejected; then the first and the fourth coordinates are mutated, the fourth after two refused values *)
Example some_discrete : discrete_mutation some_bin some_parent 5
    [DRand [9#10; 9#10; 5#10; 6#10; 7#10]%Q; mask1; DNormal 30; DNormal 99; DNormal 70; DNormal (-5)]
  = (Ok [30; 10; 50; -5; 0]%Z, []).
Proof. vm_compute. reflexivity. Qed.
Example some_portfolio : portfolio_mutation some_bin some_parent None 5 [DInt 3; mask1; DNormal 30; DNormal (-80); DNormal (-5)]
  = (Ok [30; 10; -80; -5; 0]%Z, []).
Proof. vm_compute. reflexivity. Qed.
Example some_rls : rls_mutation some_bin some_parent 5 [DInt 1; DNormal 12; DNormal 30] = (Ok [-90; 30; 50; 95; 0]%Z, []).
Proof. vm_compute. reflexivity. Qed.
Example some_reached : exists ds, discrete_mutation some_bin some_parent 5 ds = (Ok [-90; 30; 50; 95; -90]%Z, []).
Proof. apply C65_discrete_reaches; [lia| |discriminate|cbn; lia]. repeat (constructor; [vm_compute; auto; right; discriminate|]). constructor. Qed.
Example some_doerr : doerr_mutation some_bin some_parent 5 [DInt 1; mask1; DNormal 30; DNormal (-5)] = (Ok [30; 10; 50; -5; 0]%Z, []).
Proof. vm_compute. reflexivity. Qed.
Example some_doerr_small : some_bin 2 (-5) <> some_bin 2 5 /\ some_bin 3 (-5) = some_bin 3 5.
Proof. vm_compute. split; [discriminate|reflexivity]. Qed.
Example some_crossover : crossover some_bin MMax (fun _ => true) some_parent [-95; 20; 60; 20; 10]%Z [mask1; DNormal (-3); DNormal 1; DNormal (-4)]
  = (Ok [1; 10; 50; -4; 0]%Z, []).
Proof. vm_compute. reflexivity. Qed.
Definition some_inverse (arity : nat) (i : Q) : Z := if qlt i 0 then (-1000)%Z else if qle 2 i then 1000%Z else if qlt i 1 then (-67)%Z else 67%Z.
Example some_coordinatewise : coordinatewise_mutation some_bin some_inverse [-5; 5]%Z [1; 1]%Q [true; false] 2 [DRand [9#10; 2#10]%Q]
  = (Ok [-67; -67]%Z, []) /\ (forall i, 0 <= some_bin 2 i <= 1)%Z /\ (forall k, (0 <= k <= 1)%Z -> some_bin 2 (some_inverse 2 (inject_Z k)) = k).
Proof.
  split; [vm_compute; reflexivity|]. split.
  - intros i. unfold some_bin. cbn. destruct (0 <? i)%Z; lia.
  - intros k Hk. assert (k = 0 \/ k = 1)%Z as [-> | ->] by lia; reflexivity.
Qed.
Example some_coordinatewise_five : (2 <= some_bin 5 5 < Z.of_nat 5 - 1)%Z /\ some_bin 5 1000 = (Z.of_nat 5 - 1)%Z /\ some_inverse 2 2 = 1000%Z.
Proof. vm_compute. repeat split; discriminate. Qed.
Example some_roulette : get_roulette [(10, 3%Q); (11, 1%Q); (12, 2%Q); (13, 5%Q)] (Some 3) [3; 0; 2] = Ok 12.
Proof. vm_compute. reflexivity. Qed.
Example some_default_num : map default_num [0; 1; 2; 4; 5; 16; 17] = [0; 1; 2; 2; 3; 4; 5].
Proof. vm_compute. reflexivity. Qed.

Print Assumptions C65_discrete.
Print Assumptions C65_portfolio.
Print Assumptions C65_portfolio_default.
Print Assumptions C65_rls.
Print Assumptions C65_rls_reaches.
Print Assumptions C65_discrete_reaches.
Print Assumptions C65_doubledoerr.
Print Assumptions C65_doerr.
Print Assumptions C65_doerr_small.
Print Assumptions C65_doerr_small_refuted.
Print Assumptions C65_discrete_kept.
Print Assumptions C65_high_arity_refuted.
Print Assumptions C65_low_arity.
Print Assumptions C65_dimension_one_refuted.
Print Assumptions C65_no_error.
Print Assumptions C65_empty.
Print Assumptions C65_crossover.
Print Assumptions C65_coordinatewise.
Print Assumptions C65_coordinatewise_refuted.
Print Assumptions C65_roulette.
Print Assumptions C65_roulette_all.
Print Assumptions C65_roulette_empty.
Print Assumptions C65_roulette_zero.
Print Assumptions C65_default_num.

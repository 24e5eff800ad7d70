(** Property C06: point statistics. *)
From Coq Require Import List Arith ZArith QArith Bool.
From Verif.Model Require Import MultiValue.
From Verif.Spec Require Import MultiValue.
From Verif.Proofs Require MultiValue.
Import ListNotations.
Open Scope Q_scope.

(** C06: count, mean, minimum and mean square of a point are those of all the
    values it was evaluated to, in whatever order they came. *)
Theorem C06_statistics_exact : forall (msqrt : Q -> Q) c y ys, Forall in_range ys ->
  let m := mv_eval msqrt c y ys in
  mv_count m = length (y :: ys) /\
  mv_est msqrt Average m == meanQ (y :: ys) /\
  is_minimum (mv_est msqrt Minimum m) (y :: ys) /\
  mv_square m == meanQ (map (fun z => z * z) (y :: ys)).
Proof.
  exact (fun msqrt c y ys H =>
    match MultiValue.eval_stats msqrt c y ys H with
    | MultiValue.Build_stats _ _ a b c d => conj a (conj b (conj c d)) end).
Qed.
Print Assumptions C06_statistics_exact.

(** C06: a re-evaluation beyond +-1e10 counts for the closest value of that range, on
    both sides. *)
Theorem C06_clipping_exact : forall (msqrt : Q -> Q) c y ys,
  exists zs, Forall2 nearest_in_range ys zs /\
  let m := mv_eval msqrt c y ys in
  mv_count m = length (y :: ys) /\
  mv_est msqrt Average m == meanQ (y :: zs) /\
  is_minimum (mv_est msqrt Minimum m) (y :: zs) /\
  mv_square m == meanQ (map (fun z => z * z) (y :: zs)).
Proof.
  intros msqrt c y ys. destruct (MultiValue.eval_clipped msqrt c y ys) as (zs & H & Hr & ->).
  exists zs. split; [exact H|]. destruct (C06_statistics_exact msqrt c y zs Hr) as (A & B).
  split; [|exact B]. rewrite A. cbn. f_equal. symmetry. clear - H. induction H; cbn; congruence.
Qed.
Print Assumptions C06_clipping_exact.

(** C06: after a re-evaluation the variance is sqrt(n/(n-1)) times the
    population variance of all the values. *)
Theorem C06_variance_exact : forall (msqrt : Q -> Q) c y ys z, Forall in_range (ys ++ [z]) ->
  mv_var (mv_eval msqrt c y (ys ++ [z]))
  == msqrt (qnat (length ys + 2) / (qnat (length ys + 2) - 1)) * varQ (y :: ys ++ [z]).
Proof. exact MultiValue.eval_var. Qed.
Print Assumptions C06_variance_exact.

(** C06: the population variance vanishes exactly on constant lists. *)
Theorem C06_variance_zero_iff_constant : forall l, l <> [] ->
  (varQ l == 0 <-> forall x y, In x l -> In y l -> x == y).
Proof. exact MultiValue.varQ_zero. Qed.
Print Assumptions C06_variance_zero_iff_constant.

(** C06: whatever the values (clipped or not), the variance is never negative
    and optimistic <= average <= pessimistic. *)
Theorem C06_bounds_ordered : forall msqrt, nonneg_fun msqrt -> forall c y ys,
  let m := mv_eval msqrt c y ys in
  mv_est msqrt Optimistic m <= mv_est msqrt Average m /\
  mv_est msqrt Average m <= mv_est msqrt Pessimistic m.
Proof. exact MultiValue.eval_bounds. Qed.
Print Assumptions C06_bounds_ordered.

Theorem C06_variance_nonneg : forall msqrt, nonneg_fun msqrt -> forall c y ys,
  0 <= mv_var (mv_eval msqrt c y ys).
Proof. exact MultiValue.eval_var_nonneg. Qed.
Print Assumptions C06_variance_nonneg.

Example C06_example : Forall in_range [3; 5] /\ nonneg_fun (fun x => x) /\
  let m := mv_eval (fun x => x) 7 1 [3; 5] in
  mv_count m = 3%nat /\ mv_mean m == 3 /\ mv_min m == 1 /\ mv_var m == 4.
Proof.
  split; [repeat constructor; discriminate|]. split; [now intros x H|]. repeat split.
Qed.

(** Finding: a re-evaluation beyond +-1e10 is clipped, so the recorded minimum
    is not the minimum of the told values. *)
Theorem C06_clipped_minimum_refuted : exists y ys,
  ~ is_minimum (mv_min (mv_eval (fun x => x) 0 y ys)) (y :: ys).
Proof.
  exists 0, [- (1000000000000000 # 1)]. intros [_ H].
  specialize (H (- (1000000000000000 # 1)) (or_intror (or_introl eq_refl))).
  vm_compute in H. apply H. reflexivity.
Qed.
Print Assumptions C06_clipped_minimum_refuted.

(** C101: the legends of a plot are put as near as possible to their curves *)
From Coq Require Import List Arith QArith Lia Lqa.
From Verif.Model Require Import Prelude MultiValue Legends.
From Verif.Spec Require Import Legends.
From Verif.Proofs Require Import Legends.
Import ListNotations.
Open Scope Q_scope.

(** For all sorted positions, the function ends with no error, with as many positions, in the same order, each at least
    [d] above the one before; and all other placements which respect this distance move the legends by more: the sum of
    the squares of the moves is larger, by at least the square of the distance to the one returned. *)
Theorem C101_best d positions : apart 0 positions -> exists r, compute_best_placements d positions = Ok r /\
  length r = length positions /\ apart d r /\
  forall q, length q = length positions -> apart d q -> moves r positions + moves q r <= moves q positions.
Proof. intros A. apply placements_spec, apart0_rising, A. Qed.
Print Assumptions C101_best.
(** So it is the only one with this sum or less. *)
Theorem C101_unique d positions r q : compute_best_placements d positions = Ok r -> length q = length positions -> apart d q ->
  moves q positions <= moves r positions -> Forall2 Qeq q r.
Proof.
  intros E L A M. assert (S0 : apart 0 positions).
  { apply apart0_rising, rising_pairs. unfold compute_best_placements in E. destruct (forallb _ _); [reflexivity|discriminate E]. }
  destruct (C101_best d positions S0) as (r' & E' & L' & _ & B). assert (r' = r) by congruence. subst r'. specialize (B q L A). apply moves_zero; [congruence|lra].
Qed.
Print Assumptions C101_unique.
(** Legends which are already far enough stay where they are. *)
Theorem C101_unchanged d positions r : compute_best_placements d positions = Ok r -> apart d positions -> Forall2 Qeq positions r.
Proof. intros E A. apply (C101_unique d positions); [exact E|reflexivity|exact A|]. rewrite moves_same. apply moves_nonneg. Qed.
Print Assumptions C101_unchanged.
(** Together, the legends neither go up nor down: the mean of the positions is kept. *)
Theorem C101_mean d positions r : compute_best_placements d positions = Ok r -> fold_right Qplus 0 r == fold_right Qplus 0 positions.
Proof. apply placements_sum. Qed.
Print Assumptions C101_mean.
(** Positions which are not sorted are refused. *)
Theorem C101_unsorted d positions : ~ apart 0 positions -> compute_best_placements d positions = Err AssertionError.
Proof.
  intros N. unfold compute_best_placements. destruct (forallb _ _) eqn:E; [|reflexivity]. exfalso. apply N, apart0_rising, rising_pairs, E.
Qed.
Print Assumptions C101_unsorted.
(** If all the positions are integers, what is returned is truncated, and legends may be at the same place. *)
Theorem C101_integers_refuted : exists d positions r, 0 < d /\ apart 0 (map inject_Z positions) /\
  compute_best_placements_integers d positions = Ok r /\ ~ apart d (map inject_Z r).
Proof. exists 1, [0; 0]%Z, [0; 0]%Z. split; [lra|]. split; [cbn; lra|]. split; [vm_compute; reflexivity|]. cbn. lra. Qed.
Print Assumptions C101_integers_refuted.

Example four : exists r, compute_best_placements 1 [0; 0; 1 # 2; 10] = Ok r /\ Forall2 Qeq r [-5 # 6; 1 # 6; 7 # 6; 10].
Proof. eexists. split; [vm_compute; reflexivity|]. repeat constructor. Qed.
Example four_sorted : apart 0 [0; 0; 1 # 2; 10] /\ apart 1 [-1; 0; 1; 10] /\ ~ apart 1 [0; 0; 1 # 2; 10].
Proof. cbn. lra. Qed.
Example chain : exists r, compute_best_placements 1 [0; 9 # 10; 1; 2] = Ok r /\ ~ Forall2 Qeq r [0; 9 # 10; 1; 2] /\ apart 1 r.
Proof. eexists. split; [vm_compute; reflexivity|]. split; [|cbn; repeat split; vm_compute; discriminate]. intros H. inversion H. vm_compute in H3. discriminate H3. Qed.
Example not_sorted : compute_best_placements 1 [1; 0] = Err AssertionError.
Proof. reflexivity. Qed.

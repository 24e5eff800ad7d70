(** Property C10 (and the arithmetic part of C11). *)
From Coq Require Import List Arith ZArith QArith Bool.
From Verif.Model Require Import Prelude MultiValue Pruning.
From Verif.Spec Require Import Pruning.
From Verif.Proofs Require Pruning.
Import ListNotations.

(** C10: an archive shorter than max_len is returned as is. *)
Theorem C10_below_max_len_unchanged : forall A min_len max_len (ests : list (A -> Q)) archive,
  (length archive < max_len)%nat -> prune min_len max_len ests archive = Ok archive.
Proof. exact (@Pruning.prune_below). Qed.
Print Assumptions C10_below_max_len_unchanged.

(** C10: from max_len on (and if longer than min_len) pruning keeps, in order and
    unchanged, exactly the entries which in one of the criteria have at most
    min_len entries (themselves included) with an estimate not above theirs;
    at most (number of criteria) * min_len remain. *)
Theorem C10_keeps_exactly_the_best : forall A min_len max_len (ests : list (A -> Q)) archive,
  (max_len <= length archive)%nat -> (min_len + 1 <= length archive)%nat ->
  exists keep, prune min_len max_len ests archive = Ok (filter keep archive) /\
    (forall v, In v archive ->
       keep v = true <-> exists e, In e ests /\ (rank e archive v <= min_len)%nat) /\
    (length (filter keep archive) <= length ests * min_len)%nat.
Proof. exact (@Pruning.prune_above). Qed.
Print Assumptions C10_keeps_exactly_the_best.

(** C10: without ties in a criterion, exactly min_len entries are kept for it. *)
Theorem C10_no_ties_exact_number : forall A (e : A -> Q) archive min_len,
  no_ties e archive -> (min_len <= length archive)%nat ->
  count (fun v => (rank e archive v <=? min_len)%nat) archive = min_len.
Proof. exact (@Pruning.rank_exact). Qed.
Print Assumptions C10_no_ties_exact_number.

(** C10: whatever the lengths, what is returned is a sub-archive. *)
Theorem C10_never_invents : forall A min_len max_len (ests : list (A -> Q)) archive archive',
  prune min_len max_len ests archive = Ok archive' -> sublist archive' archive.
Proof. exact (@Pruning.prune_sublist). Qed.
Print Assumptions C10_never_invents.

Definition ex_archive : list Q := [5; 1; 4; 2; 3]%Q.
Example C10_example : prune 2 5 [fun x => x] ex_archive = Ok [1; 2]%Q /\
  (5 <= length ex_archive)%nat /\ (2 + 1 <= length ex_archive)%nat.
Proof. repeat split; cbn; repeat constructor. Qed.

(** Finding: with ties the archive can be emptied. *)
Theorem C10_ties_may_empty_refuted : exists archive : list Q, archive <> [] /\
  prune 2 5 [fun x => x] archive = Ok [].
Proof. exists [1; 1; 1; 1; 1]%Q. split; [easy|reflexivity]. Qed.
Print Assumptions C10_ties_may_empty_refuted.

(** C11: the default thresholds. *)
Theorem C11_default_thresholds : forall num_workers dimension m M, (0 < dimension)%Z ->
  sensible_default num_workers dimension = (m, M) ->
  (100 <= m /\ 7 * num_workers <= m /\ 3 * m <= M <= 10 * m)%Z.
Proof. exact Pruning.sensible_default_bounds. Qed.
Print Assumptions C11_default_thresholds.

Example C11_default_example : sensible_default 20 3 = (140, 1400)%Z /\
  sensible_default 1 1000000 = (100, 300)%Z.
Proof. split; reflexivity. Qed.

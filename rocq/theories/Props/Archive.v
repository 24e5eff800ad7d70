(** Properties C07, C08, C09, C11: archive, current bests and recommendation. *)
From Coq Require Import List Arith ZArith QArith Bool Lia Lqa.
From Verif.Model Require Import Prelude MultiValue Pruning Archive.
From Verif.Spec Require Import MultiValue Pruning Archive.
From Verif.Proofs Require Pruning Archive.
Import ListNotations.

(** C07: for a deterministic problem, after any non-empty history of tells of
    distinct candidate objects, the recommendation is a told candidate with the
    smallest told loss, whatever sub-archive the pruning keeps. *)
Theorem C07_recommendation_is_best_told : forall msqrt pruning, sub_pruning pruning ->
  forall hist, hist <> [] -> distinct_candidates hist -> losses_in_range hist ->
  exists t, best_told t hist /\
    arch_recommend true (arch_run msqrt pruning arch_init hist) = Some (t_cand t).
Proof. exact Archive.recommend_best. Qed.
Print Assumptions C07_recommendation_is_best_told.

(** the default pruning satisfies the hypothesis *)
Theorem C07_default_pruning_applies : forall msqrt min_len max_len,
  sub_pruning (default_pruning msqrt min_len max_len).
Proof. exact Archive.default_pruning_sub. Qed.
Print Assumptions C07_default_pruning_applies.

Definition ex_hist : list told :=
  [(10%nat, 1%nat, 5); (11%nat, 2%nat, 3); (12%nat, 1%nat, 2); (13%nat, 3%nat, 4); (14%nat, 2%nat, 7)]%Q.
Example C07_example : ex_hist <> [] /\ distinct_candidates ex_hist /\ losses_in_range ex_hist /\
  arch_recommend true (arch_run (fun x => x) (default_pruning (fun x => x) 1 3) arch_init ex_hist) = Some 12%nat.
Proof.
  split; [easy|]. split; [|split; [|vm_compute; reflexivity]].
  - repeat constructor; cbn; intuition lia.
  - unfold losses_in_range, in_range; repeat constructor; cbn; lra.
Qed.

(** Finding: re-evaluations beyond +-1e10 are clipped, the recommendation is then
    not the best told point. *)
Theorem C07_out_of_range_refuted : exists hist t', distinct_candidates hist /\ In t' hist /\
  exists t, In t hist /\ (t_loss t' < t_loss t)%Q /\
    arch_recommend true (arch_run (fun x => x) no_pruning arch_init hist) = Some (t_cand t) /\
    (forall t2, In t2 hist -> t_cand t2 = t_cand t -> t2 = t).
Proof.
  exists [(0%nat, 0%nat, 0); (1%nat, 1%nat, -(20000000000)); (2%nat, 0%nat, -(50000000000))]%Q.
  exists (2%nat, 0%nat, -(50000000000))%Q. split.
  { repeat constructor; cbn; intuition lia. }
  split; [cbn; auto|].
  exists (1%nat, 1%nat, -(20000000000))%Q. split; [cbn; auto|]. split; [reflexivity|].
  split; [vm_compute; reflexivity|].
  intros t2 [<-|[<-|[<-|[]]]]; cbn; congruence.
Qed.
Print Assumptions C07_out_of_range_refuted.

(** C08: after any history and for any pruning, each current best is at least as
    good, for its criterion, as every point of the archive. *)
Theorem C08_best_minimises_criterion : forall msqrt pruning, sub_pruning pruning ->
  forall hist n k id, let s := arch_run msqrt pruning arch_init hist in
  In (k, id) (st_archive s) ->
  exists b, st_bests s n = Some b /\
    (mv_est msqrt n (hget (st_heap s) b) <= mv_est msqrt n (hget (st_heap s) id))%Q.
Proof.
  exact (fun msqrt pruning Hp hist n k id =>
    Archive.i8_min msqrt _ (Archive.inv8_run msqrt pruning Hp _ hist (Archive.inv8_init msqrt)) n (k, id)).
Qed.
Print Assumptions C08_best_minimises_criterion.

Theorem C08_identifiers_valid : forall msqrt pruning, sub_pruning pruning ->
  forall hist, let s := arch_run msqrt pruning arch_init hist in
  (forall p, In p (st_archive s) -> (snd p < length (st_heap s))%nat) /\
  (forall n b, st_bests s n = Some b -> (b < length (st_heap s))%nat).
Proof.
  exact (fun msqrt pruning Hp hist =>
    let i := Archive.inv8_run msqrt pruning Hp _ hist (Archive.inv8_init msqrt) in
    conj (Archive.i8_arch _ _ i) (Archive.i8_bests _ _ i)).
Qed.
Print Assumptions C08_identifiers_valid.

Example C08_example :
  let s := arch_run (fun _ => 0%Q) (default_pruning (fun _ => 0%Q) 1 4) arch_init
             (ex_hist ++ [(15%nat, 1%nat, 100%Q)]) in
  st_archive s <> [] /\ st_bests s Minimum <> st_bests s Pessimistic.
Proof. vm_compute. split; discriminate. Qed.

(** Finding: a current best need not be in the (non-empty) archive any more:
    pruning ignores the minimum criterion. *)
Theorem C08_best_may_leave_archive_refuted : exists hist,
  let s := arch_run (fun _ => 0%Q) (default_pruning (fun _ => 0%Q) 1 3) arch_init hist in
  st_archive s <> [] /\ exists b, st_bests s Minimum = Some b /\ ~ In b (map snd (st_archive s)).
Proof.
  exists [(10%nat, 1%nat, 0); (11%nat, 1%nat, 1000); (12%nat, 2%nat, 1); (13%nat, 3%nat, 2)]%Q.
  vm_compute. split; [discriminate|]. eexists. split; [reflexivity|]. intuition discriminate.
Qed.
Print Assumptions C08_best_may_leave_archive_refuted.

(** C09: as long as the pruning leaves archives of at most the number of distinct
    told points unchanged, the archive holds exactly the told points in first-told
    order with exact statistics, and a candidate of least loss for each. *)
Theorem C09_archive_exact : forall msqrt pruning hist,
  distinct_candidates hist -> losses_in_range hist ->
  (forall h a, (length a <= length (first_occurrences (map t_key hist)))%nat -> pruning h a = Ok a) ->
  let s := arch_run msqrt pruning arch_init hist in
  map fst (st_archive s) = first_occurrences (map t_key hist) /\
  forall k id, In (k, id) (st_archive s) ->
    let m := hget (st_heap s) id in let l := losses_of k hist in
    mv_count m = length l /\ (mv_mean m == meanQ l)%Q /\ is_minimum (mv_min m) l /\
    (mv_square m == meanQ (map (fun y => y * y) l))%Q /\
    exists y, In (mv_param m, k, y) hist /\ is_minimum y l.
Proof. exact Archive.archive_exact. Qed.
Print Assumptions C09_archive_exact.

(** the hypothesis on pruning holds with pruning disabled, and with the default
    pruning while there are fewer distinct points than max_len *)
Theorem C09_default_pruning_applies : forall msqrt min_len max_len hist,
  (length (first_occurrences (map t_key hist)) < max_len)%nat ->
  forall h a, (length a <= length (first_occurrences (map t_key hist)))%nat ->
  default_pruning msqrt min_len max_len h a = Ok a.
Proof.
  exact (fun msqrt m M hist Hlt h a Hle =>
    Pruning.prune_below m M _ a (Nat.le_lt_trans _ _ _ Hle Hlt)).
Qed.
Print Assumptions C09_default_pruning_applies.

Example C09_example :
  map fst (st_archive (arch_run (fun x => x) no_pruning arch_init ex_hist)) = [1; 2; 3]%nat.
Proof. reflexivity. Qed.

(** C11: with the default pruning (its thresholds for any number of workers and any
    dimension), after any history the archive has fewer than max_len points or at
    most 3 * min_len, hence never more than max_len; and pruning never fails. *)
Theorem C11_archive_bounded : forall msqrt num_workers dimension m M, (0 < dimension)%Z ->
  sensible_default num_workers dimension = (m, M) ->
  forall hist,
  let s := arch_run msqrt (default_pruning msqrt (Z.to_nat m) (Z.to_nat M)) arch_init hist in
  (Z.of_nat (length (st_archive s)) < M \/ Z.of_nat (length (st_archive s)) <= 3 * m)%Z /\
  (Z.of_nat (length (st_archive s)) <= M)%Z.
Proof.
  exact Archive.default_bounded.
Qed.
Print Assumptions C11_archive_bounded.

Theorem C11_pruning_never_fails : forall msqrt min_len max_len s t, (min_len + 1 <= max_len)%nat ->
  snd (arch_tell msqrt (default_pruning msqrt min_len max_len) s t) = Ok tt.
Proof. exact Archive.default_never_fails. Qed.
Print Assumptions C11_pruning_never_fails.

Example C11_example : exists m M, sensible_default 3 2 = (m, M) /\ (m < M)%Z.
Proof. exists 100%Z, 1000%Z. split; reflexivity. Qed.

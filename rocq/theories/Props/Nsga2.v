(** C27: ranking and selection of NSGA-II *)
From Coq Require Import QArith ZArith Bool List Arith Lia Permutation Sorting.
From Verif.Model Require Import Prelude MultiValue Nsga2.
From Verif.Spec Require Import Nsga2 Pareto.
From Verif.Proofs Require Import Prelude MultiValue BatchRecast Nsga2.
Import ListNotations.
Open Scope nat_scope.

(** The first candidate wins a comparison exactly when the second one loses it, a dominating candidate always wins, and with at most two
    objectives only a dominating one does. *)
Theorem C27_compare : forall a b, length a = length b ->
  (compare a b = (-1)%Z <-> compare b a = 1%Z) /\ (dom a b -> compare a b = (-1)%Z) /\ (length a <= 2 -> compare a b = (-1)%Z -> dom a b).
Proof.
  intros a b H. split; [rewrite (compare_anti a b); split; intros E; lia|]. split; [apply dom_wins; exact H|apply two_dom; exact H].
Qed.
(** With three objectives, a candidate may win without dominating. *)
Theorem C27_majority_refuted : exists a b, length a = 3 /\ length b = 3 /\ compare a b = (-1)%Z /\ ~ dom a b.
Proof.
  exists [0; 0; 1]%Q, [1; 1; 0]%Q. repeat split. intros [H _]. unfold vle in H. inversion H as [|? ? ? ? _ H1]; subst. inversion H1 as [|? ? ? ? _ H2]; subst. inversion H2 as [|? ? ? ? H3 _]; subst.
  revert H3. unfold Qle. cbn. lia.
Qed.

(** The fronts, for any population: the candidates losing to none, those losing only to these, ... The ranking never raises. *)
Theorem C27_fronts : forall pop, exists fronts, compute_ranking pop None = Ok fronts /\
  fronts_of (length pop) (fun i j => compare (losses_at pop i) (losses_at pop j) = (-1)%Z) fronts.
Proof. intros pop. apply ranking_fronts. intros i j. apply compare_anti. Qed.
(** With one or two objectives: every candidate is in one front, is dominated only by candidates of earlier fronts, and dominated by one of
    the previous front. *)
Theorem C27_two_objectives : forall pop d fronts, d <= 2 -> (forall x, In x pop -> length x = d) -> compute_ranking pop None = Ok fronts ->
  Permutation (concat fronts) (seq 0 (length pop)) /\
  (forall f i g j, In i (nth f fronts []) -> In j (nth g fronts []) -> dom (losses_at pop j) (losses_at pop i) -> g < f) /\
  (forall f i, In i (nth (S f) fronts []) -> exists j, In j (nth f fronts []) /\ dom (losses_at pop j) (losses_at pop i)).
Proof.
  intros pop d fronts Hd Hdim E. destruct (C27_fronts pop) as [fs [E' HF]]. rewrite E in E'. injection E' as <-.
  assert (Hlen : forall i, i < length pop -> length (losses_at pop i) = d) by (intros i Hi; apply Hdim, nth_In; exact Hi).
  assert (Hdom : forall i j, i < length pop -> j < length pop -> compare (losses_at pop i) (losses_at pop j) = (-1)%Z <-> dom (losses_at pop i) (losses_at pop j)).
  { intros i j Hi Hj. pose proof (Hlen i Hi). pose proof (Hlen j Hj). split; [apply two_dom; lia|apply dom_wins; lia]. }
  assert (Hin : forall f i, In i (nth f fronts []) -> i < length pop) by (intros f i Hi; apply (candidates_only _ _ _ HF), in_concat_nth; exists f; exact Hi).
  split; [|split].
  - apply (fronts_all (length pop) (fun i j => compare (losses_at pop i) (losses_at pop j) = (-1)%Z)); [intros i j; apply Z.eq_dec| | |exact HF].
    + intros i Hi. pose proof (compare_anti (losses_at pop i) (losses_at pop i)). lia.
    + intros i j k Hi Hj Hk H1 H2. apply Hdom; [exact Hi|exact Hk|]. apply Hdom in H1, H2; try assumption. exact (dom_trans _ _ _ H1 H2).
  - intros f i g j Hi Hj Hd'. apply Hdom in Hd'; [|exact (Hin g j Hj)|exact (Hin f i Hi)]. destruct (beaten_by_earlier _ _ _ HF f i j Hi (Hin g j Hj) Hd') as [g' [Hg' Hj']].
    assert (g = g'); [|lia]. pose proof (once _ _ _ HF) as Hnd. clear - Hnd Hj Hj'. revert g g' Hj Hj'. induction fronts as [|x fs IH]; intros g g' Hj Hj'; [destruct g; contradiction|].
    cbn in Hnd. apply NoDup_app_split in Hnd as [_ [Hnd Hdisj]]. assert (Hc : forall k, In j (nth k fs []) -> In j (concat fs)) by (intros k Hk; apply in_concat_nth; exists k; exact Hk).
    destruct g as [|g], g' as [|g']; cbn in Hj, Hj'; [reflexivity| | |f_equal; exact (IH Hnd g g' Hj Hj')]; exfalso; eapply Hdisj; eauto.
  - intros f i Hi. destruct (beaten_by_previous _ _ _ HF f i Hi) as [j [Hj Hb]]. exists j. split; [exact Hj|]. apply Hdom; [exact (Hin f j Hj)|exact (Hin (S f) i Hi)|exact Hb].
Qed.
(** With three objectives the comparisons may go round in circles, and then no candidate is ranked nor selected. *)
Theorem C27_cycle_refuted : exists pop, length pop = 3 /\ (forall x, In x pop -> length x = 3) /\
  (forall x y, In x pop -> In y pop -> ~ dom x y) /\ compute_ranking pop None = Ok [] /\ rank pop (Some 2) = Ok [] /\ rank pop None = Ok [].
Proof.
  exists [[0; 1; 2]; [1; 2; 0]; [2; 0; 1]]%Q. split; [reflexivity|]. split; [intros x [<-|[<-|[<-|[]]]]; reflexivity|]. split; [|repeat split; reflexivity].
  intros x y Hx Hy Hdom. pose proof Hdom as [H _]. destruct Hx as [<-|[<-|[<-|[]]]]; destruct Hy as [<-|[<-|[<-|[]]]]; try exact (dom_irr _ Hdom); clear Hdom;
    unfold vle in H; inversion H as [|? ? ? ? A1 H1]; subst; inversion H1 as [|? ? ? ? A2 H2]; subst; inversion H2 as [|? ? ? ? A3 _]; subst; revert A1 A2 A3; unfold Qle; cbn; lia.
Qed.
(** With a number [k]: the first fronts, no fewer than needed to have k candidates, and no more. *)
Theorem C27_trimmed : forall pop k fronts, compute_ranking pop None = Ok fronts ->
  exists m, compute_ranking pop (Some k) = Ok (firstn m fronts) /\ (m = length fronts \/ k <= length (concat (firstn m fronts))) /\
    (forall m', 0 < m' < m -> length (concat (firstn m' fronts)) < k) /\ (fronts <> [] -> 0 < m).
Proof.
  intros pop k fronts E. unfold compute_ranking in *. apply (ranking_trim _ _ k) in E. destruct (trim_spec k fronts 0) as [m [E2 [H1 [H2 H3]]]]. exists m.
  rewrite E, E2. split; [reflexivity|]. split; [exact H1|]. split; [exact H2|]. intros Hne. apply H3. exact Hne.
Qed.

(** Selecting [n] candidates: as many as possible, earlier fronts first, and in the front from which only some are taken, the least crowded; ranks follow fronts,
    and in that last front the distances. *)
Theorem C27_selection : forall pop d n fronts sel, 0 < d -> (forall x, In x pop -> length x = d) -> compute_ranking pop None = Ok fronts -> rank pop (Some n) = Ok sel ->
  NoDup (map e_cand sel) /\ length sel = Nat.min n (length (concat fronts)) /\
  exists D, (forall f, f < length fronts -> crowding pop d (nth f fronts []) (D f)) /\
    forall e, In e sel -> In (e_cand e) (nth (e_front e) fronts []) /\
      (forall g v, g < e_front e -> In v (nth g fronts []) -> In v (map e_cand sel)) /\
      (forall v, In v (nth (e_front e) fronts []) -> ~ In v (map e_cand sel) -> dle (D (e_front e) v) (D (e_front e) (e_cand e))) /\
      (forall e', In e' sel -> e_front e < e_front e' -> e_rank e < e_rank e') /\
      (forall e', In e' sel -> e_front e = e_front e' -> e_rank e < e_rank e' -> dle (D (e_front e) (e_cand e')) (D (e_front e) (e_cand e))).
Proof.
  intros pop d n fronts sel Hd Hdim E Er. unfold rank in Er. rewrite E in Er. cbn [bind] in Er. injection Er as <-.
  destruct (C27_fronts pop) as [fs [E' HF]]. rewrite E in E'. injection E' as <-.
  destruct (rank_loop_some pop n fronts 0 0 0 (repeat (Fin 0) (length pop)) [] eq_refl (Nat.le_0_l n)) as [new [En [L [[rest HP] [HR [HFr [HD [HQ HV]]]]]]]].
  rewrite En. cbn [app]. pose proof (once _ _ _ HF) as Hnd. split.
  { apply (Permutation_NoDup (Permutation_sym HP)) in Hnd. apply NoDup_app_split in Hnd. apply Hnd. }
  split; [rewrite Nat.sub_0_r in L; exact L|]. exists (fun k c => nth c (compute_distance pop (nth k fronts []) (repeat (Fin 0) (length pop))) (Fin 0)). split.
  { intros f Hf. apply distance_crowding; [|exact Hd|].
    - clear - Hnd Hf. revert f Hf. induction fronts as [|x fs IH]; intros f Hf; [cbn in Hf; lia|]. cbn in Hnd. apply NoDup_app_split in Hnd as [H1 [H2 _]]. destruct f as [|f]; [exact H1|]. apply IH; [exact H2|cbn in Hf; lia].
    - intros c Hc. assert (Hcl : c < length pop) by (apply (candidates_only _ _ _ HF), in_concat_nth; exists f; exact Hc). rewrite repeat_length. split; [exact Hcl|]. apply Hdim, nth_In. exact Hcl. }
  intros e He. destruct (HR e He) as [_ [k [Hk Hin]]]. cbn in Hk. subst k. split; [exact Hin|]. split; [intros g v Hg Hv; exact (HQ e (e_front e) g v He eq_refl Hg Hv)|].
  split; [intros v Hv Hnv; exact (HV e (e_front e) v He eq_refl Hv Hnv)|]. split; [intros e' He' Hl; exact (HFr e e' He He' Hl)|]. intros e' He' Hf Hr. exact (HD e e' (e_front e) He He' eq_refl (eq_sym Hf) Hr).
Qed.
(** Ranking all: every ranked candidate once, with distinct ranks from 0, by front and in each front by decreasing crowding distance. *)
Theorem C27_all_ranked : forall pop d fronts sel, 0 < d -> (forall x, In x pop -> length x = d) -> compute_ranking pop None = Ok fronts -> rank pop None = Ok sel ->
  Permutation (map e_cand sel) (concat fronts) /\ map e_rank sel = seq 0 (length sel) /\
  exists D, (forall f, f < length fronts -> crowding pop d (nth f fronts []) (D f)) /\
    forall e, In e sel -> In (e_cand e) (nth (e_front e) fronts []) /\ e_dist e = D (e_front e) (e_cand e) /\
      (forall e', In e' sel -> e_front e < e_front e' -> e_rank e < e_rank e') /\
      (forall e', In e' sel -> e_front e = e_front e' -> e_rank e < e_rank e' -> dle (e_dist e') (e_dist e)).
Proof.
  intros pop d fronts sel Hd Hdim E Er. unfold rank in Er. rewrite E in Er. cbn [bind] in Er. injection Er as <-.
  destruct (C27_fronts pop) as [fs [E' HF]]. rewrite E in E'. injection E' as <-.
  destruct (rank_loop_none pop d Hd Hdim fronts 0 0 0 (repeat (Fin 0) (length pop)) [] (repeat_length _ _) (once _ _ _ HF) (candidates_only _ _ _ HF)) as [new [D [En [HC [HP [HRk [HR [HFr HD]]]]]]]].
  rewrite En. cbn [app]. split; [exact HP|]. split; [exact HRk|]. exists D. split; [exact HC|]. intros e He. destruct (HR e He) as [_ [k [Hk [Hin Hdist]]]]. cbn in Hk. subst k.
  split; [exact Hin|]. split; [exact Hdist|]. split; [intros e' He' Hl; exact (HFr e e' He He' Hl)|]. intros e' He' Hf Hr. exact (HD e e' He He' Hf Hr).
Qed.

(** Six candidates with two objectives: three fronts *)
Definition six : list (list Q) := [[1; 4]; [2; 2]; [4; 1]; [2; 5]; [5; 5]; [3; 3]]%Q.
Example C27_six : compute_ranking six None = Ok [[0; 1; 2]; [3; 5]; [4]] /\ compute_ranking six (Some 4) = Ok [[0; 1; 2]; [3; 5]] /\
  (forall x, In x six -> length x = 2) /\
  rank six (Some 2) = Ok [(0, (0, 0, Inf)); (2, (1, 0, Inf))] /\ rank six (Some 4) = Ok [(0, (0, 0, Inf)); (1, (0, 0, Inf)); (2, (0, 0, Inf)); (3, (1, 1, Inf))] /\
  match rank six None with Ok s => map e_cand s = [0; 2; 1; 3; 5; 4] /\ (exists q, map e_dist s = [Inf; Inf; Fin q; Inf; Inf; Inf] /\ q == 2)%Q | Err _ => False end.
Proof.
  split; [reflexivity|]. split; [reflexivity|]. split; [intros x Hx; repeat (destruct Hx as [<-|Hx]; [reflexivity|]); contradiction|]. split; [reflexivity|]. split; [reflexivity|].
  vm_compute. split; [reflexivity|]. eexists. split; reflexivity.
Qed.

Print Assumptions C27_compare.
Print Assumptions C27_majority_refuted.
Print Assumptions C27_fronts.
Print Assumptions C27_two_objectives.
Print Assumptions C27_cycle_refuted.
Print Assumptions C27_trimmed.
Print Assumptions C27_selection.
Print Assumptions C27_all_ranked.

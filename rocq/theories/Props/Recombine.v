(** C73: recombination is the mean of the parameters, mutation adds the draws. *)
From Coq Require Import List Arith ZArith QArith Bool Lia Lqa.
From Verif.Model Require Import Prelude MultiValue Layers Param.
From Verif.Spec Require Import Layers Param Recombine.
From Verif.Proofs Require Import Prelude MultiValue LayerValues ParamBase ParamTree ParamOps Recombine.
From Verif.Props Require Import Param.
Import ListNotations.
Open Scope nat_scope.

(** After a recombination, the standardized data of any data of the tree (sub-parameters of
    containers, and the sigmas of data included), for any reference, are the mean of those of
    the recombined parameter and of all the others. Nothing is bounded there. *)
Theorem C73_recombination : forall t others t' path h p d r, reachable t -> others <> [] -> Forall (same_shape t) others ->
  recombine t others = (t', Ok tt) -> sub_at path t = Some (PData h p d) -> unbounded d ->
  same_shape (PData h p d) r -> usable r ->
  exists s' y ys, sub_at path t' = Some s' /\ snd (get_std s' r) = Ok y /\
    Forall2 (fun o z => exists so, sub_at path o = Some so /\ snd (get_std so r) = Ok z) (t :: others) ys /\ mean_of ys y.
Proof.
  intros t others t' path h p d r Ht Ho Hs E Ep Hu Hr Hur. apply reachable_inv in Ht.
  destruct (recombine_mean path t others t' h p d Ht Ho Hs E Ep Hu) as (h' & p' & d' & Ep' & L & xs & F & M).
  destruct r as [|hr pr dr|]; try easy. destruct Hr as [Hr _]. fold (raw d) (raw dr) in Hr. destruct Hur as [sig Es]. fold (raw dr) in Es.
  destruct (sigma_ok _ _ _ Es) as [Hsl Hs0]. exists (PData h' p' d'), (map2 Qdiv (map2 Qminus (raw d') (raw dr)) sig), (map (fun x => map2 Qdiv (map2 Qminus x (raw dr)) sig) xs).
  assert (G : forall ho po do', length (raw do') = length (raw dr) -> snd (get_std (PData ho po do') (PData hr pr dr)) = Ok (map2 Qdiv (map2 Qminus (raw do') (raw dr)) sig)).
  { intros ho po do' H. cbn [get_std snd]. fold (raw dr) (raw do'). rewrite Es. cbn [bind]. rewrite H, Nat.eqb_refl. reflexivity. }
  split; [exact Ep'|]. split; [apply G; congruence|]. split.
  - destruct M as [M1 _]. assert (HL : Forall (fun x => length x = length (raw dr)) xs) by (apply Forall_forall; intros x Hx; rewrite (M1 x Hx); congruence).
    clear - F G HL. induction F as [|o x l xs (ho & po & do' & H1 & H2) F IH]; cbn [map]; [constructor|]. inversion HL; subst. constructor; [|now apply IH].
    eexists. split; [exact H1|]. apply G. assumption.
  - apply mean_std; congruence || assumption.
Qed.
Print Assumptions C73_recombination.

(** Without others, nothing happens. *)
Theorem C73_recombination_alone : forall t, reachable t -> recombine t [] = (t, Ok tt).
Proof. intros [| |] _; reflexivity. Qed.
Print Assumptions C73_recombination_alone.

(** A mutation of data adds the numbers drawn to its standardized data, once its sigma is
    mutated: with the former value and the new sigma as reference, the standardized data are
    the last numbers drawn, in order. *)
Theorem C73_mutation : forall rnd h p d i t' i', reachable (PData h p d) -> unbounded d -> mutate rnd (PData h p d) i = (t', i', Ok tt) ->
  exists p' d' i1 y, t' = PData h p' d' /\ mutate rnd p i = (p', i1, Ok tt) /\ i' = i1 + dimension (PData h p d) /\
    snd (get_std t' (PData h p' d)) = Ok y /\ Forall2 Qeq y (map rnd (seq i1 (dimension (PData h p d)))).
Proof.
  intros rnd h p d i t' i' Ht Hu E. apply reachable_inv in Ht. destruct Ht as [_ Hd]. cbn [mutate] in E.
  destruct (check_frozen (PData h p d)); [discriminate E|]. destruct (mutate rnd p i) as [[p' i1] [u|e]]; [destruct u|discriminate E].
  change (dimension (PData h p' d)) with (length (raw d)) in E. change (dimension (PData h p d)) with (length (raw d)).
  destruct (check_frozen (PData h p' d)) eqn:Ef; [cbn [set_std] in E; rewrite Ef in E; discriminate E|].
  destruct (sigma_value (length (raw d)) p') as [sig|e] eqn:Es.
  2:{ cbn [set_std] in E. rewrite Ef in E. fold (raw d) in E. rewrite Es in E. discriminate E. }
  assert (Ln : length (normals rnd i1 (length (raw d))) = length (raw d)) by (unfold normals; now rewrite map_length, seq_length).
  destruct (set_std_data h p' d _ h p' d Hd Ef eq_refl sig Es Ln) as (d2 & E2 & _ & _ & H3). rewrite E2 in E. injection E as <- <-.
  specialize (H3 (unbounded_settled_d d _ Hu)). destruct (sigma_ok _ _ _ Es) as [Hsl Hs0].
  exists p', d2, i1. eexists. split; [reflexivity|]. split; [reflexivity|]. split; [reflexivity|]. cbn [get_std snd]. fold (raw d) (raw d2). rewrite Es. cbn [bind].
  assert (L : length (raw d2) = length (raw d)) by (rewrite H3; repeat apply map2_length'; congruence). rewrite L, Nat.eqb_refl.
  split; [reflexivity|]. rewrite H3. unfold normals. apply std_numbers; [exact Hs0|rewrite map_length, seq_length; congruence|congruence].
Qed.
Print Assumptions C73_mutation.

(** But a container is mutated with more than that noise: its parts are mutated by
    themselves, then by the noise of the whole, so that each moves by the sum of two draws. *)
Theorem C73_container_noise_refuted : exists t, reachable t /\ dimension t = 1 /\
  forall rnd, exists t' y, mutate rnd t 0 = (t', 2, Ok tt) /\ snd (get_std t' t) = Ok [y] /\ (y == rnd 0%nat + rnd 1%nat)%Q.
Proof.
  exists (new_tuple 7 [new_data 4 5 (new_const 6 (VNum 1)) [LScalar] [0%Q]]). split; [|split; [reflexivity|]].
  - apply reach_new, built_tuple. intros t [<-|[]]. apply (built_data 4 5 _ 1 LScalar []); [constructor| |split; reflexivity].
    repeat split; try (now right); repeat constructor.
  - intros rnd. eexists. eexists. split; [cbn; reflexivity|]. split; [cbn; reflexivity|]. cbn. field.
Qed.
Print Assumptions C73_container_noise_refuted.

(** The dictionary of Props/Param.v with two others. *)
Example C73_nontrivial :
  let o1 := ex_moved in
  let o2 := fst (set_std ex_tree [1; 2; 3]%Q ex_tree) in
  exists t', reachable ex_tree /\ Forall (same_shape ex_tree) [o1; o2] /\ recombine ex_tree [o1; o2] = (t', Ok tt) /\
    sub_at [SSub 1; SSub 1] ex_tree = Some ex_array /\ usable ex_array /\
    snd (get_std ex_tree ex_tree) <> snd (get_std t' ex_tree).
Proof.
  intros o1 o2. eexists. split; [apply ex_reach|]. split; [|split; [vm_compute; reflexivity|split; [reflexivity|split]]].
  - repeat constructor; cbn; repeat (split || eexists); reflexivity.
  - eexists. vm_compute. reflexivity.
  - vm_compute. discriminate.
Qed.
Example C73_mutation_nontrivial : exists t' i', mutate (fun i => qnat i) ex_array 0 = (t', i', Ok tt) /\ i' = 2 /\ snd (get_std t' ex_array) = Ok [0; 2 # 2]%Q.
Proof. do 2 eexists. split; [vm_compute; reflexivity|]. split; [reflexivity|]. vm_compute. reflexivity. Qed.

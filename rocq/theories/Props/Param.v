(** C28, C29, C30, C31, C32: parametrization trees. *)
From Coq Require Import List Arith ZArith QArith Bool Lia Lqa.
From Verif.Model Require Import Prelude MultiValue Layers Param.
From Verif.Spec Require Import Layers Param.
From Verif.Proofs Require Import Prelude MultiValue Layers LayerValues ParamBase ParamTree ParamOps.
Import ListNotations.
Open Scope nat_scope.

(** An example: [Dict(0=Scalar(1), 1=Tuple(5, Array([1, 2])))], mutable sigma for the scalar. *)
Definition ex_sigma : ptree := new_const 1 (VNum 2).
Definition ex_scalar : ptree := new_data 2 3 ex_sigma [LScalar; LArray; LMul [3]]%Q [1 # 3]%Q.
Definition ex_array : ptree := new_data 4 5 (new_const 6 (VArr [1; 1 # 2]%Q)) [LArray] [1; 2]%Q.
Definition ex_tuple : ptree := new_tuple 7 [new_const 8 (VNum 5); ex_array].
Definition ex_tree : ptree := new_dict 9 [(0, ex_scalar); (1, ex_tuple)].
Definition ex_value : cval := CDict [(1, CTuple [CLeaf (VNum 5); CLeaf (VArr [7; 8]%Q)]); (0, CLeaf (VNum 6))].
Definition ex_moved : ptree := fst (tset (fst (tcopy ex_tree 20)) ex_value).

Lemma ex_built : built ex_tree.
Proof.
  apply built_dict; [repeat constructor; cbn; intuition discriminate|]. intros k t [[= <- <-]|[[= <- <-]|[]]].
  - apply (built_data 2 3 _ 1 LScalar [LArray; LMul [3]]%Q); [constructor| |split; reflexivity]. repeat split; try (now right); repeat constructor; cbn; easy.
  - apply built_tuple. intros t [<-|[<-|[]]]; [constructor|].
    apply (built_data 4 5 _ 2 LArray []); [constructor| |split; reflexivity]. repeat split; try (now left); repeat constructor.
Qed.
Lemma ex_reach : reachable ex_tree.
Proof. now apply reach_new, ex_built. Qed.
Lemma ex_moved_reach : reachable ex_moved.
Proof.
  change (reachable (t_run1 (fst (tcopy ex_tree 20)) ([], TSet ex_value))). eapply reach_op; [apply reach_copy, ex_reach|reflexivity|exact I].
Qed.

(** * C28 standardized data *)

(** Setting then getting, for a same reference, returns the data. Nothing is bounded: see
    below for bounds. The parameter may have been through any history. *)
Theorem C28_set_then_get : forall t r data, reachable t -> same_shape t r -> usable t -> usable r ->
  check_frozen t = false -> leaves unbounded t -> length data = dimension t ->
  exists t', set_std t data r = (t', Ok tt) /\ exists t'' y, get_std t' r = (t'', Ok y) /\ Forall2 Qeq y data.
Proof. intros t r data Ht Hs Hu Hr Hf Hb Hd. apply set_get; auto. now apply reachable_inv. Qed.
Print Assumptions C28_set_then_get.

(** Getting from [p] then setting in [q], for a same reference, gives [q] the value of
    [p], bounds included, when both have the same layers (children of a same parameter...). *)
Theorem C28_get_then_set : forall p q r p' x, reachable p -> reachable q -> twins q p -> same_shape p r -> same_shape q r ->
  usable q -> usable r -> check_frozen q = false -> get_std p r = (p', Ok x) ->
  exists q', set_std q x r = (q', Ok tt) /\ same_value p q'.
Proof.
  intros p q r p' x Hp Hq Ht Hpr Hqr Hu Hr Hf E. apply reachable_inv in Hp, Hq.
  destruct (get_set q p r p' x Hq Hp Ht Hqr Hpr Hu Hr Hf E) as (q' & E' & H). exists q'. split; [easy|]. apply teq_same_value; auto.
  pose proof (set_std_step q x r Hqr Hq) as [S _]. now rewrite E' in S.
Qed.
Print Assumptions C28_get_then_set.

(** A parameter with itself as reference: zeros, one per dimension. *)
Theorem C28_self_is_zero : forall t, reachable t -> usable t ->
  exists t' x, get_std t t = (t', Ok x) /\ length x = dimension t /\ Forall (fun q => q == 0)%Q x.
Proof.
  intros t Ht Hu. apply reachable_inv in Ht. destruct (get_std_ok t t Ht (shape_refl t Ht) Hu) as (t' & x & E & Hl).
  exists t', x. split; [easy|]. split; [easy|]. exact (get_std_zero t t t' x Ht (shape_refl t Ht) eq_refl Ht E).
Qed.
Print Assumptions C28_self_is_zero.

(** Getting changes no value, here or below. *)
Theorem C28_get_changes_nothing : forall t r path s, reachable t -> same_shape t r -> sub_at path t = Some s ->
  exists s', sub_at path (fst (get_std t r)) = Some s' /\ same_value s s'.
Proof.
  intros t r path s Ht Hs E. apply reachable_inv in Ht. destruct (get_std t r) as [t' u] eqn:Eg.
  destruct (get_std_inv t r t' u Ht Hs Eg) as (H1 & _ & H3 & _). cbn [fst].
  destruct (sub_strip path t t' H3 s E) as (s' & Es & H). exists s'. split; [easy|].
  apply strip_same_value; [exact (sub_inv _ _ _ Ht E)|exact (sub_inv _ _ _ H1 Es)|easy].
Qed.
Print Assumptions C28_get_changes_nothing.

(** Finding: with bounds, data which lead out of them are clipped when set: what is read
    back is not what was set. *)
Definition ex_bounded : ptree := new_data 0 1 ex_sigma [LArray; LBound false (Some [0; 0]) (Some [1; 1])]%Q [1 # 2; 1 # 2]%Q.
Theorem C28_bounded_set_then_get_refuted : exists t data t' t'' y, built t /\ length data = dimension t /\
  set_std t data t = (t', Ok tt) /\ get_std t' t = (t'', Ok y) /\ ~ Forall2 Qeq y data.
Proof.
  exists ex_bounded, [1; 0]%Q. do 3 eexists. split; [|split; [reflexivity|split; [reflexivity|split; [reflexivity|]]]].
  - apply (built_data 0 1 _ 2 LArray [LBound false (Some [0; 0]) (Some [1; 1])]%Q); [constructor| |split; reflexivity].
    repeat split; try (now left); repeat constructor; cbn; easy.
  - intros H. inversion H as [|? ? ? ? H1 _]; subst. vm_compute in H1. discriminate.
Qed.
Print Assumptions C28_bounded_set_then_get_refuted.

Example C28_nontrivial :
  dimension ex_tree = 3 /\ check_frozen ex_moved = false /\
  same_shape ex_moved ex_tree /\ twins ex_moved ex_tree /\ usable ex_tree /\ usable ex_moved /\ leaves unbounded ex_moved /\
  match get_std ex_moved ex_tree with (_, Ok x) => Forall2 Qeq x [5 # 6; 6; 12]%Q | _ => False end /\
  match set_std ex_moved [1; 1; 1]%Q ex_tree with (t, Ok _) => has_value t (CDict [(0, CLeaf (VNum 7)); (1, CTuple [CLeaf (VNum 5); CLeaf (VArr [2; 5 # 2]%Q)])]) | _ => False end.
Proof.
  assert (U : usable ex_tree /\ usable ex_moved) by (split; cbn; repeat split; eexists; reflexivity).
  assert (B : leaves unbounded ex_moved).
  { cbn. repeat split; intros bo lo up; cbn; intuition discriminate. }
  split; [reflexivity|]. split; [reflexivity|]. split; [vm_compute; repeat first [split | eexists; split; [reflexivity|]]|].
  split; [vm_compute; repeat first [split | eexists; split; [reflexivity|]]|].
  split; [apply U|]. split; [apply U|]. split; [exact B|]. split.
  - vm_compute. repeat constructor.
  - eexists. split; [reflexivity|]. vm_compute. repeat first [split | constructor | eexists; split; [reflexivity|]].
Qed.

(** * C29 dimension *)

(** The data has the length of the dimension, which no operation changes. *)
Theorem C29_dimension : forall t r t' x, reachable t -> same_shape t r -> get_std t r = (t', Ok x) -> length x = dimension t.
Proof. intros t r t' x Ht Hs E. apply reachable_inv in Ht. destruct (get_std_inv t r t' (Ok x) Ht Hs E) as (_ & _ & _ & H). now apply H. Qed.
Print Assumptions C29_dimension.

Theorem C29_dimension_never_changes : forall t ops, reachable t -> run_fits ops t -> dimension (t_run ops t) = dimension t.
Proof. intros t ops Ht Hr. apply reachable_inv in Ht. destruct (run_skel ops t Ht Hr) as [_ H]. now apply skel_dimension. Qed.
Print Assumptions C29_dimension_never_changes.

Theorem C29_children_have_same_dimension : forall t v next c next', reachable t -> spawn_child t v next = (Ok c, next') -> dimension c = dimension t.
Proof.
  intros t v next c next' Ht E. apply reachable_inv in Ht. destruct (is_constant t) eqn:Ec.
  - destruct t as [h fz x| |]; try discriminate. cbn in E. destruct v as [[v| |]|]; cbn in E; try discriminate; try (injection E as <- _; reflexivity).
    destruct (pval_eqb v x); cbn in E; [|discriminate]. injection E as <- _. reflexivity.
  - destruct (spawn_spec t v next c next' Ht) as (_ & _ & _ & _ & _ & H & _); auto; [|now apply skel_dimension]. intros h fz x ->. discriminate.
Qed.
Print Assumptions C29_children_have_same_dimension.

(** A wrong number of data on a container raises, and nothing changes at any level. *)
Theorem C29_wrong_size_rejected : forall h fz k s f r data, reachable (PNode h fz k s f) ->
  length data <> dimension (PNode h fz k s f) ->
  (exists e, snd (set_std (PNode h fz k s f) data r) = Err e) /\
  exists s', fst (set_std (PNode h fz k s f) data r) = PNode h fz k s' f.
Proof.
  intros h fz k s f r data Ht Hd. apply reachable_inv in Ht. destruct r as [| |h' fz' k' s' g]; try (split; eexists; reflexivity).
  cbn [set_std]. destruct (kind_eqb k k') eqn:Ek; [|split; eexists; reflexivity]. cbn [negb].
  destruct (check_frozen (PNode h fz k s f)) eqn:Ef; [split; eexists; reflexivity|].
  fold (known_sizes (PNode h fz k s f) s). destruct (known_sizes (PNode h fz k s f) s) as [sizes|e] eqn:Eq; [|split; eexists; reflexivity].
  rewrite (known_spec _ _ _ _ _ _ Ht Eq), sum_sizes_dim. cbn in Hd. apply Nat.eqb_neq in Hd. rewrite Hd. split; eexists; reflexivity.
Qed.
Print Assumptions C29_wrong_size_rejected.
Theorem C29_wrong_size_is_ValueError : forall h fz k s f r data, reachable (PNode h fz k s f) -> same_shape (PNode h fz k s f) r ->
  usable (PNode h fz k s f) -> check_frozen (PNode h fz k s f) = false -> length data <> dimension (PNode h fz k s f) ->
  snd (set_std (PNode h fz k s f) data r) = Err ValueError.
Proof.
  intros h fz k s f r data Ht Hs Hu Hf Hd. apply reachable_inv in Ht. destruct r as [| |h' fz' k' s' g]; try easy. cbn in Hs. destruct Hs as (-> & _).
  rewrite set_std_node by easy. rewrite known_ok by easy. rewrite sum_sizes_dim. cbn in Hd. apply Nat.eqb_neq in Hd. now rewrite Hd.
Qed.
Print Assumptions C29_wrong_size_is_ValueError.

(** On arrays: refused and unchanged, except for a single number ... *)
Theorem C29_wrong_size_rejected_array : forall h p d r data, reachable (PData h p d) -> same_shape (PData h p d) r -> usable r ->
  length data <> dimension (PData h p d) -> length data <> 1 ->
  (exists e, snd (set_std (PData h p d) data r) = Err e) /\ same_value (PData h p d) (fst (set_std (PData h p d) data r)).
Proof.
  intros h p d r data Ht Hs Hu Hd H1. apply reachable_inv in Ht. destruct r as [|h' p' d'|]; try easy. cbn in Hs, Hu, Hd. destruct Hs as [Hl _]. destruct Hu as [sig Hu].
  assert (R : same_value (PData h p d) (PData h p d)) by (now apply strip_same_value).
  cbn [set_std]. destruct (check_frozen (PData h p d)) eqn:Ef; [split; [eexists; reflexivity|exact R]|].
  rewrite Hu. cbn [bind]. destruct (sigma_ok _ _ _ Hu) as [Hsl _]. unfold shift_data.
  assert (Hm : length (map2 Qdiv (rt_value (ld_root d')) sig) = length (rt_value (ld_root d))) by (rewrite Hl; apply map2_length'; congruence).
  rewrite Hm. apply Nat.eqb_neq in Hd. rewrite Hd. destruct data as [|q [|q' data]]; try (now exfalso; apply H1); cbn [bind]; (split; [eexists; reflexivity|]);
  apply strip_same_value; auto; destruct Ht as [A B]; (split; [easy|now apply del_dinv]).
Qed.
Print Assumptions C29_wrong_size_rejected_array.

(** ... which numpy adds to every coordinate. *)
Theorem C29_one_number_for_an_array_refuted : exists t t', built t /\ dimension t = 2 /\
  set_std t [1]%Q t = (t', Ok tt) /\ has_value t' (CLeaf (VArr [2; 5 # 2])%Q).
Proof.
  exists ex_array. eexists. split; [|split; [reflexivity|split; [reflexivity|]]].
  - apply (built_data 4 5 _ 2 LArray []); [constructor| |split; reflexivity]. repeat split; try (now left); repeat constructor.
  - eexists. split; [reflexivity|]. vm_compute. repeat constructor.
Qed.
Print Assumptions C29_one_number_for_an_array_refuted.

(** Finding: a reference of another structure breaks it: the sizes of the reference are
    remembered for ever, so that the right number of data is then refused. *)
Theorem C29_other_structure_breaks_sizes_refuted : exists t r data, built t /\ built r /\ length data = dimension t /\
  (exists x, snd (get_std t r) = Ok x) /\
  snd (set_std t data t) = Ok tt /\ snd (set_std (fst (get_std t r)) data t) = Err ValueError.
Proof.
  exists ex_tree, (new_dict 50 [(0, ex_scalar)]), [1; 1; 1]%Q. split; [exact ex_built|]. split.
  - apply built_dict; [repeat constructor; cbn; tauto|]. intros k t [[= <- <-]|[]].
    apply (built_data 2 3 _ 1 LScalar [LArray; LMul [3]]%Q); [constructor| |split; reflexivity]. repeat split; try (now right); repeat constructor; cbn; easy.
  - split; [reflexivity|]. split; [eexists; reflexivity|]. split; reflexivity.
Qed.
Print Assumptions C29_other_structure_breaks_sizes_refuted.

(** Finding: replacing a sub-parameter inside a sub-container leaves the sizes known by
    the outer one. *)
Theorem C29_replaced_subparameter_breaks_sizes_refuted : exists t, reachable t /\ exists t1 data,
  t1 = match t with PNode h fz k s f => PNode h fz k s (fset 1 (setitem 1 (new_const 60 (VNum 0)) ex_tuple) f) | _ => t end /\
  length data = dimension t1 /\ snd (set_std t1 data t1) = Err ValueError /\ usable t1.
Proof.
  exists (t_run1 ex_tree ([], TGetStd None)). split; [now apply (reach_op ex_tree [] (TGetStd None) ex_tree ex_reach)|].
  eexists. exists [1]%Q. split; [reflexivity|]. split; [reflexivity|]. split; [reflexivity|]. cbn. repeat split; eexists; reflexivity.
Qed.
Print Assumptions C29_replaced_subparameter_breaks_sizes_refuted.

Example C29_nontrivial : dimension ex_moved = 3 /\ snd (set_std ex_moved [1; 1]%Q ex_tree) = Err ValueError /\
  run_fits [([SSub 1], TMutate (fun _ => 1%Q)); ([], TRecombine [ex_tree]); ([SSub 0; SParams], TFreeze); ([], TSetStd [1; 2; 3]%Q None)] ex_moved.
Proof. repeat split. Qed.

(** * C30 freezing *)

(** After [freeze], whatever is done at whatever level (several operations, raising or
    not), every level stays frozen and keeps its value. *)
Theorem C30_frozen_never_changes : forall t ops, reachable t -> run_fits ops (freeze t) ->
  forall path s, sub_at path (freeze t) = Some s ->
  exists s', sub_at path (t_run ops (freeze t)) = Some s' /\ is_frozen s' = true /\ same_value s s'.
Proof.
  intros t ops Ht Hr path s Es. assert (Hi : tinv (freeze t)) by (apply (freeze_step t), reachable_inv; easy).
  destruct (run_frozen ops (freeze t) Hi (freeze_frozen t) Hr) as (H1 & H2 & H3).
  destruct (sub_strip path _ _ H3 s Es) as (s' & Es' & H). exists s'. split; [easy|]. split.
  - clear -H2 Es'. revert H2 Es'. generalize (t_run ops (freeze t)). clear. induction path as [|[k|] path IH]; intros t Hf E; cbn in E.
    + injection E as ->. destruct s'; cbn in *; tauto.
    + destruct t as [| |h fz kd sz f]; try discriminate. destruct (flookup k f) as [sub|] eqn:Ef; [|discriminate]. apply (IH sub); auto.
      destruct Hf as [_ Hf]. rewrite fall_frozen_in in Hf. exact (Hf _ _ (flookup_in _ _ _ Ef)).
    + destruct t as [|h p d|]; try discriminate. apply (IH p); auto. apply Hf.
  - apply strip_same_value; [exact (sub_inv _ _ _ Hi Es)|exact (sub_inv _ _ _ H1 Es')|easy].
Qed.
Print Assumptions C30_frozen_never_changes.

(** [freeze] itself changes no value. *)
Theorem C30_freeze_keeps_values : forall t path s, reachable t -> sub_at path t = Some s ->
  exists s', sub_at path (freeze t) = Some s' /\ same_value s s'.
Proof.
  intros t path s Ht Es. apply reachable_inv in Ht. assert (Hi : tinv (freeze t)) by now apply (freeze_step t).
  exists (freeze s). rewrite sub_freeze, Es. split; [reflexivity|]. pose proof (sub_inv _ _ _ Ht Es) as Hs.
  apply teq_same_value; auto; [now apply (freeze_step s)|now apply freeze_teq].
Qed.
Print Assumptions C30_freeze_keeps_values.

(** Every modification of a frozen parameter or of a sub-parameter raises: here for
    parameters frozen at every level, as [freeze] does. Constants accept their own value
    and do nothing on the other operations. *)
Theorem C30_frozen_refuses : forall t, all_frozen t -> is_constant t = false ->
  (forall rnd i, snd (mutate rnd t i) = Err RuntimeError) /\
  (forall o others, snd (recombine t (o :: others)) = Err RuntimeError) /\
  (forall data, snd (set_std t data t) = Err RuntimeError) /\
  (forall data r, exists e, snd (set_std t data r) = Err e).
Proof.
  intros t Hf Hc. pose proof (all_frozen_check t Hc Hf) as H. destruct t as [|h p d|h fz k s f]; try discriminate; cbn [mutate recombine set_std].
  - repeat split; intros; cbn [length Nat.eqb]; rewrite ?H; cbn; try reflexivity. destruct r; eexists; reflexivity.
  - repeat split; intros; cbn [length Nat.eqb]; rewrite ?kind_eqb_refl, ?H; cbn; try reflexivity.
    destruct r as [| |h' fz' k' s' g]; try (eexists; reflexivity). destruct (negb (kind_eqb k k')); eexists; reflexivity.
Qed.
Print Assumptions C30_frozen_refuses.

(** Setting a value raises too as soon as there is an array or a scalar below. *)
Theorem C30_frozen_refuses_values : forall t v, reachable t -> all_frozen t -> cv_ok v -> ~ leaves (fun _ => False) t ->
  exists e, snd (tset t v) = Err e.
Proof.
  intros t v Ht Hf Hv Hl. apply reachable_inv in Ht. destruct (snd (tset t v)) as [[]|e] eqn:E; [|eauto]. exfalso. apply Hl.
  apply (tset_takes t v Ht Hv) in E. exact (frozen_takes t v Hf E).
Qed.
Print Assumptions C30_frozen_refuses_values.

(** Freezing one level is enough for an operation from above to raise. *)
Theorem C30_frozen_below_refuses : forall t path s, sub_at path t = Some s -> is_frozen s = true -> is_constant s = false ->
  (forall rnd i, snd (mutate rnd t i) = Err RuntimeError) /\
  (forall o others, snd (recombine t (o :: others)) = Err RuntimeError) /\
  (forall data, snd (set_std t data t) = Err RuntimeError).
Proof.
  intros t path s E Hf Hc. assert (H : check_frozen t = true /\ is_constant t = false).
  { revert t E. induction path as [|[k|] path IH]; intros t E; cbn in E.
    - injection E as ->. split; [|easy]. destruct s; try discriminate; cbn in *; now rewrite Hf.
    - destruct t as [| |h fz kd sz f]; try discriminate. split; [|easy]. destruct (flookup k f) as [sub|] eqn:Ef; [|discriminate].
      cbn. apply orb_true_iff. right. destruct (IH sub E) as [H _]. destruct (fcheck_frozen f) eqn:Ec; [easy|]. rewrite fcheck_in in Ec.
      rewrite (Ec _ _ (flookup_in _ _ _ Ef)) in H. discriminate.
    - destruct t as [|h p d|]; try discriminate. split; [|easy]. cbn. destruct (IH p E) as [-> _]. apply orb_true_r. }
  destruct H as [H Hct]. destruct t as [|h p d|h fz k sz f]; try discriminate; cbn [mutate recombine set_std]; repeat split; intros; cbn [length Nat.eqb]; rewrite ?kind_eqb_refl, ?H; reflexivity.
Qed.
Print Assumptions C30_frozen_below_refuses.

(** A spawned child is not frozen, at any level. *)
Theorem C30_children_not_frozen : forall t v next c next' path c', reachable t -> is_constant t = false ->
  spawn_child t v next = (Ok c, next') -> sub_at path c = Some c' -> is_frozen c' = false.
Proof.
  intros t v next c next' path c' Ht Hc E Es. apply reachable_inv in Ht.
  destruct (spawn_spec t v next c next' Ht) as (c0 & H1 & _ & _ & _ & _ & H); auto; [intros h fz x ->; discriminate|].
  assert (S : hskel c = hskel c0). { destruct v as [v|]; [|congruence]. now rewrite <- (tset_hskel c0 v), H. }
  assert (S2 : sub_at path (hskel c0) = Some (hskel c')) by (now rewrite <- S, sub_hskel, Es).
  rewrite sub_hskel in S2. destruct (sub_at path c0) as [c1|] eqn:E1; [|discriminate]. cbn in S2.
  destruct (heir_path path t c0 H1) as [_ P]. destruct (P c1 E1) as (s & _ & Hs). apply heir_head in Hs.
  assert (F : forall a, is_frozen (hskel a) = is_frozen a) by (intros []; reflexivity).
  rewrite <- F. injection S2 as S2. rewrite <- S2, F. apply Hs.
Qed.
Print Assumptions C30_children_not_frozen.

(** A root constant spawns itself: a frozen one remains so. *)
Theorem C30_constant_child_is_frozen_refuted : exists t c, reachable t /\ spawn_child t None 0 = (Ok c, 0) /\ is_frozen c = true.
Proof.
  exists (t_run1 (new_const 0 (VNum 1)) ([], TFreeze)). eexists. split; [|split; reflexivity].
  eapply reach_op; [apply reach_new; constructor|reflexivity|exact I].
Qed.
Print Assumptions C30_constant_child_is_frozen_refuted.

Example C30_nontrivial :
  run_fits [([], TMutate (fun _ => 1%Q)); ([SSub 0; SParams], TSet (CDict [(0, CLeaf (VNum 9))])); ([SSub 1; SSub 1], TSetStd [3; 4]%Q None); ([], TLoss 3%Q)] (freeze ex_moved) /\
  all_frozen (freeze ex_moved) /\ ~ leaves (fun _ => False) (freeze ex_moved) /\ cv_ok ex_value /\
  snd (tset (freeze ex_moved) ex_value) = Err RuntimeError /\ snd (tset ex_moved ex_value) = Ok tt.
Proof. repeat split; auto; cbn; try tauto. repeat constructor; cbn; intuition discriminate. Qed.

(** * C31 heritage and identifiers *)

(** Spawning without a value always succeeds. *)
Theorem C31_spawn_succeeds : forall t next, reachable t -> exists c next', spawn_child t None next = (Ok c, next').
Proof.
  intros t next Ht. apply reachable_inv in Ht. destruct t as [h fz v|h p d|h fz k s f]; [eexists; eexists; reflexivity| |];
  match goal with |- context [spawn_child ?t _ _] => destruct (adopt_copy t Ht next) as (c0 & E0 & _); unfold spawn_child; destruct (tcopy t next) as [c n]; cbn [fst] in E0; rewrite E0 end;
  eexists; eexists; reflexivity.
Qed.
Print Assumptions C31_spawn_succeeds.

(** The child has the levels of its parent; each of them has the next generation, its
    counterpart as only parent, its lineage and no loss. All identifiers are new and
    distinct. *)
Theorem C31_child_heritage : forall t v next c next', reachable t -> is_constant t = false -> spawn_child t v next = (Ok c, next') ->
  (forall path s, sub_at path t = Some s -> exists c', sub_at path c = Some c' /\ child_of (header_of s) (header_of c')) /\
  (forall path c', sub_at path c = Some c' -> exists s, sub_at path t = Some s) /\
  NoDup (uids_of c) /\ Forall (fun u => next <= u < next') (uids_of c).
Proof.
  intros t v next c next' Ht Hc E. apply reachable_inv in Ht.
  destruct (spawn_spec t v next c next' Ht) as (c0 & H1 & H2 & H3 & _ & _ & H); auto; [intros h fz x ->; discriminate|].
  assert (S : hskel c = hskel c0). { destruct v as [v|]; [|congruence]. now rewrite <- (tset_hskel c0 v), H. }
  assert (U : uids_of c = seq next (next' - next)) by (rewrite <- uids_hskel, S, uids_hskel; exact H2).
  assert (P : forall path, option_map hskel (sub_at path c) = option_map hskel (sub_at path c0)) by (intros; now rewrite <- !sub_hskel, S).
  split; [|split; [|split]].
  - intros path s Es. destruct (heir_path path t c0 H1) as [Q _]. destruct (Q s Es) as (c1 & E1 & Hs). specialize (P path). rewrite E1 in P.
    destruct (sub_at path c) as [c'|]; [|discriminate]. exists c'. split; [easy|]. apply heir_head in Hs. destruct Hs as [Hs _].
    cbn in P. assert (header_of c' = header_of c1) by (destruct c', c1; cbn in P; try discriminate; cbn; congruence). congruence.
  - intros path c' Es. specialize (P path). rewrite Es in P. destruct (sub_at path c0) as [c1|] eqn:E1; [|discriminate].
    destruct (heir_path path t c0 H1) as [_ Q]. destruct (Q c1 E1) as (s & Hs & _). eauto.
  - rewrite U. apply seq_NoDup.
  - rewrite U. apply Forall_forall. intros u Hu. apply in_seq in Hu. lia.
Qed.
Print Assumptions C31_child_heritage.

(** ... and the value of its parent, at each level; *)
Theorem C31_child_value : forall t next c next' path s, reachable t -> spawn_child t None next = (Ok c, next') -> sub_at path t = Some s ->
  exists c', sub_at path c = Some c' /\ same_value s c'.
Proof.
  intros t next c next' path s Ht E Es. apply reachable_inv in Ht. destruct (is_constant t) eqn:Hc.
  - destruct t; try discriminate. cbn in E. injection E as <- _. exists s. split; [easy|]. apply strip_same_value; auto; exact (sub_inv _ _ _ Ht Es).
  - destruct (spawn_spec t None next c next' Ht) as (c0 & H1 & _ & _ & H2 & _ & H); auto; [intros h fz x ->; discriminate|]. subst c0.
    destruct (heir_path path t c H1) as [Q _]. destruct (Q s Es) as (c1 & E1 & Hs). exists c1. split; [easy|].
    pose proof (sub_inv _ _ _ Ht Es) as Hi. destruct (heir_spec s c1 Hi Hs) as (K1 & _ & K3). now apply teq_same_value.
Qed.
Print Assumptions C31_child_value.

(** with a new value, that one. *)
Theorem C31_child_new_value : forall t v next c next', reachable t -> leaves plain_data t -> cv_ok v -> spawn_child t (Some v) next = (Ok c, next') -> has_value c v.
Proof.
  intros t v next c next' Ht Hp Hv E. apply reachable_inv in Ht. destruct (is_constant t) eqn:Hc.
  - destruct t as [h fz x| |]; try discriminate. apply (tset_value (PConst h fz x)); auto. cbn [spawn_child tset] in *.
    destruct v as [v| |]; cbn in E; try discriminate. destruct (pval_eqb v x); cbn in E; [|discriminate]. injection E as <- _. reflexivity.
  - destruct (spawn_spec t (Some v) next c next' Ht) as (c0 & H1 & _ & _ & H2 & _ & H); auto; [intros h fz x ->; discriminate|].
    destruct (heir_spec t c0 Ht H1) as (K1 & _ & K3). apply (tset_value c0); auto. exact (teq_plain _ _ K3 Hp).
Qed.
Print Assumptions C31_child_new_value.

(** Copies: same values, new identifiers, no loss, nothing frozen; generation, parents and
    lineage are kept. *)
Theorem C31_copy : forall t next path s, reachable t -> sub_at path t = Some s ->
  (exists c, sub_at path (fst (tcopy t next)) = Some c /\ same_value s c /\ is_frozen c = false /\
    h_gen (header_of c) = h_gen (header_of s) /\ h_parents (header_of c) = h_parents (header_of s) /\
    h_lineage (header_of c) = h_lineage (header_of s) /\ h_loss (header_of c) = None) /\
  NoDup (uids_of (fst (tcopy t next))) /\ Forall (fun u => next <= u < snd (tcopy t next)) (uids_of (fst (tcopy t next))).
Proof.
  intros t next path s Ht Es. apply reachable_inv in Ht. split.
  - destruct (sub_copy path t next s Es) as (n & E). eexists. split; [exact E|]. pose proof (sub_inv _ _ _ Ht Es) as Hi.
    destruct (tcopy_spec s n Hi) as (K1 & _ & K3). split; [now apply teq_same_value|].
    destruct s as [h fz v|h p d|h fz k sz f]; cbn [tcopy].
    + cbn. auto.
    + destruct (tcopy p (S n)). cbn. auto.
    + destruct (fcopy f (S n)). cbn. auto.
  - destruct (tcopy_uids t next) as [-> H]. split; [apply seq_NoDup|]. apply Forall_forall. intros u Hu. apply in_seq in Hu. lia.
Qed.
Print Assumptions C31_copy.

(** Samples have no parents and start a lineage, at every level. *)
Theorem C31_sample : forall rnd t i next c i' next' path c', reachable t -> sample rnd t i next = (Ok c, i', next') ->
  sub_at path c = Some c' -> h_gen (header_of c') = 0 /\ h_parents (header_of c') = [] /\ h_lineage (header_of c') = h_uid (header_of c').
Proof.
  intros rnd t i next c i' next' path c' Ht E Es. apply reachable_inv in Ht. destruct (sample_spec rnd t i next c i' next' Ht E) as (_ & _ & c0 & ->).
  rewrite sub_orphan in Es. destruct (sub_at path c0) as [c1|]; [|discriminate]. cbn in Es. injection Es as <-. destruct c1; cbn; auto.
Qed.
Print Assumptions C31_sample.

Example C31_nontrivial :
  match spawn_child (fst (t_step (TLoss 3%Q) (freeze ex_moved))) (Some (CDict [(0, CLeaf (VNum 0)); (1, CTuple [CLeaf (VNum 5); CLeaf (VArr [7; 9]%Q)])])) 100 with
  | (Ok c, n) => n = 109 /\ h_parents (header_of c) = [20] /\ h_lineage (header_of c) = 9 /\ h_gen (header_of c) = 1 /\ length (uids_of c) = 9
  | _ => False
  end /\ leaves plain_data (freeze ex_moved) /\
  match sample (fun n => inject_Z (Z.of_nat n)) ex_moved 0 100 with (Ok c, i, n) => i = 3 /\ h_uid (header_of c) = 100 | _ => False end.
Proof. split; [vm_compute; auto|]. split; [cbn; repeat split; repeat constructor|vm_compute; auto]. Qed.

(** * C32 values of containers *)

(** A value which was accepted is read back. *)
Theorem C32_set_then_get : forall t v t', reachable t -> leaves plain_data t -> cv_ok v -> tset t v = (t', Ok tt) -> has_value t' v.
Proof. intros t v t' Ht Hp Hv E. apply reachable_inv in Ht. exact (tset_value t v t' Ht Hp Hv E). Qed.
Print Assumptions C32_set_then_get.

(** Accepted values are exactly those of the same structure, whose leaves are accepted. *)
Theorem C32_accepted_values : forall t v, reachable t -> cv_ok v -> (snd (tset t v) = Ok tt <-> takes t v).
Proof. intros t v Ht Hv. apply reachable_inv in Ht. now apply tset_takes. Qed.
Print Assumptions C32_accepted_values.

(** Other keys or another length: an error, and the very same parameter. *)
Theorem C32_other_keys_refused : forall h fz s f vs,
  ~ (forall k, In k (map fst vs) <-> In k (fkeys f)) ->
  tset (PNode h fz KDict s f) (CDict vs) = (PNode h fz KDict s f, Err ValueError).
Proof.
  intros h fz s f vs H. cbn [tset]. destruct (same_keys (map fst vs) (fkeys f)) eqn:E; [|reflexivity]. exfalso. apply H. now apply same_keys_iff.
Qed.
Print Assumptions C32_other_keys_refused.
Theorem C32_other_length_refused : forall h fz s f vs, length vs <> length (fitems f) ->
  tset (PNode h fz KTuple s f) (CTuple vs) = (PNode h fz KTuple s f, Err ValueError).
Proof. intros h fz s f vs H. cbn [tset]. apply Nat.eqb_neq in H. now rewrite H. Qed.
Print Assumptions C32_other_length_refused.
Theorem C32_other_kind_refused : forall h fz k s f v, match k, v with KDict, CDict _ | KTuple, CTuple _ => False | _, _ => True end ->
  fst (tset (PNode h fz k s f) v) = PNode h fz k s f /\ exists e, snd (tset (PNode h fz k s f) v) = Err e.
Proof. intros h fz k s f v H. destruct k, v; try easy; split; try eexists; reflexivity. Qed.
Print Assumptions C32_other_kind_refused.

(** Finding: a mismatch below, or a constant set to another value, is found after
    other entries were already set. *)
Theorem C32_failed_set_changes_value_refuted : exists t v v' w, built t /\ cv_ok v /\
  snd (tget t) = Ok v' /\ snd (tset t v) = Err ValueError /\ snd (tget (fst (tset t v))) = Ok w /\ ~ cv_eq w v'.
Proof.
  exists ex_tree, (CDict [(0, CLeaf (VNum 6)); (1, CTuple [CLeaf (VNum 4); CLeaf (VArr [7; 8]%Q)])]). do 2 eexists. split; [exact ex_built|]. split.
  - cbn. repeat split. repeat constructor; cbn; intuition discriminate.
  - split; [reflexivity|]. split; [reflexivity|]. split; [reflexivity|]. intros H. destruct H as [_ H]. destruct H as [H _]. destruct H as (y & Ey & H). vm_compute in Ey. injection Ey as <-.
    vm_compute in H. discriminate.
Qed.
Print Assumptions C32_failed_set_changes_value_refuted.

Example C32_nontrivial : cv_ok ex_value /\ leaves plain_data ex_tree /\ takes ex_tree ex_value /\ snd (tset ex_tree ex_value) = Ok tt.
Proof.
  assert (V : cv_ok ex_value) by (cbn; repeat split; repeat constructor; cbn; intuition discriminate).
  split; [exact V|]. split; [cbn; repeat split; repeat constructor|]. split; [|reflexivity].
  apply (C32_accepted_values ex_tree ex_value ex_reach V). reflexivity.
Qed.

(** * Findings on mutation *)

(** The mutation of a container mutates each sub-parameter, then the whole again: two
    normal draws per array inside a container, three in a container of a container. *)
Theorem container_mutation_is_repeated : exists t, reachable t /\ dimension t = 3 /\ forall rnd, snd (fst (mutate rnd t 0)) = 8.
Proof. exists ex_tree. split; [exact ex_reach|]. split; reflexivity. Qed.
Print Assumptions container_mutation_is_repeated.

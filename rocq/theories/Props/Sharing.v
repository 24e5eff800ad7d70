(** C31: independence of children and parents. *)
From Coq Require Import List Arith ZArith QArith Bool Lia.
From Verif.Model Require Import Prelude Sharing.
From Verif.Spec Require Import Sharing.
From Verif.Proofs Require Import Prelude Sharing.
Import ListNotations.
Open Scope nat_scope.

(** A container with a constant (wrapping the array [7]) and an array, with its sigma. *)
Definition ex_fields (uid : nat) : fields := Fields uid 0 [] uid None false.
Definition ex_heap : heap :=
  [CArr [7%Q]; OConst (ex_fields 1) 0;
   CArr [2%Q]; OConst (ex_fields 2) 2; OCont (ex_fields 3) [(0, 3)]; CArr [1; 2]%Q; OData (ex_fields 4) 5 4;
   OCont (ex_fields 5) [(0, 1); (1, 6)]].
Lemma ex_closed : closed ex_heap.
Proof.
  intros a c b E R. do 8 (destruct a as [|a]; [cbn in E; injection E as <-; cbv in R; cbn; repeat match goal with
    | H : _ \/ _ |- _ => destruct H | H : False |- _ => destruct H | H : exists _, _ |- _ => destruct H
    | H : (_, _) = (_, _) |- _ => injection H as ? ? end; subst; lia|]). destruct a; discriminate.
Qed.

(** ** The child *)

(** Whatever is done to a child, to its sub-parameters and to the arrays which their
    values return (even in place), nothing which can be read from the parent changes. *)
Theorem C31_child_changes_keep_parent : forall fuel a uid h h' c uid' ops, closed h -> a < length h ->
  (forall f p, nth_error h a <> Some (OConst f p)) -> hspawn fuel a uid h = Ok (h', c, uid') -> ops_on h' c a ops ->
  forall n, view n (hrun ops h') a = view n h a.
Proof.
  intros fuel a uid h h' c uid' ops Hc La Hk E Ho n. destruct (hspawn_spec fuel a uid h h' c uid' Hc La Hk E) as (H1 & H2 & H3 & H4 & _ & H6 & _).
  assert (Fr : forall x, seen h a x -> nth_error h' x = nth_error h x) by (intros x Hx; apply H6; exact (seen_lt h a x Hc La Hx)).
  rewrite (view_frame n h' (hrun ops h') a); [now apply view_frame|]. apply (run_sep ops h' c a); auto. lia.
Qed.
Print Assumptions C31_child_changes_keep_parent.

(** And conversely. *)
Theorem C31_parent_changes_keep_child : forall fuel a uid h h' c uid' ops, closed h -> a < length h ->
  (forall f p, nth_error h a <> Some (OConst f p)) -> wraps_arrays h -> own_arrays h a -> hspawn fuel a uid h = Ok (h', c, uid') -> ops_on h' a c ops ->
  forall n, view n (hrun ops h') c = view n h' c.
Proof.
  intros fuel a uid h h' c uid' ops Hc La Hk Hw Hp E Ho n. destruct (hspawn_spec fuel a uid h h' c uid' Hc La Hk E) as (H1 & H2 & H3 & _ & H5 & _).
  apply view_frame. apply (run_sep ops h' a c); auto. lia.
Qed.
Print Assumptions C31_parent_changes_keep_child.

(** The values of the child are those of its parent; spawning changes nothing of the
    parent, nor of anything else. *)
Theorem C31_child_values : forall fuel a uid h h' c uid' n, closed h -> a < length h ->
  (forall f p, nth_error h a <> Some (OConst f p)) -> hspawn fuel a uid h = Ok (h', c, uid') ->
  option_map values_of (view n h' c) = option_map values_of (view n h a) /\ forall b, b < length h -> view n h' b = view n h b.
Proof.
  intros fuel a uid h h' c uid' n Hc La Hk E. destruct (hspawn_spec fuel a uid h h' c uid' Hc La Hk E) as (_ & _ & _ & _ & _ & H6 & H7).
  split; [apply H7|]. intros b Lb. apply view_frame. intros x Hx. apply H6. exact (seen_lt h b x Hc Lb Hx).
Qed.
Print Assumptions C31_child_values.

(** Nothing of a child is frozen nor has a loss, at any level, even when the parent is
    frozen or has one; and all identifiers are new. *)
Theorem C31_child_fields : forall fuel a uid h h' c uid' x o f, closed h -> a < length h ->
  (forall f p, nth_error h a <> Some (OConst f p)) -> hspawn fuel a uid h = Ok (h', c, uid') ->
  owned h' c x -> nth_error h' x = Some o -> fields_of o = Some f ->
  f_frozen f = false /\ f_loss f = None /\ uid <= f_uid f < uid'.
Proof.
  intros fuel a uid h h' c uid' x o f Hc La Hk E Hx Eo Ef. exact (hspawn_fields fuel a uid h h' c uid' Hc La Hk E x o f Hx Eo Ef).
Qed.
Print Assumptions C31_child_fields.

(** Copies too. *)
Theorem C31_copy_changes_keep_original : forall fuel a uid h h' c uid' ops, closed h -> a < length h ->
  hcopy fuel a uid h = Ok (h', c, uid') -> ops_on h' c a ops -> forall n, view n (hrun ops h') a = view n h a.
Proof.
  intros fuel a uid h h' c uid' ops Hc La E Ho n. destruct (hcopy_spec fuel a uid h h' c uid' Hc La E) as [[[l F1] F2 F3 F4 F5] _].
  rewrite (view_frame n h' (hrun ops h') a); [rewrite F1; now apply view_ext|].
  apply (run_sep ops h' c a); auto; [rewrite F1, app_length; lia|]. intros x Hx Sx. specialize (F4 x Hx). rewrite F1 in Sx. rewrite seen_ext in Sx by easy.
  pose proof (seen_lt h a x Hc La Sx). lia.
Qed.
Print Assumptions C31_copy_changes_keep_original.

Definition ex_child : heap := match hspawn 5 7 10 ex_heap with Ok (h, _, _) => h | Err _ => [] end.
Example C31_sharing_nontrivial :
  hspawn 5 7 10 ex_heap = Ok (ex_child, 13, 15) /\
  ops_on ex_child 13 7 [HInPlace 9 [0; 0]%Q; HNewValue 12 [5; 6]%Q; HFields 13 (set_parent None)] /\
  wraps_arrays ex_heap /\ own_arrays ex_heap 7 /\
  (match view 5 ex_child 13 with Some (VCont f [(_, VConst _ (Some [x])); (_, VData _ [y; z] _)]) => f_parents f = [5] /\ f_gen f = 1 /\ x = 7%Q /\ y = 1%Q /\ z = 2%Q | _ => False end).
Proof.
  split; [reflexivity|]. split; [|split; [|split; [|vm_compute; repeat split; reflexivity]]].
  - assert (O : forall h, nth_error h 13 = nth_error ex_child 13 -> owned h 13 12).
    { intros h E. eapply (owned_step h 13 13); [constructor|rewrite E; reflexivity|]. cbn. exists 1. auto. }
    split; [|split; [now apply O|split; [constructor|exact I]]].
    eapply (owned_step ex_child 13 12); [now apply O|reflexivity|]. cbn. auto.
  - intros a f p E. do 8 (destruct a as [|a]; [cbn in E; try discriminate; injection E as <- <-; cbn; eauto|]). destruct a; discriminate.
  - assert (R : forall x, owned ex_heap 7 x -> x <> 0 /\ x <> 2).
    { assert (R : forall x, owned ex_heap 7 x -> In x [7; 1; 6; 5; 4; 3]).
      { intros x H. induction H as [|b c d H IH E R]; [cbn; auto|]. cbn in IH. repeat (destruct IH as [<-|IH]); try destruct IH;
        cbn in E; injection E as <-; cbn in R; repeat match goal with H : _ \/ _ |- _ => destruct H | H : False |- _ => destruct H | H : exists _, _ |- _ => destruct H | H : (_, _) = (_, _) |- _ => injection H as ? ? end; subst; cbn; auto 10. }
      intros x H. specialize (R x H). cbn in R. intuition lia. }
    intros b f p Hb E Hp. destruct (R p Hp). do 8 (destruct b as [|b]; [cbn in E; try discriminate; injection E as <- <-; lia|]). destruct b; discriminate.
Qed.

(** ** Findings *)

(** Two parameters which received the same array (of floats) share it: writing in it
    changes the value of both; even if they are frozen. *)
Definition ex_two : heap :=
  [CArr [0; 0]%Q; OCont (ex_fields 1) []; CArr [1; 2]%Q; OData (ex_fields 2) 2 1; CArr [3; 4]%Q; OData (ex_fields 3) 4 1].
Theorem C31_given_arrays_are_shared_refuted :
  let h := hrun [HKeepValue 3 0; HKeepValue 5 0; HFields 3 (fun f => Fields (f_uid f) (f_gen f) (f_parents f) (f_lineage f) (f_loss f) true)] ex_two in
  (exists f w, view 3 h 3 = Some (VData f [0; 0]%Q w) /\ f_frozen f = true) /\
  (exists f w, view 3 (hstep h (HInPlace 0 [9; 9]%Q)) 3 = Some (VData f [9; 9]%Q w)) /\
  (exists f w, view 3 (hstep h (HInPlace 0 [9; 9]%Q)) 5 = Some (VData f [9; 9]%Q w)).
Proof. cbn. repeat split; do 2 eexists; try split; reflexivity. Qed.
Print Assumptions C31_given_arrays_are_shared_refuted.

(** A copied constant wraps the object of the original: changing it in place through the
    child changes the parent. *)
Theorem C31_wrapped_objects_are_shared_refuted : exists h h' c uid' p x, closed h /\ hspawn 5 7 10 h = Ok (h', c, uid') /\
  (exists a f, owned h' c a /\ nth_error h' a = Some (OConst f p)) /\
  view 5 (hstep h' (HInPlace p x)) 7 <> view 5 h' 7.
Proof.
  exists ex_heap. do 3 eexists. exists 0, [8%Q]. split; [exact ex_closed|]. split; [reflexivity|]. split; [|vm_compute; discriminate].
  exists 8. eexists. split; [|reflexivity]. eapply owned_step; [constructor|reflexivity|]. cbn. exists 0. auto.
Qed.
Print Assumptions C31_wrapped_objects_are_shared_refuted.

(** The sample of a container holds the constants of the original, not copies. Sampling
    a child resets their generation and lineage: the child is changed by it, and the two
    share the constant afterwards. *)
Definition ex_sampled : heap := match hsample (fun x => x) 5 13 15 ex_child with Ok (h, _, _) => h | Err _ => [] end.
Theorem C31_sample_changes_and_shares_constants_refuted : exists h a h1 c uid1 h2 s uid2, closed h /\ hspawn 5 a 10 h = Ok (h1, c, uid1) /\
  hsample (fun x => x) 5 c uid1 h1 = Ok (h2, s, uid2) /\ view 5 h2 c <> view 5 h1 c /\
  exists b, owned h2 s b /\ owned h2 c b.
Proof.
  exists ex_heap, 7, ex_child, 13, 15, ex_sampled, 19, 23. split; [exact ex_closed|]. split; [vm_compute; reflexivity|]. split; [vm_compute; reflexivity|]. split; [vm_compute; discriminate|].
  assert (O : forall c f l, nth_error ex_sampled c = Some (OCont f l) -> In (0, 8) l -> owned ex_sampled c 8).
  { intros c f l E H. apply (owned_step ex_sampled c c (OCont f l) 8); [constructor|exact E|]. exists 0. exact H. }
  exists 8. split; (eapply O; [vm_compute; reflexivity|left; reflexivity]).
Qed.
Print Assumptions C31_sample_changes_and_shares_constants_refuted.

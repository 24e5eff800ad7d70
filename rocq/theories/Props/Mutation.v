(** C54: structured mutations of arrays. *)
From Coq Require Import Arith ZArith Bool Lia List Permutation.
From Verif.Model Require Import Prelude Mutation.
From Verif.Spec Require Import Mutation.
From Verif.Proofs Require Import Crossover Mutation.
Import ListNotations.
Open Scope nat_scope.

(** ** Translation *)

(** where a translation moves an index *)
Definition rotated (shape : list nat) (axes_shifts : list (nat * nat)) (ix : list nat) : list nat :=
  fold_left (fun ix ak => move (fst ak) (fun i => (i + snd ak) mod nth (fst ak) shape 0) ix) axes_shifts ix.
Theorem C54_translation {A} (shape : list nat) (axes_shifts : list (nat * nat)) (t : tensor A) :
  has_shape shape t -> (forall ak, In ak axes_shifts -> fst ak < length shape) ->
  has_shape shape (translate axes_shifts t) /\
  Permutation (elements (translate axes_shifts t)) (elements t) /\
  forall ix, valid_index shape ix ->
    valid_index shape (rotated shape axes_shifts ix) /\
    at_index (translate axes_shifts t) (rotated shape axes_shifts ix) = at_index t ix.
Proof.
  unfold translate, rotated. revert t. induction axes_shifts as [|[a k] l IH]; intros t Hs Ha; cbn [fold_left fst snd].
  - split; [exact Hs|]. split; [reflexivity|]. auto.
  - assert (Hr : forall l0 : list (tensor A), Permutation (roll k l0) l0) by (intros; apply roll_perm).
    assert (Hs' : has_shape shape (along a (roll k) t)) by (now apply along_shape).
    destruct (IH (along a (roll k) t) Hs') as (I1 & I2 & I3); [intros ak Hak; apply Ha; now right|].
    split; [exact I1|]. split; [rewrite I2; now apply along_perm|].
    intros ix Hv. specialize (Ha (a, k) (or_introl eq_refl)). cbn in Ha.
    assert (En : nth_error shape a = Some (nth a shape 0)) by (now apply nth_error_nth').
    set (n := nth a shape 0) in *. set (g := fun i => (i + k) mod n).
    assert (Hg : forall i, i < n -> g i < n) by (intros; apply Nat.mod_upper_bound; lia).
    pose proof (valid_move a g n shape ix En Hg Hv) as Hv'.
    destruct (I3 _ Hv') as [J1 J2]. split; [exact J1|]. etransitivity; [exact J2|].
    apply (along_index a (roll k) g n shape); [exact En|exact Hs|exact Hv|].
    intros l0 i Hl Hi. unfold g. rewrite <- Hl in *. now apply roll_nth.
Qed.
Definition ex_t : tensor nat := TNode [TNode [TLeaf 1; TLeaf 2; TLeaf 3]; TNode [TLeaf 4; TLeaf 5; TLeaf 6]].
Example C54_translation_ex : has_shape [2; 3] ex_t /\ elements (translate [(0, 1); (1, 2)] ex_t) = [5; 6; 4; 2; 3; 1] /\
  rotated [2; 3] [(0, 1); (1, 2)] [0; 1] = [1; 0].
Proof. split; [|split; reflexivity]. cbn. repeat constructor. Qed.

(** ** Jumping *)

(** Legal draws: the slices along the axis are those before, one chunk of consecutive slices
    moved elsewhere, the others in the same order. *)
Theorem C54_jump {B} (size init newpos : nat) (l : list B) :
  exists a chunk b r1 r2, l = a ++ chunk ++ b /\ jump size init newpos l = r1 ++ chunk ++ r2 /\ r1 ++ r2 = a ++ b /\
    a = firstn init l /\ chunk = firstn size (skipn init l) /\ r1 = firstn newpos (a ++ b).
Proof. apply jump_parts. Qed.
Theorem C54_jumping {A} (shape : list nat) (axis size init newpos : nat) (t : tensor A) : has_shape shape t ->
  has_shape shape (jumping axis size init newpos t) /\ Permutation (elements (jumping axis size init newpos t)) (elements t).
Proof.
  intros Hs. unfold jumping. split; [apply along_shape; [intros; apply jump_perm|exact Hs]|].
  apply along_perm. intros. apply jump_perm.
Qed.
(** legal draws exist for a size of two at least, on an axis with two slices at least *)
Theorem C54_jumping_legal {A} (axis max_size : nat) (t : tensor A) : 2 <= max_size -> 2 <= axis_size axis t ->
  exists size init newpos, jumping_draws axis max_size t size init newpos = Ok tt.
Proof.
  intros H1 H2. exists 1, 0, 0. unfold jumping_draws.
  destruct (Nat.leb_spec max_size 1); [lia|]. destruct (Nat.eqb_spec (axis_size axis t) 0); [lia|].
  destruct (Nat.eqb_spec (0 + (axis_size axis t - (0 + 1))) 0); [lia|].
  destruct (Nat.ltb_spec 1 max_size), (Nat.ltb_spec 0 (axis_size axis t)), (Nat.ltb_spec 0 (0 + (axis_size axis t - (0 + 1)))); try lia. reflexivity.
Qed.
(** chunks of one slice cannot be asked for: [size=1] raises at each mutation *)
Theorem C54_jumping_size_one_refuted {A} (axis : nat) (t : tensor A) size init newpos :
  jumping_draws axis 1 t size init newpos = Err ValueError.
Proof. reflexivity. Qed.
(** and a chunk which covers the axis raises *)
Theorem C54_jumping_whole_refuted : exists (t : tensor nat) size newpos, 1 <= size < 3 /\ 
  jumping_draws 0 3 t size 0 newpos = Err ValueError.
Proof. exists (TNode [TLeaf 1; TLeaf 2]), 2, 0. split; [lia|reflexivity]. Qed.
Example C54_jumping_ex : elements (jumping 1 1 0 1 ex_t) = [2; 1; 3; 5; 4; 6] /\ jumping_draws 1 2 ex_t 1 0 1 = Ok tt.
Proof. split; reflexivity. Qed.

(** ** Crossover *)

(** On legal axes (None: all), a crossover which does not raise takes, at each index inside a
    window of the same size along each of these axes, the element of the second array, and the
    element of the first one elsewhere. The last index along an axis is never in the window. *)
Theorem C54_crossover {A} (shape : list nat) (axes : option (list Z)) max_size default_max drawn starts (x y out : tensor A) :
  has_shape shape x -> has_shape shape y ->
  crossover shape axes max_size default_max drawn starts x y = Ok out ->
  exists windows size, 1 <= size /\ length windows = length shape /\
    (forall j n, nth_error shape j = Some n ->
       if match axes with None => true | Some l => existsb (Z.eqb (Z.of_nat j)) l end
       then exists start, nth_error windows j = Some (Some (start, size)) /\ start + size < n
       else nth_error windows j = Some None) /\
    (forall m, max_size = Some m -> size <= m) /\
    has_shape shape out /\
    forall ix, valid_index shape ix ->
      (inside windows ix -> at_index out ix = at_index y ix) /\ (~ inside windows ix -> at_index out ix = at_index x ix).
Proof.
  intros Hx Hy H. unfold crossover in H.
  set (ax := match axes with None => map Z.of_nat (seq 0 (length shape)) | Some l => l end) in *.
  destruct (match ax with [] => true | _ => false end); [discriminate|].
  destruct (map_result (py_index shape) ax) as [sizes|]; [|discriminate]. cbn [bind] in H.
  set (m0 := match max_size with None => default_max | Some m => m end) in *.
  set (m := fold_left (fun m s => Z.min m (Z.of_nat s - 1)) sizes (Z.of_nat m0)) in *.
  assert (Hm : (m <= Z.of_nat m0)%Z).
  { unfold m. generalize (Z.of_nat m0) as z. clear. induction sizes as [|s sizes IH]; intros z; cbn [fold_left]; [lia|].
    specialize (IH (Z.min z (Z.of_nat s - 1))). lia. }
  destruct (Z.eqb_spec m 1) as [E1|E1].
  - cbn [bind] in H. destruct (make_slices 0 shape ax 1 starts) as [ws|] eqn:Ew; [|discriminate]. injection H as <-.
    destruct (make_slices_spec 0 shape ax 1 starts ws (le_n 1) Ew) as [L W].
    exists ws, 1. split; [lia|]. split; [exact L|]. split.
    { intros j n Hj. specialize (W j n Hj). cbn in W. unfold ax in W. destruct axes as [l|]; [exact W|].
      assert (E : existsb (Z.eqb (Z.of_nat j)) (map Z.of_nat (seq 0 (length shape))) = true).
      { apply existsb_exists. exists (Z.of_nat j). split; [|apply Z.eqb_refl]. apply in_map, in_seq.
        assert (j < length shape) by (apply nth_error_Some; congruence). lia. }
      now rewrite E in W. }
    split; [intros mm Em; unfold m0 in Hm; rewrite Em in Hm; lia|].
    split; [now apply merge_shape|]. intros ix Hv. now apply (merge_index ws shape).
  - destruct (Z.leb_spec m 1); [discriminate|].
    destruct (Nat.leb_spec 1 drawn); [|discriminate]. destruct (Z.ltb_spec (Z.of_nat drawn) m); [|discriminate].
    cbn [andb bind] in H. destruct (make_slices 0 shape ax drawn starts) as [ws|] eqn:Ew; [|discriminate]. injection H as <-.
    destruct (make_slices_spec 0 shape ax drawn starts ws ltac:(lia) Ew) as [L W].
    exists ws, drawn. split; [lia|]. split; [exact L|]. split.
    { intros j n Hj. specialize (W j n Hj). cbn in W. unfold ax in W. destruct axes as [l|]; [exact W|].
      assert (E : existsb (Z.eqb (Z.of_nat j)) (map Z.of_nat (seq 0 (length shape))) = true).
      { apply existsb_exists. exists (Z.of_nat j). split; [|apply Z.eqb_refl]. apply in_map, in_seq.
        assert (j < length shape) by (apply nth_error_Some; congruence). lia. }
      now rewrite E in W. }
    split; [intros mm Em; unfold m0 in Hm; rewrite Em in Hm; lia|].
    split; [now apply merge_shape|]. intros ix Hv. now apply (merge_index ws shape).
Qed.
Definition ex_u : tensor nat := TNode [TNode [TLeaf 11; TLeaf 12; TLeaf 13]; TNode [TLeaf 14; TLeaf 15; TLeaf 16]].
Example C54_crossover_ex : has_shape [2; 3] ex_u /\
  option_map elements (match crossover [2; 3] (Some [1%Z]) None 3 1 [1] ex_t ex_u with Ok t => Some t | Err _ => None end)
  = Some [1; 12; 3; 4; 15; 6].
Proof. split; [cbn; repeat constructor|reflexivity]. Qed.
(** A negative axis is accepted and nothing of the first array is left. *)
Theorem C54_negative_axis_refuted : forall drawn starts, 1 <= drawn < 2 ->
  crossover [2; 3] (Some [(-1)%Z]) None 3 drawn starts ex_t ex_u = Ok ex_u.
Proof. intros drawn starts H. replace drawn with 1 by lia. reflexivity. Qed.
(** An axis of size two at most cannot be used with a window of more than one element, and one
    of size one raises. *)
Theorem C54_axis_one_refuted {A} max_size default_max drawn starts (x y : tensor A) :
  crossover [1] None (Some max_size) default_max drawn starts x y = Err ValueError.
Proof.
  unfold crossover. cbn. destruct (Z.eqb_spec (Z.min (Z.of_nat max_size) 0) 1); [lia|].
  destruct (Z.leb_spec (Z.min (Z.of_nat max_size) 0) 1); [reflexivity|lia].
Qed.

Print Assumptions C54_translation.
Print Assumptions C54_jump.
Print Assumptions C54_jumping.
Print Assumptions C54_jumping_legal.
Print Assumptions C54_jumping_size_one_refuted.
Print Assumptions C54_jumping_whole_refuted.
Print Assumptions C54_crossover.
Print Assumptions C54_negative_axis_refuted.
Print Assumptions C54_axis_one_refuted.

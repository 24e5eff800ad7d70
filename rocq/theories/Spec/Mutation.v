(** Vocabulary for arrays. *)
From Coq Require Import Arith Bool List.
From Verif.Model Require Import Mutation.
Import ListNotations.
Open Scope nat_scope.

(** the elements, in order *)
Fixpoint elements {A} (t : tensor A) : list A :=
  match t with TLeaf a => [a] | TNode l => flat_map elements l end.
(** the element at an index *)
Fixpoint at_index {A} (t : tensor A) (ix : list nat) : option A :=
  match t, ix with
  | TLeaf a, [] => Some a
  | TNode l, i :: ix => match nth_error l i with Some t' => at_index t' ix | None => None end
  | _, _ => None
  end.
(** [t] has this shape *)
Fixpoint has_shape {A} (shape : list nat) (t : tensor A) : Prop :=
  match shape, t with
  | [], TLeaf _ => True
  | n :: shape, TNode l => length l = n /\ Forall (has_shape shape) l
  | _, _ => False
  end.
(** replaces one index *)
Fixpoint move (axis : nat) (f : nat -> nat) (ix : list nat) : list nat :=
  match ix with
  | [] => []
  | i :: ix => match axis with 0 => f i :: ix | S axis => i :: move axis f ix end
  end.
(** the index is inside the windows *)
Fixpoint inside (windows : list (option (nat * nat))) (ix : list nat) : Prop :=
  match windows, ix with
  | [], [] => True
  | None :: ws, _ :: ix => inside ws ix
  | Some (start, size) :: ws, i :: ix => start <= i < start + size /\ inside ws ix
  | _, _ => False
  end.
Fixpoint valid_index (shape ix : list nat) : Prop :=
  match shape, ix with
  | [], [] => True
  | n :: shape, i :: ix => i < n /\ valid_index shape ix
  | _, _ => False
  end.

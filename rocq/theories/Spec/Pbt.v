(** Vocabulary for population based training. *)
From Coq Require Import List Arith QArith.
From Verif.Model Require Import Prelude MultiValue Pbt.
Import ListNotations.
Open Scope nat_scope.

(** The array that a worker holds. *)
Definition checkpoint (s : pbt) (w : nat) : option (list Q) :=
  match nth_error (checkpoints s) w with Some a => nth_error (heap s) a | None => None end.
(** Workers holding the same array. *)
Definition share (s : pbt) (w w' : nat) : Prop :=
  exists a, nth_error (checkpoints s) w = Some a /\ nth_error (checkpoints s) w' = Some a.
(** [a] is not more than [b], [None] being the infinity. *)
Definition dist_le (a b : option Q) : Prop :=
  match a, b with Some x, Some y => (x <= y)%Q | _, None => True | None, Some _ => False end.
(** The first of the least. *)
Definition first_least (l : list (option Q)) (k : nat) : Prop :=
  exists v, nth_error l k = Some v /\ (forall i u, nth_error l i = Some u -> dist_le v u)
    /\ (forall i u, i < k -> nth_error l i = Some u -> ~ dist_le u v).
(** The draws of a call are those of the code: a worker as target, and one noise for each block. *)
Definition proper (n : nat) (dims : list nat) (c : draws * list Q) : Prop :=
  target (fst c) < n /\ length (noises (fst c)) = length dims /\ length (snd c) = length dims.
(** The gradients have the size of the blocks. *)
Definition same_size (grad : nat -> list Q -> list Q) : Prop := forall j b, length (grad j b) = length b.

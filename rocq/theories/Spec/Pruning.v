(** Ranks, stated by counting. *)
From Coq Require Import List Arith QArith.
Import ListNotations.

(** number of elements satisfying a decidable predicate *)
Definition count {A} (p : A -> bool) (l : list A) : nat := length (filter p l).

(** [rank e l v]: number of entries of [l] whose estimate is at most that of [v] *)
Definition rank {A} (e : A -> Q) (l : list A) (v : A) : nat :=
  count (fun w => Qle_bool (e w) (e v)) l.

(** all estimates different *)
Definition no_ties {A} (e : A -> Q) (l : list A) : Prop :=
  forall i j x y, nth_error l i = Some x -> nth_error l j = Some y -> (e x == e y)%Q -> i = j.

(** [sublist a b]: [a] is [b] with some entries removed *)
Inductive sublist {A} : list A -> list A -> Prop :=
| sub_nil : sublist [] []
| sub_keep x a b : sublist a b -> sublist (x :: a) (x :: b)
| sub_drop x a b : sublist a b -> sublist a (x :: b).

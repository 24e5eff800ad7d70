(** Vocabulary for the crossovers. *)
From Coq Require Import Arith Bool List.
Import ListNotations.
Open Scope nat_scope.

(** [out] is a coordinatewise mix of [x] and [y] *)
Definition coordinatewise {A} (x y out : list A) : Prop :=
  length out = length x /\
  forall i, i < length x -> nth_error out i = nth_error x i \/ nth_error out i = nth_error y i.
(** with the coordinates taken from [y] given by [P] *)
Definition takes {A} (P : nat -> Prop) (x y out : list A) : Prop :=
  length out = length x /\
  forall i, i < length x -> (P i -> nth_error out i = nth_error y i) /\ (~ P i -> nth_error out i = nth_error x i).

(** Vocabulary for stratified points. *)
From Coq Require Import Arith List.
Import ListNotations.

(** the number of points of a class *)
Definition number {A} (class_of : A -> nat) (c : nat) (l : list A) : nat := length (filter (fun x => class_of x =? c) l).

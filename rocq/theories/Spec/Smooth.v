(** Vocabulary for arrays. *)
From Coq Require Import List Arith ZArith QArith.
Import ListNotations.

(** A cell of an array of this shape. *)
Definition cell (shape i : list nat) : Prop := Forall2 lt i shape.
Fixpoint sum_below (f : nat -> Q) (n : nat) : Q := match n with O => 0%Q | S n' => (sum_below f n' + f n')%Q end.

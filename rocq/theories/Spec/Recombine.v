(** Vocabulary for recombinations: the mean of several vectors. *)
From Coq Require Import List Arith ZArith QArith.
Import ListNotations.

(** sum of the numbers of index [j] *)
Definition column (j : nat) (ys : list (list Q)) : Q := fold_right (fun y s => nth j y 0 + s)%Q 0%Q ys.
(** [y] is the mean of [ys], number by number *)
Definition mean_of (ys : list (list Q)) (y : list Q) : Prop :=
  (forall x, In x ys -> length x = length y) /\
  forall j, (j < length y)%nat -> (nth j y 0 * inject_Z (Z.of_nat (length ys)) == column j ys)%Q.

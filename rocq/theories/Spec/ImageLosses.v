(** Images and sums. *)
From Coq Require Import List QArith Sorting.Permutation.
From Verif Require Import Model.ImageLosses.
Import ListNotations.

Fixpoint sum (l : list Q) : Q := match l with [] => 0 | q :: l => q + sum l end.
(** the pixels fit the shape: rows, columns, channels *)
Definition fits (x : image) : Prop :=
  exists a b c, i_shape x = [a; b; c] /\ length (i_pixels x) = (a * b)%nat /\ Forall (fun p => length p = c) (i_pixels x).
Definition dist_with (f : Q -> Q -> Q) (x r : list Q) : Q := sum (map (fun ab => f (fst ab) (snd ab)) (combine x r)).
(** the same gray levels, in any order *)
Definition same_histogram (x r : image) : Prop := Permutation (map sum (i_pixels x)) (map sum (i_pixels r)).

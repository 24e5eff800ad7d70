(** Points of the unit sphere. *)
From Coq Require Import List Reals Sorting.Permutation.
Import ListNotations.

(** the sum of the squares of the coordinates *)
Fixpoint squares (l : list R) : R := match l with [] => 0%R | a :: l => (a * a + squares l)%R end.
Definition on_sphere (v : list (list R)) : Prop := squares (concat v) = 1%R.
(** at most one of the draws is zero *)
Definition one_zero (draw : nat -> list (list R)) : Prop :=
  forall i j, squares (concat (draw i)) = 0%R -> squares (concat (draw j)) = 0%R -> i = j.
(** the slices of [a] are those of [b] in some order, and, if allowed, up to sign *)
Definition rearranged (signs : bool) (a b : list (list R)) : Prop :=
  exists c, Permutation c b /\ Forall2 (fun u v => u = v \/ (signs = true /\ u = map Ropp v)) a c.
(** [u] is [v] divided by a positive number *)
Definition direction (u v : list (list R)) : Prop := exists c, (0 < c)%R /\ v = map (map (fun a => (c * a)%R)) u.

(** First occurrences, and draws of a generator. *)
From Coq Require Import Bool Arith List String ZArith.
Import ListNotations.

(** [a] comes before [b] in a list *)
Definition before {A : Type} (l : list A) (a b : A) : Prop := exists p q, l = p ++ a :: q /\ In b q /\ ~ In b p /\ b <> a.

(** the k-th draw *)
Fixpoint nth_draw {G : Type} (draw : G -> G * Z) (g : G) (k : nat) : Z :=
  match k with O => snd (draw g) | S k => nth_draw draw (fst (draw g)) k end.

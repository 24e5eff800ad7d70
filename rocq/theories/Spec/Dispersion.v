(** Distances between points. *)
From Coq Require Import List QArith.
Import ListNotations.

(** all the points of [x] are at distance at least [r] from [y] *)
Definition away {P : Type} (dist : P -> P -> Q) (r : Q) (x : list P) (y : P) : Prop := forall z, In z x -> r <= dist y z.
(** any two points of [x] are at distance at least [r] *)
Definition separated {P : Type} (dist : P -> P -> Q) (r : Q) (x : list P) : Prop :=
  forall i j a b, i <> j -> nth_error x i = Some a -> nth_error x j = Some b -> r <= dist a b.

(** Vocabulary for the optimizers which restart a library *)
From Coq Require Import List QArith.
From Verif.Model Require Import Restarts.
Import ListNotations.

(** A run of the library on the objective [g] returns its best evaluated point, with its value. *)
Definition honest {X} (g : X -> Q) (r : run X) : Prop :=
  In (found r) (points r) /\ (value r == g (found r))%Q /\ forall p, In p (points r) -> (g (found r) <= g p)%Q.
(** [x] is one of the evaluated points, of least loss. *)
Definition best_evaluated {X} (f : X -> Q) (x : X) (evaluated : list X) : Prop :=
  In x evaluated /\ forall y, In y evaluated -> (f x <= f y)%Q.

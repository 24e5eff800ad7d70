(** Vocabulary for the training of modules. *)
From Coq Require Import QArith List.
From Verif.Model Require Import MultiValue Torch.
Import ListNotations.
Open Scope Q_scope.

(** A rounding: monotone, and its results are left unchanged. *)
Definition rounding (r : Q -> Q) : Prop := (forall x y, x <= y -> r x <= r y) /\ (forall x, r (r x) == r x).
(** All the values are between the bounds. *)
Definition within (bound : Q) (m : weights) : Prop := Forall (Forall (fun x => - bound <= x <= bound)) m.
(** Arrays of the same sizes. *)
Definition same_shape (a b : weights) : Prop := Forall2 (fun x y => length x = length y) a b.
(** An optimizer whose candidates have given sizes. *)
Definition asks_shape {S} (ask : S -> S * weights) (shape : weights) : Prop := forall s, same_shape shape (snd (ask s)).
(** The module which holds a candidate: its values, between the bounds, in 32 bits. *)
Definition holding (f32 : Q -> Q) (bound : Q) (c : weights) : weights :=
  map (map (fun x => f32 (if qlt x (- bound) then - bound else if qlt bound x then bound else x))) c.

(** Pareto dominance, in words. *)
From Coq Require Import List Arith QArith.
From Verif.Model Require Import Pareto.
Import ListNotations.

(** at most, on every objective *)
Definition vle (a b : list Q) : Prop := Forall2 Qle a b.
(** dominance: at most on every objective, less on one *)
Definition dom (a b : list Q) : Prop :=
  vle a b /\ exists i x y, nth_error a i = Some x /\ nth_error b i = Some y /\ (x < y)%Q.
(** no point of [l] dominates [p] *)
Definition undominated (l : list point) (p : point) : Prop :=
  forall q, In q l -> ~ dom (pt_losses q) (pt_losses p).

(** [l'] is [l] without the elements not satisfying [P] *)
Inductive keeps {A} (P : A -> Prop) : list A -> list A -> Prop :=
| keeps_nil : keeps P [] []
| keeps_keep x l l' : P x -> keeps P l l' -> keeps P (x :: l) (x :: l')
| keeps_drop x l l' : ~ P x -> keeps P l l' -> keeps P (x :: l) l'.

Definition same_dimension (d : nat) (l : list point) : Prop :=
  forall p, In p l -> length (pt_losses p) = d.

(** Vocabulary for the single loss of multiobjective losses. *)
From Coq Require Import QArith Bool List Qminmax.
From Verif.Model Require Import Pareto HypervolumePareto.
Import ListNotations.
Open Scope nat_scope.

(** nowhere above the bounds *)
Definition within (bounds : list Q) (p : point) : Prop := Forall2 Qle (pt_losses p) bounds.
(** by how much the losses exceed the bounds, in total *)
Fixpoint excess (losses bounds : list Q) : Q := match losses, bounds with x :: l, b :: bs => (Qmax 0 (x - b) + excess l bs)%Q | _, _ => 0%Q end.
(** the points given by the additions of a history *)
Definition added (ops : list hp_op) : list point := flat_map (fun o => match o with HAdd p => [p] | HFront _ _ _ => [] end) ops.
(** [c] is the list of those of [l] within the bounds *)
Inductive counted (bounds : list Q) : list point -> list point -> Prop :=
| counted_nil : counted bounds [] []
| counted_in p l c : within bounds p -> counted bounds l c -> counted bounds (p :: l) (p :: c)
| counted_out p l c : ~ within bounds p -> counted bounds l c -> counted bounds (p :: l) c.
(** [q] is how much better [front_losses] is than [losses] in the objective where it is the least so *)
Definition least_gain (losses front_losses : list Q) (q : Q) : Prop :=
  (exists i x y, nth_error losses i = Some x /\ nth_error front_losses i = Some y /\ (q == x - y)%Q) /\
  (forall i x y, nth_error losses i = Some x -> nth_error front_losses i = Some y -> (q <= x - y)%Q).
(** The bounds are known, no point was compared with them yet, and the points of the front, if any, are within the bounds. *)
Record settled (bounds : list Q) (s : hpareto) : Prop := Settled {
  st_auto : hp_auto s = 0; st_bounds : hp_bounds s = Some bounds; st_best : hp_best s = None; st_no : hp_no s = false;
  st_within : forall p, In p (pf_pareto (hp_pf s)) -> within bounds p;
  st_front : pf_needs_filtering (hp_pf s) = false -> forall p q, In p (pf_pareto (hp_pf s)) -> In q (pf_pareto (hp_pf s)) -> dominates q p = false }.
(** Worse, in every objective, than all of [l] (which is not empty). *)
Definition uniformly_worse (l : list point) (p : point) : Prop := l <> [] /\ forall q, In q l -> Forall2 Qlt (pt_losses q) (pt_losses p).
(** [a]: the points of [l] that were not, when they came, uniformly worse than those retained so far. *)
Inductive retained : list point -> list point -> Prop :=
| retained_nil : retained [] []
| retained_skip l a p : retained l a -> uniformly_worse a p -> retained (l ++ [p]) a
| retained_keep l a p : retained l a -> ~ uniformly_worse a p -> retained (l ++ [p]) (a ++ [p]).
(** [b] is, objective by objective, the largest loss of the points of [l] *)
Definition maximum (d : nat) (l : list point) (b : list Q) : Prop :=
  length b = d /\ (forall p, In p l -> Forall2 Qle (pt_losses p) b) /\ forall i, i < d -> exists p, In p l /\ (nth i (pt_losses p) 0 == nth i b 0)%Q.

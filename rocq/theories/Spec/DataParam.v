(** Bounds, independently of the layers. *)
From Coq Require Import Reals.
Open Scope R_scope.

(** the number is within the bounds that are given *)
Definition within (lo hi : option R) (v : R) : Prop :=
  (forall l, lo = Some l -> l <= v) /\ (forall h, hi = Some h -> v <= h).
(** two bounds are in order *)
Definition in_order (lo hi : option R) : Prop := forall l h, lo = Some l -> hi = Some h -> l < h.
(** all bounds are positive *)
Definition positive (lo hi : option R) : Prop := (forall l, lo = Some l -> 0 < l) /\ (forall h, hi = Some h -> 0 < h).
(** the documented initial value of a scalar *)
Definition starting (init lo hi : option R) : R :=
  match init, lo, hi with Some v, _, _ => v | None, Some l, Some h => (l + h) / 2 | None, _, _ => 0 end.
(** the documented standard deviation: the range spans six of them *)
Definition deviation (lo hi : option R) : R := match lo, hi with Some l, Some h => (h - l) / 6 | _, _ => 1 end.

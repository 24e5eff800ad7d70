(** Plain statistics of a list of numbers. *)
From Coq Require Import List Arith ZArith QArith Qabs Bool.
From Verif.Model Require Import MultiValue.
Import ListNotations.
Open Scope Q_scope.

Fixpoint sumQ (l : list Q) : Q := match l with [] => 0 | y :: l' => y + sumQ l' end.
Definition meanQ (l : list Q) : Q := sumQ l / qnat (length l).
(** population variance: mean squared distance to the mean *)
Definition varQ (l : list Q) : Q :=
  meanQ (map (fun y => (y - meanQ l) * (y - meanQ l)) l).
Definition is_minimum (m : Q) (l : list Q) : Prop :=
  (exists y, In y l /\ m == y) /\ (forall y, In y l -> m <= y).
(** the range in which re-evaluations are recorded unclipped: +-1e10 *)
Definition in_range (y : Q) : Prop := -(10000000000) <= y /\ y <= 10000000000.
(** a square-root-like function *)
Definition nonneg_fun (f : Q -> Q) : Prop := forall x, 0 <= x -> 0 <= f x.
(** [z] is the number of the range closest to [y] *)
Definition nearest_in_range (y z : Q) : Prop :=
  in_range z /\ forall w, in_range w -> Qabs (y - z) <= Qabs (y - w).

(** Vocabulary for the planning problems. *)
From Coq Require Import List Arith QArith.
From Verif.Model Require Import MultiValue Planning.
Import ListNotations.
Open Scope nat_scope.

(** A plan gives for each generator and each time an output, and whether the generator is on. It is feasible when a generator
    which is off gives nothing, one which is on gives between the two limits, and the demand is met at each time. *)
Definition unit_ok (low high : Q) (o : Q) (s : nat) : Prop :=
  (s = 0 /\ (o == 0)%Q) \/ (s = 1 /\ (low <= o <= high)%Q).
Definition feasible (low high : Q) (demands : list Q) (out : list (list Q)) (states : list (list nat)) : Prop :=
  Forall2 (fun o s => Forall2 (unit_ok low high) o s) out states
  /\ forall t d, nth_error demands t = Some d -> (qsum (column t out) == d)%Q.
(** The shape of a plan, and states which are 0 or 1. *)
Definition plan (gens times : nat) (out : list (list Q)) (states : list nat) : Prop :=
  length out = gens /\ Forall (fun o => length o = times) out /\ length states = gens * times
  /\ Forall (fun s => s = 0 \/ s = 1) states.

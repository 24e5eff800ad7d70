(** Vocabulary about the particle swarm. *)
From Coq Require Import List Arith QArith Bool.
From Verif.Model Require Import Prelude UidQueue Evolution Pso.
From Verif.Spec Require Import Evolution.
Import ListNotations.
Open Scope nat_scope.

(** Reachable states, with the candidates asked and not yet told, and those told *)
Section Reach.
  Variable llambda : nat.
  Variable allowed : list nat -> list nat -> ev_op -> Prop.
  Inductive pso_reach : pso -> list nat -> list nat -> Prop :=
  | pso_reach_init : pso_reach pso_init [] []
  | pso_reach_step s out fin o s' r :
      pso_reach s out fin -> op_ok (de_c (pso_s s)) o -> allowed out fin o ->
      (forall c, o <> OReject c) ->
      pso_step llambda (is_asked out o) s o = (s', r) ->
      pso_reach s' (outstanding_after out o r) (done_after fin o).
End Reach.

(** each candidate is told at most once, without penalty *)
Definition plain_once (out fin : list nat) (o : ev_op) : Prop :=
  match o with OTell c l0 l => ~ In c fin /\ l0 = l | _ => True end.
(** moreover fewer than [llambda] candidates are outstanding at each ask *)
Definition few_workers (llambda : nat) (out fin : list nat) (o : ev_op) : Prop :=
  plain_once out fin o /\ match o with OAsk _ => length out < llambda | _ => True end.
(** moreover the user only tells candidates which were asked *)
Definition asked_only (llambda : nat) (out fin : list nat) (o : ev_op) : Prop :=
  few_workers llambda out fin o /\
  match o with OTell c _ _ => In c out | ONew _ _ _ => False | _ => True end.

(** [a] is [c] or one of its ancestors *)
Inductive ancestor (k : cands) (a : nat) : nat -> Prop :=
| anc_refl : ancestor k a a
| anc_step p c : parent c k = Some p -> ancestor k a p -> ancestor k a c.

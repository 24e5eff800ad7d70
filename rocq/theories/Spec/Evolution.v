(** Vocabulary about populations. *)
From Coq Require Import List Arith QArith Bool.
From Verif.Model Require Import Prelude UidQueue Evolution.
Import ListNotations.

(** order on losses, [None] = +inf *)
Definition le_loss (a b : lo) : Prop :=
  match a, b with
  | _, None => True
  | None, Some _ => False
  | Some x, Some y => (x <= y)%Q
  end.
Definition lt_loss (a b : lo) : Prop :=
  match a, b with
  | Some x, Some y => (x < y)%Q
  | Some _, None => True
  | None, _ => False
  end.

(** new candidates have new uids; only existing candidates are told *)
Definition op_ok (k : cands) (o : ev_op) : Prop :=
  match o with
  | OAsk u | ONew u _ _ => known u k = false
  | OTell c _ _ | OReject c => known c k = true
  end.

(** individuals waiting in a queue *)
Definition in_queue (u : nat) (q : uq) : Prop := In u (uq_told q) \/ In u (os_iter (uq_asked q)).

(** reachable states, [allowed] restricting the operations *)
Section Reach.
  Variables (popsize : nat) (offsprings : option nat) (only : bool).
  Variable rank : est -> list nat -> option (list nat).
  Variable allowed : est -> ev_op -> Prop.
  Inductive es_reach : est -> Prop :=
  | es_reach_init : es_reach es_init
  | es_reach_step s o : es_reach s -> op_ok (es_c s) o -> allowed s o ->
      es_reach (fst (es_step popsize offsprings only rank s o)).
End Reach.

Definition any_op {S : Type} (s : S) (o : ev_op) : Prop := True.
(** the user only tells candidates that were asked *)
Definition no_injection {S : Type} (s : S) (o : ev_op) : Prop :=
  match o with ONew _ _ _ => False | _ => True end.
(** each candidate is told at most once, with a penalty that is not negative *)
Definition told_once (k : cands) (o : ev_op) : Prop :=
  match o with OTell c l0 l => loss c k = None /\ (l0 <= l)%Q | _ => True end.
Definition es_told_once (s : est) (o : ev_op) : Prop := told_once (es_c s) o.

(** single objective *)
Definition by_loss (s : est) (l : list nat) : option (list nat) := None.

(** the constructor accepts these parameters (es.py:122-126) *)
Definition es_config_ok (popsize : nat) (offsprings : option nat) (only : bool) : Prop :=
  only = true -> exists off, offsprings = Some off /\ (popsize < off)%nat.

(** ** Differential evolution: states with the outstanding (asked, not yet told)
    candidates and the candidates already told or rejected *)
Section DEReach.
  Variable llambda : nat.
  Variable propagate : bool.
  Variable allowed : list nat -> list nat -> ev_op -> Prop.
  Definition outstanding_after (out : list nat) (o : ev_op) (r : result unit) : list nat :=
    match o, r with
    | OAsk u, Ok _ => u :: out
    | OTell c _ _, Ok _ | OReject c, Ok _ => filter (fun x => negb (x =? c)%nat) out
    | _, _ => out
    end.
  Definition done_after (fin : list nat) (o : ev_op) : list nat :=
    match o with OTell c _ _ | OReject c => c :: fin | _ => fin end.
  Definition is_asked (out : list nat) (o : ev_op) : bool :=
    match o with OTell c _ _ => existsb (Nat.eqb c) out | _ => true end.
  (** [single]: one objective *)
  Inductive de_reach (single : bool) : dest -> list nat -> list nat -> Prop :=
  | de_reach_init : de_reach single de_init [] []
  | de_reach_step s out fin o mo s' r :
      de_reach single s out fin -> op_ok (de_c s) o -> allowed out fin o ->
      (single = true -> mo = None) ->
      de_step llambda propagate (is_asked out o) mo s o = (s', r) ->
      de_reach single s' (outstanding_after out o r) (done_after fin o).
End DEReach.

Definition any_de (out fin : list nat) (o : ev_op) : Prop := True.
(** each candidate is told at most once, with a penalty that is not negative, and
    only outstanding candidates are rejected *)
Definition de_told_once (out fin : list nat) (o : ev_op) : Prop :=
  match o with
  | OTell c l0 l => ~ In c fin /\ (l0 <= l)%Q
  | OReject c => In c out
  | _ => True
  end.
(** moreover candidates are asked only while fewer than [llambda] are outstanding *)
Definition bounded_workers (llambda : nat) (out fin : list nat) (o : ev_op) : Prop :=
  de_told_once out fin o /\ match o with OAsk _ => (length out < llambda)%nat | _ => True end.

(** some individual is at least as good as [L] *)
Definition covered (L : lo) (s : dest) : Prop :=
  exists k m, dget k (de_pop s) = Some m /\ le_loss (loss m (de_c s)) L.
(** [m], under the key [w], has the largest loss (as of [k]) *)
Definition is_worst (k : cands) (pop : list (nat * nat)) (w m : nat) : Prop :=
  dget w pop = Some m /\ forall k' x, dget k' pop = Some x -> le_loss (loss x k) (loss m k).

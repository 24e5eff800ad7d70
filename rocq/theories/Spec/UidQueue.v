(** Specification vocabulary for [UidQueue] and [OrderedSet]: everything is
    said about the sequence of past calls, not about the data structure. *)
From Coq Require Import List Arith Bool.
From Verif.Model Require Import Prelude UidQueue.
Import ListNotations.

(** What happened, newest event first.  Calls that raise produce no event. *)
Inductive event : Type :=
| EvAsk (u : nat) | EvTell (u : nat) | EvDiscard (u : nat) | EvClear.

(** Status of an individual according to the most recent event about it; the
    number is the time (number of earlier events) of that event. *)
Inductive status_t : Type := Absent | Waiting (t : nat) | Evaluating (t : nat).

Fixpoint status (tr : list event) (u : nat) : status_t :=
  match tr with
  | [] => Absent
  | EvClear :: _ => Absent
  | EvAsk v :: past => if Nat.eqb u v then Evaluating (length past) else status past u
  | EvTell v :: past => if Nat.eqb u v then Waiting (length past) else status past u
  | EvDiscard v :: past => if Nat.eqb u v then Absent else status past u
  end.

(** [u] has been waiting (told, not asked since) for longest. *)
Definition oldest_waiting (tr : list event) (u : nat) : Prop :=
  exists t, status tr u = Waiting t /\
  forall v t', status tr v = Waiting t' -> v <> u -> t < t'.

(** Nobody is waiting and [u] was asked least recently. *)
Definition oldest_evaluating (tr : list event) (u : nat) : Prop :=
  (forall v t, status tr v <> Waiting t) /\
  exists t, status tr u = Evaluating t /\
  forall v t', status tr v = Evaluating t' -> v <> u -> t < t'.

(** The event recorded by a call. *)
Definition event_of (o : uq_op) (out : uq_out) : list event :=
  match o, out with
  | QAsk, OUid u => [EvAsk u]
  | QTell u, ONone => [EvTell u]
  | QDiscard u, ONone => [EvDiscard u]
  | QClear, ONone => [EvClear]
  | _, _ => []
  end.

(** The calling protocol: an individual already waiting is not told again. *)
Definition tell_protocol (tr : list event) (o : uq_op) : Prop :=
  forall u, o = QTell u -> forall t, status tr u <> Waiting t.

(** Queues reachable from the empty queue, with their history. *)
Inductive uq_reach : uq -> list event -> Prop :=
| uq_reach_init : uq_reach uq_empty []
| uq_reach_step : forall q tr o q' out,
    uq_reach q tr -> tell_protocol tr o -> uq_step q o = (q', out) ->
    uq_reach q' (event_of o out ++ tr).

(** Results of [n] consecutive asks. *)
Fixpoint asks (n : nat) (q : uq) : list uq_out :=
  match n with
  | 0 => []
  | S n' => let (q', out) := uq_step q QAsk in out :: asks n' q'
  end.

Definition uq_contents (q : uq) : list nat := uq_told q ++ os_iter (uq_asked q).

(** Ordered sets: the abstract set is the list of keys by last insertion. *)
Definition spec_remove (k : nat) (l : list nat) : list nat :=
  filter (fun x => negb (Nat.eqb x k)) l.

Definition spec_os_step (l : list nat) (o : os_op) : list nat * uq_out :=
  match o with
  | SAdd k => (spec_remove k l ++ [k], ONone)
  | SDiscard k => if existsb (Nat.eqb k) l then (spec_remove k l, ONone) else (l, OErr KeyError)
  | SPopright =>
      match rev l with
      | [] => (l, OErr StopIteration)
      | k :: _ => (removelast l, OUid k)
      end
  | SClear => ([], ONone)
  end.

Fixpoint run {S O R} (step : S -> O -> S * R) (s : S) (ops : list O) : S * list R :=
  match ops with
  | [] => (s, [])
  | o :: ops' =>
      let (s1, r) := step s o in
      let (s2, rs) := run step s1 ops' in (s2, r :: rs)
  end.

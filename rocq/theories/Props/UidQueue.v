(** Properties C19 (UidQueue) and C20 (OrderedSet). *)
From Coq Require Import List Arith Bool.
From Verif.Model Require Import Prelude UidQueue.
From Verif.Spec Require Import UidQueue.
From Verif.Proofs Require UidQueue.
Import ListNotations.

(** C20: every sequence of operations on an OrderedSet behaves like the list of
    its distinct members by last insertion, same results and same failures. *)
Theorem C20_ordered_set_refines_list : forall ops : list os_op,
  let (s, rs) := run os_step os_empty ops in
  let (l, rs') := run spec_os_step [] ops in
  rs = rs' /\ os_iter s = l /\ NoDup l /\ os_len s = length l /\
  (forall k, os_mem k s = true <-> In k l).
Proof. exact UidQueue.os_run_ok. Qed.
Print Assumptions C20_ordered_set_refines_list.

Example C20_example :
  run os_step os_empty [SAdd 3; SAdd 5; SAdd 3; SPopright; SDiscard 7; SAdd 5]
  = (OSet [(5, 1)] 4, [ONone; ONone; ONone; OUid 3; OErr KeyError; ONone]).
Proof. reflexivity. Qed.

(** C19: ask returns the individual waiting for longest, or if none waits, the
    one asked least recently; it fails exactly when no individual is present. *)
Theorem C19_ask_takes_oldest : forall q tr, uq_reach q tr ->
  (exists u q', uq_step q QAsk = (q', OUid u) /\ (oldest_waiting tr u \/ oldest_evaluating tr u))
  \/ (uq_step q QAsk = (q, OErr RuntimeError) /\ forall u, status tr u = Absent).
Proof. exact UidQueue.reach_ask. Qed.
Print Assumptions C19_ask_takes_oldest.

(** C19: the contents are exactly the individuals told and not discarded since,
    each once, split by whether they were asked since. *)
Theorem C19_contents_exact : forall q tr, uq_reach q tr ->
  NoDup (uq_contents q) /\
  (forall u, In u (uq_told q) <-> exists t, status tr u = Waiting t) /\
  (forall u, In u (os_iter (uq_asked q)) <-> exists t, status tr u = Evaluating t).
Proof. exact UidQueue.reach_contents. Qed.
Print Assumptions C19_contents_exact.

(** C19: discard succeeds exactly on present individuals, and fails without effect. *)
Theorem C19_discard_exact : forall q tr u, uq_reach q tr ->
  (status tr u <> Absent /\ exists q', uq_step q (QDiscard u) = (q', ONone)) \/
  (status tr u = Absent /\ uq_step q (QDiscard u) = (q, OErr ValueError)).
Proof. exact UidQueue.reach_discard. Qed.
Print Assumptions C19_discard_exact.

(** C19: as many asks as there are individuals return each of them once. *)
Theorem C19_asks_cycle : forall q tr, uq_reach q tr ->
  asks (length (uq_contents q)) q = map OUid (uq_contents q).
Proof. exact UidQueue.reach_cycle. Qed.
Print Assumptions C19_asks_cycle.

(** Three individuals told, two asked, one of them told again. *)
Example C19_reachable : exists q,
  uq_reach q [EvTell 1; EvAsk 2; EvAsk 1; EvTell 3; EvTell 2; EvTell 1] /\
  uq_contents q = [3; 1; 2].
Proof.
  assert (P : forall tr o,
    match o with QTell u => match status tr u with Waiting _ => false | _ => true end | _ => true end = true
    -> tell_protocol tr o).
  { intros tr o H u -> t Ht. now rewrite Ht in H. }
  pose proof uq_reach_init as H.
  Ltac next H P o :=
    let H' := fresh in
    match type of H with
    | uq_reach ?q ?tr =>
        pose proof (uq_reach_step q tr o _ _ H (P tr o eq_refl) eq_refl) as H';
        cbn in H'; clear H; rename H' into H
    end.
  next H P (QTell 1). next H P (QTell 2). next H P (QTell 3).
  next H P QAsk. next H P QAsk. next H P (QTell 1).
  eexists. split; [exact H|reflexivity].
Qed.

(** Finding: without the protocol (an individual asked twice, then told twice)
    the same uid is queued twice. *)
Theorem C19_double_tell_duplicates_refuted :
  exists ops, ~ NoDup (uq_contents (fst (run uq_step uq_empty ops))).
Proof.
  exists [QTell 1; QAsk; QAsk; QTell 1; QTell 1]. cbn.
  intros H. inversion H as [|? ? Hni _]; subst. apply Hni. now left.
Qed.
Print Assumptions C19_double_tell_duplicates_refuted.

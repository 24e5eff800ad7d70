(** Reading the log of a call to minimize. *)
From Coq Require Import List Arith ZArith Bool Permutation.
From Verif.Model Require Import Prelude Minimize.
Import ListNotations.

Section Log.
  Context {W L : Type}.
  Notation event := (mevent L).

  (** the (candidate, job) pairs submitted, resp. told, in order *)
  Definition submitted (log : list event) : list item :=
    flat_map (fun e => match e with EvSubmit x => [x] | _ => [] end) log.
  Definition told (log : list event) : list item :=
    flat_map (fun e => match e with EvTell x _ => [x] | _ => [] end) log.
  (** the candidates asked, in order *)
  Definition asked (log : list event) : list nat :=
    flat_map (fun e => match e with EvAsk c => [c] | _ => [] end) log.

  (** number of jobs pending (not told), [n] being pending at the beginning *)
  Definition pending (n : nat) (log : list event) : Z :=
    (Z.of_nat n + Z.of_nat (length (submitted log)) - Z.of_nat (length (told log)))%Z.

  (** a property of all the moments of the call *)
  Definition always (P : list event -> Prop) (log : list event) : Prop :=
    forall p q, log = p ++ q -> P p.

  (** every tell passes the result just obtained from the job *)
  Definition own_results (log : list event) : Prop :=
    forall p x l q, log = p ++ EvTell x l :: q -> exists p', p = p' ++ [EvResult (snd x) l].

  (** every job is for the candidate just asked *)
  Definition own_candidates (log : list event) : Prop :=
    forall p x q, log = p ++ EvSubmit x :: q -> exists p', p = p' ++ [EvAsk (fst x)].

  (** jobs are only submitted when nothing is pending, or directly after another
      job of the same batch *)
  Definition by_batches (n : nat) (log : list event) : Prop :=
    forall p x q, log = p ++ EvSubmit x :: q ->
      pending n p = 0%Z \/ exists p' y c, p = p' ++ [EvSubmit y; EvAsk c].

  (** nothing is asked or submitted after an early stopping *)
  Definition stop_is_final (log : list event) : Prop :=
    forall p q, log = p ++ EvStop :: q -> asked q = [] /\ submitted q = [].

  (** every job, initial or submitted, is either told or in one of the lists, once *)
  Definition accounted (init : list item) (log : list event) (running finished : list item) : Prop :=
    Permutation (init ++ submitted log) (told log ++ finished ++ running).

  Variable E : wenv W L.

  (** there are no interruptions between two statements *)
  Definition no_tick : Prop := forall w, snd (w_tick _ _ E w) = Ok tt.

  (** polling these jobs again and again (with the pauses made by minimize in
      between) ends up finding one done, or raises *)
  Inductive eventually_done : W -> list item -> Prop :=
  | ev_raise w jobs w' e : split_jobs _ _ E w jobs = (w', Err e) -> eventually_done w jobs
  | ev_now w jobs w' run x fin :
      split_jobs _ _ E w jobs = (w', Ok (run, x :: fin)) -> eventually_done w jobs
  | ev_later w jobs w' run :
      split_jobs _ _ E w jobs = (w', Ok (run, [])) ->
      eventually_done (fst (w_sleep _ _ E (fst (w_timeout _ _ E w')))) jobs -> eventually_done w jobs.

  Definition fair_executor : Prop := forall w jobs, jobs <> [] -> eventually_done w jobs.
End Log.

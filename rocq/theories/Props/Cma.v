(** C77: the exchanges of CMA with its evolution strategy *)
From Coq Require Import List Arith Lia QArith Lqa Bool Permutation.
From Verif.Model Require Import Prelude MultiValue Nsga2 Cma.
From Verif.Spec Require Import Cma.
From Verif.Proofs Require Import MultiValue Cma.
Import ListNotations.
Open Scope nat_scope.

(** A strategy which always gives points, and whose [tell] raises nothing but RuntimeError and AssertionError *)
Definition usual {E X} (es_ask : E -> list X * E) (es_tell : E -> list X -> list Q -> E * option exn) : Prop :=
  (forall e, fst (es_ask e) <> []) /\
  forall e xs ys, snd (es_tell e xs ys) = None \/ snd (es_tell e xs ys) = Some RuntimeError \/ snd (es_tell e xs ys) = Some AssertionError.
Definition is_ask {X} (ev : cma_event X) : bool := match ev with CAsk _ => true | _ => false end.

Lemma init_parents E X : c_parents (cma_init E X) <> []. Proof. discriminate. Qed.

(** Whatever the order of asks and tells, nothing is raised; the points of the strategies are returned one by one, in
    order, each of them once; and a strategy is asked for more only when all the points have been returned. *)
Theorem C77_given : forall E X popsize es_ask es_tell stop fresh fcmaes pop evs effs s exs, usual es_ask es_tell -> 2 <= pop ->
  cma_run E X popsize es_ask es_tell stop fresh fcmaes pop evs (cma_init E X) = (effs, s, exs) ->
  Forall (fun ex => ex = None) exs /\ length (gave effs) = length (filter is_ask evs) /\
  drawn effs = gave effs ++ c_queue s /\
  forall before xs after, effs = before ++ Drawn xs :: after -> gave before = drawn before.
Proof.
  intros E X popsize es_ask es_tell stop fresh fcmaes pop evs effs s exs (H1 & H3) H2 R.
  split; [eapply run_noexn; eauto; apply init_parents|].
  destruct (run_given E X popsize es_ask es_tell stop fresh fcmaes pop H1 H2 H3 evs _ _ _ _ (init_parents E X) R) as (A & B & C).
  split; [exact C|]. split; [exact A|]. intros l1 xs l2 H. symmetry. exact (B l1 xs l2 H).
Qed.
Print Assumptions C77_given.

(** All the candidates which are told, asked or not, reach a strategy in the order of the tells, each of them once; those
    of the end wait for a full batch.  Each one comes with its loss, if no candidate is told twice. *)
Theorem C77_learnt : forall E X popsize es_ask es_tell stop fresh fcmaes pop evs effs s exs, usual es_ask es_tell -> 2 <= pop ->
  cma_run E X popsize es_ask es_tell stop fresh fcmaes pop evs (cma_init E X) = (effs, s, exs) ->
  map fst (learnt effs) ++ c_told s = map fst (told evs) /\
  (NoDup (told_uids evs) -> exists wait, learnt effs ++ wait = told evs /\ map fst wait = c_told s).
Proof.
  intros E X popsize es_ask es_tell stop fresh fcmaes pop evs effs s exs (H1 & H3) H2 R. split.
  - exact (run_points E X popsize es_ask es_tell stop fresh fcmaes pop H1 H2 H3 evs _ _ _ _ (init_parents E X) R).
  - intros D. exists (waiting E X s). split.
    + exact (run_learnt E X popsize es_ask es_tell stop fresh fcmaes pop H1 H2 H3 evs _ _ _ _ (init_parents E X) R D).
    + unfold waiting. rewrite map_map. cbn [fst]. apply map_id.
Qed.
Print Assumptions C77_learnt.

(** When all the strategies have the same population size, the batches have exactly this size. *)
Theorem C77_batches : forall E X popsize es_ask es_tell stop fresh fcmaes pop evs effs s exs p, usual es_ask es_tell -> 2 <= pop ->
  cma_run E X popsize es_ask es_tell stop fresh fcmaes pop evs (cma_init E X) = (effs, s, exs) ->
  (forall e, popsize e = p) -> 1 <= p ->
  length (c_told s) < p /\ forall us xs ys ok, In (Batch us xs ys ok) effs -> length us = p /\ length xs = p /\ length ys = p.
Proof.
  intros E X popsize es_ask es_tell stop fresh fcmaes pop evs effs s exs p (H1 & H3) H2 R Hp P1.
  exact (run_sizes E X popsize es_ask es_tell stop fresh fcmaes pop H1 H2 H3 p evs Hp P1 _ _ _ _ (init_parents E X) R P1).
Qed.
Print Assumptions C77_batches.

(** New candidates descend from the parametrization until a batch is accepted, then from the best half of the last one. *)
Theorem C77_parents : forall E X popsize es_ask es_tell stop fresh fcmaes pop evs effs s exs, usual es_ask es_tell -> 2 <= pop ->
  cma_run E X popsize es_ask es_tell stop fresh fcmaes pop evs (cma_init E X) = (effs, s, exs) ->
  (c_parents s = [None] /\ forall us xs ys, ~ In (Batch us xs ys true) effs) \/
  exists before us xs ys after best loss, effs = before ++ Batch us xs ys true :: after /\
    (forall us' xs' ys', ~ In (Batch us' xs' ys' true) after) /\
    c_parents s = map Some best /\ ys = map loss us /\ k_best (pop / 2) loss us best.
Proof.
  intros E X popsize es_ask es_tell stop fresh fcmaes pop evs effs s exs (H1 & H3) H2 R.
  assert (NA : forall l : list (effect X), Forall (fun e => ~ accepted X e) l -> forall us xs ys, ~ In (Batch us xs ys true) l).
  { intros l F us xs ys Hin. rewrite Forall_forall in F. apply (F _ Hin). reflexivity. }
  destruct (run_parents E X popsize es_ask es_tell stop fresh fcmaes pop H1 H2 H3 evs _ _ _ _ (init_parents E X) R)
    as [(P & F)|(l1 & us & xs & ys & l2 & best & loss & Ef & F & P & Y & K)].
  - left. auto.
  - right. exists l1, us, xs, ys, l2, best, loss. auto 6.
Qed.
Print Assumptions C77_parents.

(** A strategy for the examples: its state is a counter; it refuses batches which contain a loss of 99 *)
Definition toy_ask (e : nat) : list nat * nat := ([10 * e; 10 * e + 1; 10 * e + 2; 10 * e + 3], S e).
Definition toy_tell (e : nat) (xs : list nat) (ys : list Q) : nat * option exn :=
  if existsb (fun y => Qeq_bool y 99) ys then (e, Some RuntimeError) else (e, None).
Definition toy_run (evs : list (cma_event nat)) :=
  cma_run nat nat (fun _ => 4) toy_ask toy_tell (fun _ => false) (fun _ => 1) false 4 evs (cma_init nat nat).
Lemma toy_usual : usual toy_ask toy_tell.
Proof. split; [discriminate|]. intros e xs ys. unfold toy_tell. destruct (existsb _ ys); cbn; auto. Qed.

Example C77_nontrivial :
  let '(effs, s, exs) := toy_run [CAsk 0; CAsk 1; CTell 7 50 3 3; CAsk 2; CTell 1 11 5 5; CTell 0 10 1 1; CAsk 3; CTell 2 12 4 4; CAsk 4; CTell 3 13 0 0] in
  effs = [Drawn [10; 11; 12; 13]; Gave 10 None; Gave 11 None; Gave 12 None; Gave 13 None; Batch [7; 1; 0; 2] [50; 11; 10; 12] [3; 5; 1; 4]%Q true;
          Drawn [20; 21; 22; 23]; Gave 20 (Some 0)] /\
  c_parents s = [Some 0; Some 7] /\ c_queue s = [21; 22; 23] /\ c_told s = [(3, 13)].
Proof. vm_compute. auto. Qed.
(** A batch which the strategy refuses is lost *)
Example C77_refused :
  let '(effs, s, exs) := toy_run [CTell 0 10 1 1; CTell 1 11 2 2; CTell 2 12 99 99; CTell 3 13 0 0; CAsk 0] in
  effs = [Batch [0; 1; 2; 3] [10; 11; 12; 13] [1; 2; 99; 0]%Q false; Drawn [10; 11; 12; 13]; Gave 10 None] /\ c_told s = [].
Proof. vm_compute. auto. Qed.

(** The strategy does not see the penalties: what it is told are the losses before penalties. *)
Theorem C77_penalties_refuted :
  ~ (forall evs effs s exs, toy_run evs = (effs, s, exs) -> NoDup (told_uids evs) ->
      forall us xs ys ok, In (Batch us xs ys ok) effs -> forall u x l pen y, In (CTell u x l pen) evs -> In (u, y) (combine us ys) -> y = pen).
Proof.
  intros H.
  assert (R : exists s exs, toy_run [CTell 0 10 1 101; CTell 1 11 2 2; CTell 2 12 3 3; CTell 3 13 4 4] =
    ([Batch [0; 1; 2; 3] [10; 11; 12; 13] [1; 2; 3; 4]%Q true], s, exs)) by (eexists _, _; vm_compute; reflexivity).
  destruct R as (s & exs & R). specialize (H _ _ _ _ R).
  assert (D : NoDup (told_uids [CTell 0 10 1 101; CTell 1 11 2 2; CTell 2 12 3 3; CTell 3 13 4 4])) by (repeat constructor; cbn; lia).
  specialize (H D _ _ _ _ (or_introl eq_refl) 0 10 1%Q 101%Q 1%Q (or_introl eq_refl) (or_introl eq_refl)). discriminate H.
Qed.
Print Assumptions C77_penalties_refuted.
(** A candidate told twice before the batch is full appears twice with its last loss. *)
Theorem C77_told_twice_refuted :
  ~ (forall evs effs s exs, toy_run evs = (effs, s, exs) -> exists wait, learnt effs ++ wait = told evs).
Proof.
  intros H.
  assert (R : exists s exs, toy_run [CTell 0 10 1 1; CTell 0 10 2 2; CTell 2 12 3 3; CTell 3 13 4 4] =
    ([Batch [0; 0; 2; 3] [10; 10; 12; 13] [2; 2; 3; 4]%Q true], s, exs)) by (eexists _, _; vm_compute; reflexivity).
  destruct R as (s & exs & R). destruct (H _ _ _ _ R) as (wait & E). discriminate E.
Qed.
Print Assumptions C77_told_twice_refuted.

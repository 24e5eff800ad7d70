(** C14-C18: [Optimizer.minimize]. *)
From Coq Require Import List Arith ZArith Bool Permutation Lia.
From Verif.Model Require Import Prelude Minimize.
From Verif.Spec Require Import Minimize.
From Verif.Proofs Require Minimize.
Import ListNotations.

(** * C14: a call that returns normally has told every job exactly once, with its
    own result, every job being for the candidate just asked; without early stopping
    it asks (and evaluates) exactly [budget - num_ask] candidates. *)
Theorem C14_evaluations : forall W L (E : wenv W L) budget num_workers batch fuel w num_ask running finished s,
  minimize W L E budget num_workers batch fuel w num_ask running finished = (s, MDone) ->
  Permutation ((running ++ finished) ++ submitted (m_log _ _ s)) (told (m_log _ _ s)) /\
  m_running _ _ s = [] /\ m_finished _ _ s = [] /\
  asked (m_log _ _ s) = map fst (submitted (m_log _ _ s)) /\
  own_results (m_log _ _ s) /\ own_candidates (m_log _ _ s) /\
  (~ In EvStop (m_log _ _ s) ->
     (num_ask + length (submitted (m_log _ _ s)) = budget)%nat /\ m_num_ask _ _ s = budget).
Proof. exact @Minimize.minimize_done. Qed.
Print Assumptions C14_evaluations.

(** * C15: at every moment of a call (whatever the way it ends), the number of
    pending jobs is at most [num_workers] (or what was pending at the beginning);
    in batch mode a batch only starts when nothing is pending. *)
Theorem C15_parallelism : forall W L (E : wenv W L) budget num_workers batch fuel w num_ask running finished s res,
  minimize W L E budget num_workers batch fuel w num_ask running finished = (s, res) ->
  let n0 := length (running ++ finished) in
  always (fun past => pending n0 past <= Z.max num_workers (Z.of_nat n0))%Z (m_log _ _ s) /\
  (batch = true -> by_batches n0 (m_log _ _ s)).
Proof.
  intros * H. apply Minimize.minimize_any in H. split; apply H.
Qed.
Print Assumptions C15_parallelism.

(** the tell of a result and the submission of a candidate keep their pairing in
    every case *)
Theorem C15_pairing : forall W L (E : wenv W L) budget num_workers batch fuel w num_ask running finished s res,
  minimize W L E budget num_workers batch fuel w num_ask running finished = (s, res) ->
  own_results (m_log _ _ s) /\ own_candidates (m_log _ _ s).
Proof.
  intros * H. apply Minimize.minimize_any in H. split; apply H.
Qed.
Print Assumptions C15_pairing.

(** * C16: whatever ends the call (timeout, an exception of ask, of the executor, of
    a job, of tell, of sleep), each job is told or still in one of the two lists,
    exactly once. *)
Theorem C16_no_job_lost : forall W L (E : wenv W L) budget num_workers batch fuel w num_ask running finished s res,
  no_tick E ->
  minimize W L E budget num_workers batch fuel w num_ask running finished = (s, res) ->
  accounted (running ++ finished) (m_log _ _ s) (m_running _ _ s) (m_finished _ _ s).
Proof. exact @Minimize.minimize_accounted. Qed.
Print Assumptions C16_no_job_lost.

(** a second call that returns normally tells all the jobs of both calls once *)
Theorem C16_resume : forall W L (E1 E2 : wenv W L) budget nw nw2 batch batch2 fuel1 fuel2 w na running finished s1 res1 w2 s2,
  no_tick E1 ->
  minimize W L E1 budget nw batch fuel1 w na running finished = (s1, res1) ->
  minimize W L E2 budget nw2 batch2 fuel2 w2 (m_num_ask _ _ s1) (m_running _ _ s1) (m_finished _ _ s1) = (s2, MDone) ->
  Permutation ((running ++ finished) ++ submitted (m_log _ _ s1) ++ submitted (m_log _ _ s2))
              (told (m_log _ _ s1) ++ told (m_log _ _ s2)).
Proof. exact @Minimize.resume. Qed.
Print Assumptions C16_resume.

(** after a timeout the budget is completed exactly, even with interruptions possible *)
Theorem C16_resume_timeout : forall W L (E1 E2 : wenv W L) budget nw nw2 batch batch2 fuel1 fuel2 w na running finished s1 w2 s2,
  minimize W L E1 budget nw batch fuel1 w na running finished = (s1, MTimeout) ->
  minimize W L E2 budget nw2 batch2 fuel2 w2 (m_num_ask _ _ s1) (m_running _ _ s1) (m_finished _ _ s1) = (s2, MDone) ->
  ~ In EvStop (m_log _ _ s1) -> ~ In EvStop (m_log _ _ s2) ->
  (na + length (submitted (m_log _ _ s1)) + length (submitted (m_log _ _ s2)) = budget)%nat /\
  Permutation ((running ++ finished) ++ submitted (m_log _ _ s1) ++ submitted (m_log _ _ s2))
              (told (m_log _ _ s1) ++ told (m_log _ _ s2)).
Proof. exact @Minimize.resume_timeout. Qed.
Print Assumptions C16_resume_timeout.

(** an interruption between two statements can leave the last told job in the
    finished list, or the last submitted job in no list, and nothing worse *)
Theorem C16_interrupted : forall W L (E : wenv W L) budget num_workers batch fuel w num_ask running finished s res,
  minimize W L E budget num_workers batch fuel w num_ask running finished = (s, res) ->
  let init := running ++ finished in
  accounted init (m_log _ _ s) (m_running _ _ s) (m_finished _ _ s) \/
  (exists past x l fin, m_log _ _ s = past ++ [EvTell x l] /\ m_finished _ _ s = x :: fin /\
     accounted init (m_log _ _ s) (m_running _ _ s) fin) \/
  (exists past x, m_log _ _ s = past ++ [EvSubmit x] /\
     accounted init (m_log _ _ s) (m_running _ _ s ++ [x]) (m_finished _ _ s)).
Proof. exact @Minimize.minimize_interrupted. Qed.
Print Assumptions C16_interrupted.

(** * C17: with an executor whose jobs end, at least one worker, and no more asks
    than the budget, the call ends; adding fuel does not change the outcome. *)
Theorem C17_terminates : forall W L (E : wenv W L) budget num_workers batch w num_ask running finished,
  fair_executor E -> (1 <= num_workers)%Z -> (num_ask <= budget)%nat ->
  exists fuel, snd (minimize W L E budget num_workers batch fuel w num_ask running finished) <> MFuel.
Proof. exact @Minimize.minimize_terminates. Qed.
Print Assumptions C17_terminates.

Theorem C17_fuel_irrelevant : forall W L (E : wenv W L) budget num_workers batch w num_ask running finished a b,
  snd (minimize W L E budget num_workers batch a w num_ask running finished) <> MFuel -> (a <= b)%nat ->
  minimize W L E budget num_workers batch b w num_ask running finished =
  minimize W L E budget num_workers batch a w num_ask running finished.
Proof. exact @Minimize.minimize_fuel. Qed.
Print Assumptions C17_fuel_irrelevant.

(** both conditions are needed: with more asks than the budget, or with no worker
    and some budget left, the call never returns and evaluates nothing *)
Theorem C17_never_returns : forall W L (E : wenv W L) budget num_workers batch fuel w num_ask running finished s res,
  (num_ask > budget)%nat \/ ((num_ask < budget)%nat /\ (num_workers <= 0)%Z) ->
  minimize W L E budget num_workers batch fuel w num_ask running finished = (s, res) ->
  res <> MDone /\ submitted (m_log _ _ s) = [].
Proof. exact @Minimize.minimize_diverges. Qed.
Print Assumptions C17_never_returns.

(** * C18: after an early stopping nothing more is asked or submitted, and a call
    which returns has told all the jobs. *)
Theorem C18_early_stopping : forall W L (E : wenv W L) budget num_workers batch fuel w num_ask running finished s res,
  minimize W L E budget num_workers batch fuel w num_ask running finished = (s, res) ->
  stop_is_final (m_log _ _ s) /\
  (res = MDone -> Permutation ((running ++ finished) ++ submitted (m_log _ _ s)) (told (m_log _ _ s))).
Proof.
  intros * H. split.
  - apply Minimize.minimize_any in H. apply H.
  - intros ->. apply Minimize.minimize_done in H. apply H.
Qed.
Print Assumptions C18_early_stopping.

(** * Examples: the world is (clock, number of asks, next job); job [j] ends at time
    [j]; candidate [stop] raises an early stopping; [late] is the time limit;
    [tick] is the clock at which an interruption happens. *)
Definition ex_world : Type := (nat * nat * nat)%type.
Definition ex_w (stop late tick : nat) : wenv ex_world nat := {|
  w_timeout := fun '(t, a, j) => ((t, a, j), late <? t);
  w_sleep := fun '(t, a, j) => ((S t, a, j), Ok tt);
  w_result := fun w j => (w, Ok (10 * j));
  w_tell := fun w _ _ => (w, Ok tt);
  w_tick := fun '(t, a, j) => ((t, a, j), if t =? tick then Err RuntimeError else Ok tt);
  w_ask := fun '(t, a, j) => if a =? stop then ((t, a, j), AskStop 0) else ((t, S a, j), AskOk a);
  w_submit := fun '(t, a, j) c => ((t, a, S j), Ok (S j));
  w_done := fun '(t, a, j) n => ((S t, a, j), Ok (n <=? t)) |}.

Example ex_fair : forall stop late tick, fair_executor (ex_w stop late tick).
Proof.
  intros stop late tick.
  assert (H : forall n t a j c k jobs, k - t <= n -> eventually_done (ex_w stop late tick) (t, a, j) ((c, k) :: jobs)).
  { assert (Hs : forall jobs t a j, exists t' r f, t <= t' /\ split_jobs _ _ (ex_w stop late tick) (t, a, j) jobs = ((t', a, j), Ok (r, f))).
    { induction jobs as [|[c k] jobs IH]; intros t a j; [exists t, [], []; auto|]. cbn.
      destruct (IH (S t) a j) as (t' & r & f & Ht & ->). destruct (k <=? t); eexists _, _, _; (split; [|reflexivity]); lia. }
    induction n as [|n IH]; intros t a j c k jobs Hn; destruct (Hs jobs (S t) a j) as (t' & r & f & Ht & Hj).
    - eapply ev_now. cbn. rewrite Hj. replace (k <=? t) with true; [reflexivity|]. symmetry. apply Nat.leb_le. lia.
    - destruct (k <=? t) eqn:Ek.
      + eapply ev_now. cbn. rewrite Hj, Ek. reflexivity.
      + destruct f as [|x f].
        * eapply ev_later. { cbn. rewrite Hj, Ek. reflexivity. }
          cbn. apply IH. apply Nat.leb_gt in Ek. lia.
        * eapply ev_now. cbn. rewrite Hj, Ek. reflexivity. }
  intros [[t a] j] [|[c k] jobs] Hj; [easy|]. now apply (H (k - t)).
Qed.

(** 5 evaluations with 2 workers *)
Example ex_run :
  let '(s, r) := minimize _ _ (ex_w 100 100 100) 5 2 false 50 (0, 0, 0) 0 [] [] in
  r = MDone /\ ~ In EvStop (m_log _ _ s) /\ length (submitted (m_log _ _ s)) = 5 /\
  told (m_log _ _ s) = [(0, 1); (1, 2); (2, 3); (3, 4); (4, 5)].
Proof. vm_compute. repeat split; auto. intuition discriminate. Qed.

(** the limit on parallelism is reached, and a batch is made of several jobs *)
Example ex_batch :
  let '(s, r) := minimize _ _ (ex_w 100 100 100) 5 3 true 50 (0, 0, 0) 0 [] [] in
  r = MDone /\ exists p q, m_log _ _ s = p ++ q /\ pending 0 p = 3%Z.
Proof.
  vm_compute. split; [reflexivity|].
  exists [EvAsk 0; EvSubmit (0, 1); EvAsk 1; EvSubmit (1, 2); EvAsk 2; EvSubmit (2, 3)]. eexists. split; reflexivity.
Qed.

(** a timeout with jobs running, then a second call *)
Example ex_timeout :
  let '(s, r) := minimize _ _ (ex_w 100 2 100) 5 2 false 50 (0, 0, 0) 0 [] [] in
  r = MTimeout /\ (m_running _ _ s ++ m_finished _ _ s) <> [] /\
  snd (minimize _ _ (ex_w 100 100 100) 5 2 false 50 (m_world _ _ s) (m_num_ask _ _ s) (m_running _ _ s) (m_finished _ _ s)) = MDone.
Proof. vm_compute. repeat split; auto. discriminate. Qed.

(** an interruption between the submission and the registration loses the job *)
Theorem C16_interruption_loses_job_refuted :
  exists (E : wenv ex_world nat) s e,
    minimize _ _ E 5 2 false 50 (0, 0, 0) 0 [] [] = (s, MRaised e) /\
    submitted (m_log _ _ s) = [(0, 1)] /\ told (m_log _ _ s) = [] /\
    m_running _ _ s = [] /\ m_finished _ _ s = [].
Proof. exists (ex_w 100 100 0). eexists _, _. split; [vm_compute; reflexivity|]. vm_compute. auto. Qed.
Print Assumptions C16_interruption_loses_job_refuted.

(** an executor refusing a job loses the candidate asked for it: it is counted in
    [num_ask], and neither evaluated nor told by the next call *)
Definition refusing : wenv ex_world nat := {|
  w_timeout := w_timeout _ _ (ex_w 100 100 100); w_sleep := w_sleep _ _ (ex_w 100 100 100);
  w_result := w_result _ _ (ex_w 100 100 100); w_tell := w_tell _ _ (ex_w 100 100 100);
  w_tick := w_tick _ _ (ex_w 100 100 100); w_ask := w_ask _ _ (ex_w 100 100 100);
  w_submit := fun w c => (w, Err RuntimeError); w_done := w_done _ _ (ex_w 100 100 100) |}.
Theorem C16_refused_candidate_lost_refuted :
  exists s1 s2 : mst ex_world nat,
    minimize _ _ refusing 5 2 false 50 (0, 0, 0) 0 [] [] = (s1, MRaised RuntimeError) /\
    minimize _ _ (ex_w 100 100 100) 5 2 false 50 (m_world _ _ s1) (m_num_ask _ _ s1) (m_running _ _ s1) (m_finished _ _ s1) = (s2, MDone) /\
    asked (m_log _ _ s1) = [0] /\ ~ In 0 (map fst (told (m_log _ _ s2))) /\
    length (told (m_log _ _ s1) ++ told (m_log _ _ s2)) = 4.
Proof.
  eexists _, _. split; [vm_compute; reflexivity|]. split; [vm_compute; reflexivity|]. vm_compute.
  intuition discriminate.
Qed.
Print Assumptions C16_refused_candidate_lost_refuted.

(** an early stopping: the two jobs already submitted are told *)
Example ex_stop :
  let '(s, r) := minimize _ _ (ex_w 2 100 100) 5 3 false 50 (0, 0, 0) 0 [] [] in
  r = MDone /\ In EvStop (m_log _ _ s) /\ told (m_log _ _ s) = [(0, 1); (1, 2)].
Proof. vm_compute. intuition. Qed.

(** the two non-terminating cases *)
Example ex_diverges_1 : forall fuel, exists s res,
  minimize _ _ (ex_w 100 100 100) 5 2 false fuel (0, 0, 0) 6 [] [] = (s, res) /\ res <> MDone.
Proof.
  intros fuel. destruct (minimize _ _ (ex_w 100 100 100) 5 2 false fuel (0, 0, 0) 6 [] []) as [s res] eqn:E.
  exists s, res. split; [easy|]. apply C17_never_returns in E; [apply E|]. left. lia.
Qed.

(** C47: the executor with simulated time. *)
From Coq Require Import Arith QArith Bool Lia Lqa Permutation Sorted List.
From Verif.Model Require Import Prelude MultiValue Execution.
From Verif.Proofs Require Import MultiValue Execution.
Import ListNotations.
Open Scope Q_scope.

(** The jobs whose result was returned, in order. *)
Fixpoint delivered {V} (outs : list (out (V := V))) : list nat :=
  match outs with [] => [] | Read j (Ok _) :: outs' => j :: delivered outs' | _ :: outs' => delivered outs' end.
(** The release time of an evaluated job is its submission time plus its delay. *)
Definition released {V} (st : exec (V := V)) (j : nat) (r : Q) : Prop :=
  exists x v d, nth_error (jobs st) j = Some x /\ j_value x = Some (v, d) /\ r = d + j_time x.
Definition before {V} (st : exec (V := V)) (i j : nat) : Prop :=
  exists r r', released st i r /\ released st j r' /\ (r < r' \/ (r == r' /\ (i < j)%nat)).

Section C47.
Context {V : Type}.
Variable eval : nat -> result (V * option Q).
Local Notation exec := (exec (V := V)).
Lemma released_rel (st : exec) reads j : Inv eval st reads -> (j < order st)%nat -> released st j (rel eval st j).
Proof.
  intros HI Hj. destruct (i_processed _ _ _ HI j Hj) as (x & [v d] & Hx & Hv). pose proof (i_settled _ _ _ HI j x Hx) as Hs. rewrite Hv in Hs. destruct Hs as (pt & _ & ->). exists x, v, (delay eval j). split; [exact Hx|]. split; [exact Hv|]. unfold rel, tm. now rewrite Hx.
Qed.
Lemma before_lex (st : exec) reads i j : Inv eval st reads -> (i < order st)%nat -> (j < order st)%nat -> lexrel eval st i j -> before st i j.
Proof. intros HI Hi Hj H. exists (rel eval st i), (rel eval st j). split; [eapply released_rel; eauto|]. split; [eapply released_rel; eauto|exact H]. Qed.
Lemma delivered_app (a b : list (out (V := V))) : delivered (a ++ b) = delivered a ++ delivered b.
Proof. induction a as [|[j|j r|j [v|e]] a IH]; cbn; congruence. Qed.
Lemma step_inv st o st' x reads : step eval st o = (st', x) -> Inv eval st reads -> Inv eval st' (reads ++ delivered [x]) /\ time st <= time st' /\
  (forall j v, x = Read j (Ok v) -> exists pt, eval j = Ok (v, pt)).
Proof.
  intros E HI. destruct o; cbn [step] in E.
  - destruct (submit st) as [st1 j] eqn:Es. injection E as <- <-. destruct (submit_inv _ _ _ _ _ Es HI) as (HI' & _ & _ & Ht & _). cbn. rewrite app_nil_r. split; [exact HI'|]. split; [rewrite Ht; lra|discriminate].
  - destruct (done eval st j) as [st1 r] eqn:Es. injection E as <- <-. destruct (done_inv _ _ _ _ _ _ Es HI) as (HI' & _ & Ht & _). cbn. rewrite app_nil_r. split; [exact HI'|]. split; [rewrite Ht; lra|discriminate].
  - destruct (read eval st j) as [st1 r] eqn:Es. injection E as <- <-. destruct (read_inv _ _ _ _ _ _ Es HI) as (_ & _ & Hr & _). destruct r as [v|e]; cbn [delivered].
    + destruct Hr as (HI' & _ & Hpt & Ht). split; [exact HI'|]. split; [rewrite Ht; apply qmax_ub|]. intros j' v' Hv. injection Hv as <- <-. exact Hpt.
    + destruct Hr as (HI' & Ht). rewrite app_nil_r. split; [exact HI'|]. split; [rewrite Ht; lra|discriminate].
Qed.
Lemma history_inv l : forall st st' outs reads, history eval st l = (st', outs) -> Inv eval st reads -> Inv eval st' (reads ++ delivered outs) /\ time st <= time st' /\
  (forall j v, In (Read j (Ok v)) outs -> exists pt, eval j = Ok (v, pt)).
Proof.
  induction l as [|o l IH]; intros st st' outs reads E HI; cbn [history] in E.
  - injection E as <- <-. cbn. rewrite app_nil_r. split; [exact HI|]. split; [lra|intros j v []].
  - destruct (step eval st o) as [st1 x] eqn:Es. destruct (history eval st1 l) as [st2 xs] eqn:Eh. injection E as <- <-. destruct (step_inv _ _ _ _ _ Es HI) as (HI1 & Ht1 & Hv1). destruct (IH _ _ _ _ Eh HI1) as (HI2 & Ht2 & Hv2).
    change (x :: xs) with ([x] ++ xs). rewrite delivered_app, app_assoc. split; [exact HI2|]. split; [lra|]. intros j v [H|H]; [now apply Hv1|now apply Hv2].
Qed.
Lemma reach_inv l st outs : history eval (new_exec false) l = (st, outs) -> Inv eval st (delivered outs).
Proof. intros E. exact (proj1 (history_inv l _ _ _ [] E (inv_new eval))). Qed.
(** Steady mode, any history of calls. Results are delivered by increasing release time, by order of submission in case
    of ties (hence each at most once), and are those of the functions. *)
Theorem C47_order (l : list op) (st : exec) (outs : list out) : history eval (new_exec false) l = (st, outs) ->
  StronglySorted (before st) (delivered outs) /\ NoDup (delivered outs) /\ (forall j v, In (Read j (Ok v)) outs -> exists pt, eval j = Ok (v, pt)).
Proof.
  intros E. pose proof (reach_inv _ _ _ E) as HI. assert (Hlt : forall i, In i (delivered outs) -> (i < order st)%nat).
  { intros i Hi. assert (H : In i (seq 0 (order st))) by (rewrite <- (i_perm _ _ _ HI); apply in_or_app; now right). apply in_seq in H. lia. }
  split; [|split].
  - pose proof (i_reads _ _ _ HI) as Hs. revert Hs Hlt. generalize (delivered outs) as ds. induction 1 as [|a ds Hs IH Ha]; intros Hlt; constructor; [apply IH; intros i Hi; apply Hlt; now right|].
    apply Forall_forall. intros b Hb. rewrite Forall_forall in Ha. eapply before_lex; [exact HI|apply Hlt; now left|apply Hlt; now right|now apply Ha].
  - assert (Hnd : NoDup (map snd (heap st) ++ delivered outs)) by (rewrite (i_perm _ _ _ HI); apply seq_NoDup). clear - Hnd. induction (map snd (heap st)) as [|a m IH]; [exact Hnd|]. inversion Hnd; auto.
  - exact (proj2 (proj2 (history_inv l _ _ _ [] E (inv_new eval)))).
Qed.
(** A delivered job comes before all those still pending. *)
Theorem C47_earliest (l : list op) (st st' : exec) (outs : list out) (j i : nat) (v : V) : history eval (new_exec false) l = (st, outs) ->
  read eval st j = (st', Ok v) -> (i < length (jobs st))%nat -> i <> j -> ~ In i (delivered outs) -> before st' j i.
Proof.
  intros E Er Hi Hne Hni. pose proof (reach_inv _ _ _ E) as HI. destruct (read_inv _ _ _ _ _ _ Er HI) as (Hl & _ & (HI' & Hnj & _ & _) & _).
  assert (Hord : order st' = length (jobs st')).
  { unfold read in Er. destruct (process eval st j) as [s1 o] eqn:Ep. destruct o; [discriminate|]. destruct (done eval s1 j) as [s2 rd] eqn:Ed. destruct rd as [[|]|]; try discriminate. destruct (done_inv _ _ _ _ _ _ Ed (process_inv _ _ _ _ _ _ Ep HI)) as (HI2 & _ & _ & _ & _ & Hb). destruct (Hb true eq_refl) as (Hj & Ho & Hq & _).
    destruct (nth_error (jobs s2) j) as [x|] eqn:Ex; [|discriminate]. set (s3 := set_job s2 j (mkjob (j_time x) (j_value x) true)) in Er. assert (Hl3 : length (jobs s3) = length (jobs s2)) by (unfold s3, set_job; cbn [jobs]; now apply length_replace). unfold notify_read in Er.
    assert (Hp3 : process_submissions eval s3 = (s3, None)) by (unfold process_submissions; change (to_be_processed s3) with (to_be_processed s2); rewrite Hq; reflexivity). rewrite Hp3 in Er.
    change (batch_mode s3) with (batch_mode s2) in Er. rewrite (i_batch _ _ _ HI2) in Er. destruct (heap s3) as [|[[? ?] j0] h]; [discriminate|]. destruct (negb (Nat.eqb j j0)); [discriminate|]. destruct (release_time s3 j); [|discriminate].
    destruct (j_value x) as [[? ?]|]; [|discriminate]. injection Er as <- _. cbn [order jobs set_time]. change (order s3) with (order s2). congruence. }
  assert (Hin : In i (map snd (heap st'))). { assert (H : In i (map snd (heap st') ++ delivered outs ++ [j])) by (rewrite (i_perm _ _ _ HI'); apply in_seq; lia). apply in_app_or in H as [H|H]; [exact H|]. apply in_app_or in H as [H|[H|[]]]; [contradiction|congruence]. }
  assert (Hinj : In j (seq 0 (order st'))) by (rewrite <- (i_perm _ _ _ HI'); apply in_or_app; right; apply in_or_app; right; now left). apply in_seq in Hinj.
  eapply before_lex; [exact HI'|lia|lia|]. apply (i_cross _ _ _ HI'); [apply in_or_app; right; now left|exact Hin].
Qed.
(** The simulated time never decreases, and is the largest release time delivered. *)
Theorem C47_time (l l' : list op) (st st' : exec) (outs outs' : list out) : history eval (new_exec false) l = (st, outs) -> history eval st l' = (st', outs') ->
  time st <= time st' /\ 0 <= time st /\ (forall j, In j (delivered outs) -> exists r, released st j r /\ r <= time st) /\
  (time st == 0 \/ exists j r, In j (delivered outs) /\ released st j r /\ time st == r).
Proof.
  intros E E'. pose proof (reach_inv _ _ _ E) as HI. assert (Hlt : forall i, In i (delivered outs) -> (i < order st)%nat).
  { intros i Hi. assert (H : In i (seq 0 (order st))) by (rewrite <- (i_perm _ _ _ HI); apply in_or_app; now right). apply in_seq in H. lia. }
  split; [exact (proj1 (proj2 (history_inv l' _ _ _ _ E' HI)))|]. destruct (i_time _ _ _ HI) as (A & B & C). split; [exact A|]. split.
  - intros j Hj. exists (rel eval st j). split; [eapply released_rel; eauto|now apply B].
  - destruct C as [C|(r & C1 & C2)]; [now left|right]. exists r, (rel eval st r). split; [exact C1|]. split; [eapply released_rel; eauto|exact C2].
Qed.
(** At most one undelivered job is done. *)
Theorem C47_one_done (l : list op) (st st1 st2 : exec) (outs : list out) (i j : nat) : history eval (new_exec false) l = (st, outs) ->
  ~ In i (delivered outs) -> ~ In j (delivered outs) -> done eval st i = (st1, Ok true) -> done eval st1 j = (st2, Ok true) -> i = j.
Proof.
  intros E Hi Hj E1 E2. pose proof (reach_inv _ _ _ E) as HI. destruct (done_inv _ _ _ _ _ _ E1 HI) as (HI1 & _ & _ & _ & _ & Hb1). destruct (Hb1 true eq_refl) as (_ & _ & Hq & Hiff1). destruct (done_inv _ _ _ _ _ _ E2 HI1) as (HI2 & _ & _ & _ & _ & Hb2). destruct (Hb2 true eq_refl) as (_ & _ & _ & Hiff2).
  assert (Hsame : st2 = st1). { unfold done, process_submissions in E2. rewrite Hq in E2. cbn in E2. destruct (nth_error (jobs st1) j); [|discriminate]. destruct (batch_mode st1 || j_read j0); [congruence|]. destruct (heap st1) as [|[[? ?] ?] ?]; congruence. }
  subst st2. destruct (proj1 Hiff1 eq_refl) as [H|(e & h & He & <-)]; [contradiction|]. destruct (proj1 Hiff2 eq_refl) as [H|(e' & h' & He' & <-)]; [contradiction|]. congruence.
Qed.
(** When no evaluation raises: as long as a job is pending there is one that is done, whose result can be read; and each
    function is evaluated at most once. *)
Theorem C47_progress (l : list op) (st : exec) (outs : list out) (i : nat) : (forall j, exists v, eval j = Ok v) -> history eval (new_exec false) l = (st, outs) ->
  (i < length (jobs st))%nat -> ~ In i (delivered outs) ->
  exists j st1 st2 v, (j < length (jobs st))%nat /\ ~ In j (delivered outs) /\ done eval st j = (st1, Ok true) /\ read eval st j = (st2, Ok v).
Proof.
  intros Htot E Hi Hni. pose proof (reach_inv _ _ _ E) as HI. destruct (done eval st i) as [st1 r] eqn:E1. destruct (done_inv _ _ _ _ _ _ E1 HI) as (HI1 & Hl1 & _ & _ & Hok & Hb1). destruct (Hok Htot Hi) as (b & ->). destruct (Hb1 b eq_refl) as (Hi1 & Ho & Hq & _).
  assert (Hin : In i (map snd (heap st1))). { assert (H : In i (map snd (heap st1) ++ delivered outs)) by (rewrite (i_perm _ _ _ HI1); apply in_seq; lia). apply in_app_or in H. tauto. }
  destruct (heap st1) as [|e h] eqn:Eh; [destruct Hin|]. set (j := snd e).
  assert (Hj : (j < length (jobs st))%nat /\ ~ In j (delivered outs)).
  { assert (Hnd : NoDup (map snd (heap st1) ++ delivered outs)) by (rewrite (i_perm _ _ _ HI1); apply seq_NoDup). rewrite Eh in Hnd. cbn in Hnd. inversion Hnd as [|? ? Hn _]; subst. rewrite in_app_iff in Hn. split; [|tauto].
    assert (H : In j (seq 0 (order st1))) by (rewrite <- (i_perm _ _ _ HI1), Eh; now left). apply in_seq in H. lia. }
  destruct Hj as (Hj & Hnj). assert (Ed : done eval st j = (st1, Ok true)).
  { unfold done in E1 |- *. destruct (process_submissions eval st) as [s o] eqn:Ep. destruct o; [discriminate|]. destruct (process_submissions_inv _ _ _ _ _ Ep HI) as (HIs & Hls & _). assert (s = st1). { destruct (nth_error (jobs s) i); [|discriminate]. destruct (batch_mode s || j_read j0); [congruence|]. destruct (heap s) as [|[[? ?] ?] ?]; congruence. } subst s.
    destruct (nth_error (jobs st1) j) as [x|] eqn:Ex; [|apply nth_error_None in Ex; lia]. rewrite (i_batch _ _ _ HI1). cbn [orb]. destruct (j_read x) eqn:Erd; [exfalso; apply Hnj; now apply (i_read _ _ _ HI1 j x Ex)|]. rewrite Eh. destruct e as [[r0 o0] j0]. cbn in j. subst j. now rewrite Nat.eqb_refl. }
  destruct (read eval st j) as [st2 r] eqn:Er. destruct (read_inv _ _ _ _ _ _ Er HI) as (_ & _ & _ & Hp). destruct (Hp Htot _ Ed Hnj) as (v & ->). exists j, st1, st2, v. auto.
Qed.
Theorem C47_evaluated_once (b : bool) (l : list op) (st : exec) (outs : list out) : (forall j, exists v, eval j = Ok v) -> history eval (new_exec b) l = (st, outs) -> NoDup (evaluated st).
Proof.
  intros Htot E. apply (history_einv eval Htot) in E; [exact (proj1 E)|]. split; cbn; [constructor|]. intros j. split; [intros []|]. intros (x & v & Hx & _). destruct j; discriminate.
Qed.
(** Finding: the result of a job can be read only once in steady mode. *)
Theorem C47_read_twice_refuted (l : list op) (st st' : exec) (outs : list out) (j : nat) (r : result V) : history eval (new_exec false) l = (st, outs) ->
  In j (delivered outs) -> read eval st j = (st', r) -> exists e, r = Err e.
Proof.
  intros E Hin Er. pose proof (reach_inv _ _ _ E) as HI. destruct (read_inv _ _ _ _ _ _ Er HI) as (_ & _ & Hr & _). destruct r as [v|e]; [|eauto]. destruct Hr as (_ & Hn & _). contradiction.
Qed.
(** Batch mode, when no evaluation raises: all submitted jobs are done, and give their results in any order, any number of times. *)
Lemma batch_history (total : forall j, exists v, eval j = Ok v) l : forall st st' outs, Forall (fun o => match o with Submit => True | Done j | Result j => (j < length (jobs st))%nat end) l ->
  history eval st l = (st', outs) -> BInv eval st -> BInv eval st' /\ time st <= time st' /\
  Forall (fun x => match x with Submitted _ => True | IsDone _ r => r = Ok true | Read j r => exists v pt, r = Ok v /\ eval j = Ok (v, pt) end) outs.
Proof.
  induction l as [|o l IH]; intros st st' outs Hl E H; cbn [history] in E; [injection E as <- <-; split; [exact H|]; split; [lra|constructor]|].
  destruct (step eval st o) as [st1 x] eqn:Es. destruct (history eval st1 l) as [st2 xs] eqn:Eh. injection E as <- <-. inversion Hl as [|? ? Ho Hl']; subst.
  assert (Hs : BInv eval st1 /\ time st <= time st1 /\ (length (jobs st) <= length (jobs st1))%nat /\ match x with Submitted _ => True | IsDone _ r => r = Ok true | Read j r => exists v pt, r = Ok v /\ eval j = Ok (v, pt) end).
  { destruct o; cbn [step] in Es.
    - unfold submit in Es. injection Es as <- <-. cbn [jobs time]. rewrite app_length. cbn. split; [|repeat split; lra || lia]. destruct H as [P1 P2 P3]. split; cbn [batch_mode jobs to_be_processed]; [exact P1| |].
      + rewrite app_length. cbn. apply Forall_app. split; [eapply Forall_impl; [|exact P2]; intros; cbn in *; lia|]. constructor; [lia|constructor].
      + intros j y Hy. destruct (Nat.lt_ge_cases j (length (jobs st))) as [Hlt|Hge]; [rewrite nth_error_app1 in Hy by exact Hlt; eapply P3, Hy|]. rewrite nth_error_app2 in Hy by exact Hge. destruct (j - length (jobs st))%nat as [|[|k]]; cbn in Hy; try discriminate. injection Hy as <-. exact I.
    - destruct (done eval st j) as [st3 r] eqn:Ed. injection Es as <- <-. destruct (done_binv eval total _ _ _ _ Ed H Ho) as (A & B & _ & C & D & _). split; [exact B|]. split; [rewrite C; lra|]. split; [lia|exact A].
    - destruct (read eval st j) as [st3 r] eqn:Ed. injection Es as <- <-. destruct (read_binv eval total _ _ _ _ Ed H Ho) as (A & B & C & D & _). split; [exact A|]. split; [rewrite C; apply qmax_ub|]. split; [lia|exact B]. }
  destruct Hs as (A & B & C & D). destruct (IH st1 st2 xs) as (A' & B' & D'); [|exact Eh|exact A|].
  - eapply Forall_impl; [|exact Hl']. intros [|j|j]; cbn; lia.
  - split; [exact A'|]. split; [lra|]. now constructor.
Qed.
Theorem C47_batch (n : nat) (l : list op) (st : exec) (outs : list out) : (forall j, exists v, eval j = Ok v) ->
  Forall (fun o => match o with Submit => True | Done j | Result j => (j < n)%nat end) l -> history eval (new_exec true) (repeat Submit n ++ l) = (st, outs) ->
  Forall (fun x => match x with Submitted _ => True | IsDone _ r => r = Ok true | Read j r => exists v pt, r = Ok v /\ eval j = Ok (v, pt) end) outs.
Proof.
  intros Htot Hl E.
  assert (Happ : forall a b s, history eval s (a ++ b) = (let '(s1, o1) := history eval s a in let '(s2, o2) := history eval s1 b in (s2, o1 ++ o2))).
  { induction a as [|o a IH]; intros b s; cbn; [now destruct (history eval s b)|]. destruct (step eval s o) as [s1 x]. rewrite IH. destruct (history eval s1 a) as [s2 o1]. now destruct (history eval s2 b). }
  assert (Hsub : forall k s, length (jobs (fst (history eval s (repeat Submit k)))) = (k + length (jobs s))%nat).
  { induction k as [|k IH]; intros s; [reflexivity|]. cbn [repeat history]. destruct (step eval s Submit) as [s1 x] eqn:Es. cbn in Es. injection Es as <- <-. match goal with |- context[history eval ?s1 _] => specialize (IH s1); destruct (history eval s1 (repeat Submit k)) end. cbn [fst] in *. rewrite IH. cbn [jobs]. rewrite app_length. cbn. lia. }
  rewrite Happ in E. specialize (Hsub n (new_exec true)). destruct (history eval (new_exec true) (repeat Submit n)) as [s1 o1] eqn:E1. destruct (history eval s1 l) as [s2 o2] eqn:E2. injection E as <- <-. cbn [fst] in Hsub. cbn in Hsub. rewrite Nat.add_0_r in Hsub.
  assert (H0 : BInv eval (new_exec true)) by (split; cbn; [reflexivity|constructor|intros [|j] x H; discriminate]).
  assert (Hl1 : Forall (fun o => match o with Submit => True | Done j | Result j => (j < length (jobs (new_exec (V := V) true)))%nat end) (repeat Submit n)) by (apply Forall_forall; intros o Ho; apply repeat_spec in Ho as ->; exact I).
  destruct (batch_history Htot _ _ _ _ Hl1 E1 H0) as (H1 & _ & D1). rewrite <- Hsub in Hl.
  destruct (batch_history Htot _ _ _ _ Hl E2 H1) as (_ & _ & D2). apply Forall_app. split; assumption.
Qed.
End C47.
(** Finding: a job that raises blocks the others, as it stays first in the queue. *)
Theorem C47_raising_refuted : exists eval : nat -> result (nat * option Q), (exists v, eval 0%nat = Ok v) /\
  snd (history eval (new_exec false) [Submit; Submit; Done 0; Result 0; Result 0]) =
    [Submitted 0; Submitted 1; IsDone 0 (Err (UserError 7)); Read 0 (Err (UserError 7)); Read 0 (Err (UserError 7))].
Proof. exists (fun j => if Nat.eqb j 1 then Err (UserError 7) else Ok (j, None)). split; [exists (0%nat, None); reflexivity|reflexivity]. Qed.
Example C47_example : exists eval : nat -> result (nat * option Q),
  let '(st, outs) := history eval (new_exec false) [Submit; Submit; Submit; Done 0; Done 1; Result 0; Result 1; Submit; Result 2; Result 3; Result 0] in
  delivered outs = [1; 2; 3; 0]%nat /\ time st == 3 /\ evaluated st = [0; 1; 2; 3]%nat.
Proof. exists (fun j => Ok (j, Some (match j with 0%nat => 3 | 1%nat => 1 | 2%nat => 1 | _ => 1 # 2 end))). vm_compute. repeat split. Qed.
Print Assumptions C47_order.
Print Assumptions C47_progress.
Print Assumptions C47_batch.

(** Properties C21 (evolution strategies) and C22 (differential evolution):
    populations under all interleavings of asks and tells. *)
From Coq Require Import List Arith QArith Bool Lia.
From Verif.Model Require Import Prelude UidQueue Evolution.
From Verif.Spec Require Import UidQueue Evolution.
From Verif.Proofs Require Evolution.
Import ListNotations.
Open Scope nat_scope.

(** ** C21 *)

(** The population has distinct keys and at most [popsize] members, in all
    histories without injected candidates, all modes, any ranking. *)
Theorem C21_size : forall popsize offsprings only rank s,
  es_reach popsize offsprings only rank no_injection s ->
  NoDup (dkeys (es_pop s)) /\ length (es_pop s) <= popsize.
Proof. exact Evolution.es_size. Qed.
Print Assumptions C21_size.

(** The queue contains exactly the population, in all histories. *)
Theorem C21_queue : forall popsize offsprings only rank s,
  es_reach popsize offsprings only rank any_op s ->
  forall u, in_queue u (es_q s) <-> In u (dkeys (es_pop s)).
Proof. exact Evolution.es_queue. Qed.
Print Assumptions C21_queue.

(** With one objective and an accepted configuration, ask never raises. *)
Theorem C21_ask_succeeds : forall popsize offsprings only rank s u,
  es_config_ok popsize offsprings only -> 1 <= popsize -> (forall s l, rank s l = None) ->
  es_reach popsize offsprings only rank any_op s -> exists s', es_ask popsize u s = (s', Ok u).
Proof. exact Evolution.es_ask_ok. Qed.
Print Assumptions C21_ask_succeeds.

(** The tell completing a generation: survivors come from the waiting candidates,
    the told one and (unless only offsprings) the old population; each survivor is
    at least as good as each dropped one; there are [popsize] of them if there
    are enough distinct choices. *)
Theorem C21_selection : forall popsize off only s c l0 l,
  let s' := fst (es_step popsize (Some off) only by_loss s (OTell c l0 l)) in
  let choices := (es_wait s ++ [c]) ++ (if only then [] else dvals (es_pop s)) in
  (popsize <= length (es_pop s) \/ exists p, parent c (es_c s) = Some p /\ dmem p (es_pop s) = true) ->
  off <= S (length (es_wait s)) ->
  es_wait s' = [] /\ NoDup (dkeys (es_pop s')) /\ length (es_pop s') <= popsize /\
  (forall k m, In (k, m) (es_pop s') -> m = k /\ In m choices) /\
  (forall x y, In x (dvals (es_pop s')) -> In y choices -> ~ In y (dvals (es_pop s')) ->
     le_loss (loss x (es_c s')) (loss y (es_c s'))) /\
  (NoDup choices -> length (es_pop s') = Nat.min popsize (length choices)).
Proof. exact Evolution.es_selection. Qed.
Print Assumptions C21_selection.

(** Before the generation is complete, nothing changes but the waiting list. *)
Theorem C21_waiting : forall popsize off only rank s c l0 l,
  let s' := fst (es_step popsize (Some off) only rank s (OTell c l0 l)) in
  S (length (es_wait s)) < off ->
  (popsize <= length (es_pop s) \/ exists p, parent c (es_c s) = Some p /\ dmem p (es_pop s) = true) ->
  es_pop s' = es_pop s /\ es_wait s' = es_wait s ++ [c].
Proof. exact Evolution.es_waiting. Qed.
Print Assumptions C21_waiting.

(** DE-like mode: a lineage never disappears and its loss never increases. *)
Theorem C21_lineage_improves : forall popsize only rank s o k m,
  es_reach popsize None only rank no_injection s -> op_ok (es_c s) o -> es_told_once s o ->
  dget k (es_pop s) = Some m ->
  let s' := fst (es_step popsize None only rank s o) in
  exists m', dget k (es_pop s') = Some m' /\ le_loss (loss m' (es_c s')) (loss m (es_c s)).
Proof. exact Evolution.es_lineage. Qed.
Print Assumptions C21_lineage_improves.

(** concrete histories *)
Ltac es_go :=
  repeat (match goal with
  | |- es_reach _ _ _ _ _ (fst (es_step _ _ _ _ _ _)) => apply es_reach_step; [|reflexivity|exact I]
  end); apply es_reach_init.

(** (2+1) strategy: two initial candidates, one child told, generation done; the
    children of individuals 1 then replace the worst ones *)
Definition es_hist (ops : list ev_op) : est := es_run 2 (Some 1) false by_loss es_init ops.
Definition es_ops1 : list ev_op :=
  [OAsk 1; OTell 1 (5#1) (5#1); OAsk 2; OAsk 3; OTell 3 (3#1) (3#1); OTell 2 (4#1) (4#1)].
Example C21_reachable :
  es_reach 2 (Some 1) false by_loss no_injection (es_hist es_ops1) /\
  dkeys (es_pop (es_hist es_ops1)) = [3; 2] /\ es_wait (es_hist es_ops1) = [].
Proof. split; [unfold es_hist, es_ops1, es_run; es_go|vm_compute; easy]. Qed.
Print Assumptions C21_reachable.

Example C21_selection_hypotheses :
  let s := es_run 2 (Some 1) false by_loss es_init [OAsk 1; OTell 1 (5#1) (5#1); OAsk 2; OAsk 3] in
  2 <= length (es_pop s) /\ 1 <= S (length (es_wait s)) /\
  NoDup ((es_wait s ++ [3]) ++ dvals (es_pop s)).
Proof.
  cbv zeta. split; [vm_compute; lia|]. split; [lia|]. vm_compute.
  repeat constructor; cbn; intuition discriminate.
Qed.

Example C21_lineage_reachable :
  let s := es_run 2 None false by_loss es_init [OAsk 1; OAsk 2; OTell 1 (5#1) (5#1); OAsk 3; OTell 3 (2#1) (2#1)] in
  es_reach 2 None false by_loss no_injection s /\ dget 1 (es_pop s) = Some 3 /\
  es_told_once s (OTell 2 (1#1) (1#1)).
Proof. cbv zeta. split; [unfold es_run; es_go|]. vm_compute. repeat split; discriminate. Qed.

(** Finding: candidates of the initial population told once it is full are both in
    the population and waiting, so a selection may keep the same one twice and the
    population shrinks; here (2+2) keeps a single individual although two distinct
    ones with known losses were available. *)
Theorem C21_population_shrinks_refuted : exists ops,
  let s := es_run 2 (Some 2) false by_loss es_init ops in
  es_reach 2 (Some 2) false by_loss no_injection s /\
  es_num_ask s = 3 /\ length (es_pop s) = 1 /\
  length (ca_loss (es_c s)) = 3.
Proof.
  exists [OAsk 1; OTell 1 (5#1) (5#1); OAsk 2; OTell 2 (1#1) (1#1); OAsk 3; OTell 3 (4#1) (4#1)].
  cbv zeta. split; [unfold es_run; es_go|vm_compute; easy].
Qed.
Print Assumptions C21_population_shrinks_refuted.

(** Finding: a candidate told before the initial asks are finished is added to
    the population, which then exceeds [popsize]. *)
Theorem C21_injection_exceeds_popsize_refuted : exists ops,
  let s := es_run 2 (Some 2) false by_loss es_init ops in
  es_reach 2 (Some 2) false by_loss any_op s /\ length (es_pop s) = 3.
Proof.
  exists [ONew 9 9 None; OTell 9 (0#1) (0#1); OAsk 1; OAsk 2].
  cbv zeta. split; [unfold es_run; es_go|vm_compute; easy].
Qed.
Print Assumptions C21_injection_exceeds_popsize_refuted.

(** ** C22 *)

(** At most [llambda] individuals with distinct keys: all histories, any number of
    objectives, rejections, injected points, repeated tells, raised exceptions. *)
Theorem C22_size : forall llambda propagate allowed single s out fin,
  de_reach llambda propagate allowed single s out fin ->
  NoDup (dkeys (de_pop s)) /\ length (de_pop s) <= llambda.
Proof. exact Evolution.de_size. Qed.
Print Assumptions C22_size.

(** Telling the child of an individual: it replaces this individual if and only if
    its loss is at most the individual's, nothing else changes, no exception. *)
Theorem C22_child_replaces_parent : forall llambda propagate allowed s out fin c l0 l m s' r,
  1 <= llambda -> de_reach llambda propagate allowed true s out fin -> In c out ->
  dget (lineage c (de_c s)) (de_pop s) = Some m ->
  de_step llambda propagate (is_asked out (OTell c l0 l)) None s (OTell c l0 l) = (s', r) ->
  r = Ok tt /\
  forall x, dget x (de_pop s') =
    if x =? lineage c (de_c s) then Some (if lo_le (Some l) (loss m (de_c s')) then c else m)
    else dget x (de_pop s).
Proof. exact Evolution.de_child. Qed.
Print Assumptions C22_child_replaces_parent.

(** Telling a point that was not asked, or whose individual was removed: it is
    added while there is room, then it takes the place of the worst individual
    if it is strictly better, otherwise nothing changes; no exception. *)
Theorem C22_injected_replaces_worst : forall llambda propagate allowed s out fin c l0 l s' r,
  1 <= llambda -> de_reach llambda propagate allowed true s out fin ->
  (~ In c out \/ dget (lineage c (de_c s)) (de_pop s) = None) ->
  de_step llambda propagate (is_asked out (OTell c l0 l)) None s (OTell c l0 l) = (s', r) ->
  r = Ok tt /\
  (length (de_pop s) < llambda -> de_pop s' = dset c c (de_pop s)) /\
  (length (de_pop s) = llambda -> exists w m, is_worst (de_c s') (de_pop s) w m /\
     (lt_loss (Some l) (loss m (de_c s')) -> de_pop s' = dset c c (ddel w (de_pop s))) /\
     (le_loss (loss m (de_c s')) (Some l) -> de_pop s' = de_pop s)).
Proof. exact Evolution.de_injected. Qed.
Print Assumptions C22_injected_replaces_worst.

(** After a tell, some individual is at least as good as the told loss... *)
Theorem C22_told_covered : forall llambda propagate allowed s out fin c l0 l s' r, 1 <= llambda ->
  de_reach llambda propagate allowed true s out fin -> (l0 <= l)%Q ->
  de_step llambda propagate (is_asked out (OTell c l0 l)) None s (OTell c l0 l) = (s', r) ->
  covered (Some l) s'.
Proof. exact Evolution.de_told_covered. Qed.
Print Assumptions C22_told_covered.

(** ... and this remains so after any operation: good individuals are never lost. *)
Theorem C22_covered_stays : forall llambda propagate s out fin o s' r L, 1 <= llambda ->
  de_reach llambda propagate de_told_once true s out fin -> op_ok (de_c s) o -> de_told_once out fin o ->
  de_step llambda propagate (is_asked out o) None s o = (s', r) ->
  covered L s -> covered L s'.
Proof. exact Evolution.de_covered_stays. Qed.
Print Assumptions C22_covered_stays.

(** With fewer than [llambda] outstanding candidates at each ask, nothing ever
    raises, whatever is injected... *)
Theorem C22_no_failure : forall llambda propagate s out fin o s' r, 1 <= llambda ->
  de_reach llambda propagate (bounded_workers llambda) true s out fin -> op_ok (de_c s) o ->
  bounded_workers llambda out fin o ->
  de_step llambda propagate (is_asked out o) None s o = (s', r) -> r = Ok tt.
Proof. exact Evolution.de_no_failure. Qed.
Print Assumptions C22_no_failure.

(** ... and the queue holds each individual once, those with an outstanding child
    being the ones in evaluation. *)
Theorem C22_queue : forall llambda propagate s out fin, 1 <= llambda ->
  de_reach llambda propagate (bounded_workers llambda) true s out fin ->
  NoDup (uq_contents (de_q s)) /\ (forall u, In u (uq_contents (de_q s)) <-> In u (dkeys (de_pop s))) /\
  (forall u, In u (os_iter (uq_asked (de_q s))) <->
     In u (dkeys (de_pop s)) /\ exists c, In c out /\ lineage c (de_c s) = u).
Proof. exact Evolution.de_queue. Qed.
Print Assumptions C22_queue.

(** Concrete histories: [de_play] runs them and checks that they are allowed. *)
Section Play.
  Variables (llambda : nat) (propagate bounded : bool).
  Definition allowedb (out fin : list nat) (o : ev_op) : bool :=
    match o with
    | OTell c l0 l => negb (existsb (Nat.eqb c) fin) && Qle_bool l0 l
    | OReject c => existsb (Nat.eqb c) out
    | OAsk _ => negb bounded || (length out <? llambda)
    | ONew _ _ _ => true
    end.
  Definition ev_okb (k : cands) (o : ev_op) : bool :=
    match o with
    | OAsk u | ONew u _ _ => negb (known u k)
    | OTell c _ _ | OReject c => known c k
    end.
  Fixpoint de_play (s : dest) (out fin : list nat) (l : list (ev_op * option multi))
    : option (dest * list nat * list nat) :=
    match l with
    | [] => Some (s, out, fin)
    | (o, mo) :: l' =>
        if allowedb out fin o && ev_okb (de_c s) o
        then let (s', r) := de_step llambda propagate (is_asked out o) mo s o in
             de_play s' (outstanding_after out o r) (done_after fin o) l'
        else None
    end.
  Definition allowed_when (out fin : list nat) (o : ev_op) : Prop :=
    if bounded then bounded_workers llambda out fin o else de_told_once out fin o.
  Lemma de_play_reach l : forall b s out fin s' out' fin',
    (b = true -> forall o mo, In (o, mo) l -> mo = None) ->
    de_reach llambda propagate allowed_when b s out fin ->
    de_play s out fin l = Some (s', out', fin') ->
    de_reach llambda propagate allowed_when b s' out' fin'.
  Proof.
    induction l as [|[o mo] l IH]; intros b s out fin s' out' fin' Hb Hr E; cbn [de_play] in E.
    - now injection E as <- <- <-.
    - destruct (allowedb out fin o && ev_okb (de_c s) o)%bool eqn:Ec; [|easy].
      apply andb_true_iff in Ec as [Ea Eo].
      destruct (de_step llambda propagate (is_asked out o) mo s o) as [s1 r] eqn:Es.
      eapply IH; [| |exact E].
      + intros Hb' o' mo' Hin. apply (Hb Hb' o'). now right.
      + eapply de_reach_step; [exact Hr| | | |exact Es].
        * destruct o; cbn in *; try exact Eo; now apply negb_true_iff in Eo.
        * assert (Hin : forall c l, existsb (Nat.eqb c) l = true <-> In c l).
          { intros c x. rewrite existsb_exists. split; [intros (y & H & ->%Nat.eqb_eq); easy|].
            intros H. exists c. split; [easy|apply Nat.eqb_refl]. }
          assert (Ht : de_told_once out fin o).
          { destruct o; cbn in *; auto.
            - apply andb_true_iff in Ea as [E1 E2]. apply Qle_bool_iff in E2. split; [|exact E2].
              intros H. apply Hin in H. now rewrite H in E1.
            - now apply Hin. }
          unfold allowed_when. destruct bounded eqn:Eb; [|exact Ht]. split; [exact Ht|].
          destruct o; auto. unfold allowedb in Ea. rewrite Eb in Ea. now apply Nat.ltb_lt in Ea.
        * intros Hb'. apply (Hb Hb' o). now left.
  Qed.
End Play.
Lemma play_told llambda propagate b l s out fin :
  (b = true -> forall o mo, In (o, mo) l -> mo = None) ->
  de_play llambda propagate false de_init [] [] l = Some (s, out, fin) ->
  de_reach llambda propagate de_told_once b s out fin.
Proof. intros Hb E. exact (de_play_reach llambda propagate false l b de_init [] [] s out fin Hb (de_reach_init _ _ _ _) E). Qed.
Lemma play_bounded llambda propagate b l s out fin :
  (b = true -> forall o mo, In (o, mo) l -> mo = None) ->
  de_play llambda propagate true de_init [] [] l = Some (s, out, fin) ->
  de_reach llambda propagate (bounded_workers llambda) b s out fin.
Proof. intros Hb E. exact (de_play_reach llambda propagate true l b de_init [] [] s out fin Hb (de_reach_init _ _ _ _) E). Qed.
Definition single (l : list ev_op) : list (ev_op * option multi) := map (fun o => (o, None)) l.
Lemma single_none l o mo : In (o, mo) (single l) -> mo = None.
Proof. unfold single. rewrite in_map_iff. now intros (x & [= _ <-] & _). Qed.

(** three individuals, two outstanding candidates, an injected point replacing the
    worst individual whose child is outstanding, a rejection *)
Definition de_ops1 : list ev_op :=
  [OAsk 1; OTell 1 (7#1) (7#1); OAsk 2; OTell 2 (5#1) (6#1); OAsk 3; OTell 3 (4#1) (4#1);
   OAsk 4; OAsk 5; ONew 9 9 None; OTell 9 (1#1) (1#1); OTell 4 (2#1) (2#1); OReject 5].
Example C22_reachable : exists s out fin,
  de_reach 3 true (bounded_workers 3) true s out fin /\
  de_pop s = [(3, 3); (9, 9); (4, 4)] /\ out = [] /\ 1 <= 3 /\ covered (Some (1#1)) s.
Proof.
  destruct (de_play 3 true true de_init [] [] (single de_ops1)) as [[[s out] fin]|] eqn:E; [|now vm_compute in E].
  exists s, out, fin. split.
  - apply (play_bounded 3 true true (single de_ops1)); [|exact E].
    intros _ o mo. apply single_none.
  - vm_compute in E. injection E as <- <- <-. split; [easy|]. split; [easy|]. split; [lia|].
    exists 9, 9. split; [reflexivity|]. apply Qle_refl.
Qed.

(** Finding: as many outstanding candidates as individuals are not enough to be
    safe.  With more, two children of one individual are evaluated at the same
    time, its uid gets twice in the queue, and once a better injected point has
    removed the individual an ask raises [KeyError]. *)
Theorem C22_ask_key_error_refuted : exists s out fin s',
  de_reach 2 true de_told_once true s out fin /\ de_ask 2 20 s = (s', Err KeyError).
Proof.
  pose (ops := [OAsk 1; OAsk 2; OAsk 3; OAsk 4; OAsk 5; OTell 3 (5#1) (5#1); OTell 5 (6#1) (6#1);
                OTell 4 (1#1) (1#1); ONew 9 9 None; OTell 9 (0#1) (0#1)]).
  destruct (de_play 2 true false de_init [] [] (single ops)) as [[[s out] fin]|] eqn:E; [|now vm_compute in E].
  exists s, out, fin. eexists. split.
  - apply (play_told 2 true true (single ops)); [|exact E].
    intros _ o mo. apply single_none.
  - vm_compute in E. injection E as <- <- <-. vm_compute. reflexivity.
Qed.
Print Assumptions C22_ask_key_error_refuted.

(** Finding: with several objectives, injecting a Pareto point while the individual
    to remove was itself injected raises [KeyError]: the lineage of an
    injected individual is not its key. *)
Theorem C22_multiobjective_key_error_refuted : exists s out fin mo s',
  de_reach 2 true de_told_once false s out fin /\ op_ok (de_c s) (OTell 11 0 0) /\
  de_step 2 true (is_asked out (OTell 11 0 0)) (Some mo) s (OTell 11 0 0) = (s', Err KeyError).
Proof.
  pose (mo := Multi [2; 11] (fun l => l) false).
  pose (ops := [(OAsk 1, None); (OTell 1 (5#1) (5#1), Some mo); (OAsk 2, None); (OTell 2 (3#1) (3#1), Some mo);
                (ONew 10 1 (Some 1), None); (ONew 11 2 (Some 2), None);
                (OTell 10 (4#1) (4#1), Some (Multi [10; 2] (fun l => l) false))]).
  destruct (de_play 2 true false de_init [] [] ops) as [[[s out] fin]|] eqn:E; [|now vm_compute in E].
  exists s, out, fin, mo. eexists. split; [|split].
  - apply (play_told 2 true false ops); [discriminate|exact E].
  - vm_compute in E. injection E as <- <- <-. vm_compute. reflexivity.
  - vm_compute in E. injection E as <- <- <-. vm_compute. reflexivity.
Qed.
Print Assumptions C22_multiobjective_key_error_refuted.

(** Properties C01-C05, C07, C12, C13: the ask / tell / suggest interface. *)
From Coq Require Import List Arith ZArith QArith Bool Lia Lqa Permutation.
From Verif.Model Require Import Prelude MultiValue Float Archive Optimizer.
From Verif.Spec Require Import MultiValue Archive Optimizer.
From Verif.Proofs Require Archive Optimizer.
Import ListNotations.

(** * A small concrete problem, for the examples and the counterexamples *)

(** The algorithm proposes candidates 100, 101, 102...; the archive is that of the
    code without pruning, the point of a candidate being its uid; candidates listed
    in [bad] violate the constraint; the algorithm raises at its [fail]-th ask. *)
Definition ex_env (bad : list nat) (fail : option nat) (budget : option nat) : env nat archst (list (list fl)) :=
  {| e_callbacks_ask := fun s => (o_alg _ _ _ s, Ok tt);
     e_callbacks_tell := fun s _ _ => (o_alg _ _ _ s, Ok tt);
     e_ask := fun s => (S (o_alg _ _ _ s),
        match fail with
        | Some n => if (o_alg _ _ _ s =? n)%nat then Err (UserError 0) else Ok (100 + o_alg _ _ _ s)%nat
        | None => Ok (100 + o_alg _ _ _ s)%nat
        end);
     e_tell := fun s _ _ => (o_alg _ _ _ s, Ok tt);
     e_tell_not_asked := fun s _ _ => (o_alg _ _ _ s, Ok tt);
     e_spawn := fun s => (o_alg _ _ _ s, 99%nat);
     e_satisfies := fun s c => (o_alg _ _ _ s, negb (mem c bad));
     e_satisfies_no_tabu := fun s c => (o_alg _ _ _ s, negb (mem c bad));
     e_can_skip := fun _ _ => false;
     e_solver := fun s c => (o_alg _ _ _ s, c);
     e_penalty := fun _ _ => 10;
     e_update := fun a c l => match l with Fin y => arch_tell (fun _ => 0) no_pruning a (c, c, y) | _ => (a, Ok tt) end;
     e_hv_ref := fun b => [b];
     e_hv_auto := [];
     e_hv_add := fun h _ b => (b :: h, Ok (Fin 0));
     e_hv_num_obj := fun h => match h with [] => 0%nat | b :: _ => length b end;
     e_has_checkers := true;
     e_tabu_length := 0;
     e_max_trials := 10;
     e_budget := budget;
     e_penalize := false;
     e_no_hypervolume := false;
     e_pow := fun _ _ => 1 |}%Q.
Definition ex_start : ost nat archst (list (list fl)) := o_init _ _ _ arch_init 0%nat.
Definition ex_ops : list op :=
  [OAsk; OAsk; OTell (CParam 100) (LReal (Fin 3)) None; OSuggest (Ok 7%nat); OSuggest (Ok 8%nat);
   OTell (CParam 101) (LReal (Fin 2)) None; OAsk; OTell CBad (LReal (Fin 2)) None;
   OTell (CParam 8) (LReal (Fin 1)) None; OTell (CParam 101) (LReal (Fin 9)) None; OAsk; OAsk]%Q.
Definition ex_final := fst (perform (ex_env [] None (Some 10%nat)) ex_start ex_ops).
Definition ex_history := snd (perform (ex_env [] None (Some 10%nat)) ex_start ex_ops).

(** * C01 *)

(** After any history the counters are the numbers of completed tells and of
    completed tells of non-outstanding candidates; num_ask is at least the number
    of asks that returned, and equal to it if no ask raised, or if no constraint is
    violated.  No hypothesis on the algorithm, constraints or callbacks. *)
Theorem C01_counters : forall ALG ARC HV (E : env ALG ARC HV) arc0 alg0 ops s h,
  perform E (o_init _ _ _ arc0 alg0) ops = (s, h) ->
  o_num_tell _ _ _ s = tells_completed h /\
  o_num_tna _ _ _ s = unasked_tells h /\
  (asks_returned h <= o_num_ask _ _ _ s)%nat /\
  (no_violation E \/ asks_raised h = 0%nat -> o_num_ask _ _ _ s = asks_returned h).
Proof.
  exact (fun ALG ARC HV E arc0 alg0 ops s h H =>
    let i := Optimizer.hist_run E arc0 alg0 ops s h H in
    conj (Optimizer.hi_tell _ _ _ i) (conj (Optimizer.hi_tna _ _ _ i)
      (conj (Optimizer.hi_ask _ _ _ i) (Optimizer.hi_ask_eq _ _ _ i)))).
Qed.
Print Assumptions C01_counters.

Example C01_example :
  map (fun e => match snd e with RErr _ => true | _ => false end) ex_history =
    [false; false; false; false; false; false; false; true; false; false; false; false] /\
  o_num_ask _ _ _ ex_final = 5%nat /\ o_num_tell _ _ _ ex_final = 4%nat /\ o_num_tna _ _ _ ex_final = 2%nat.
Proof. vm_compute. auto. Qed.

(** an ask that returns adds one whatever number of constraint retries it needed *)
Theorem C01_retries_not_counted : forall ALG ARC HV (E : env ALG ARC HV) s s' c b,
  ask _ _ _ E s = (s', Ok (c, b)) -> o_num_ask _ _ _ s' = S (o_num_ask _ _ _ s).
Proof. exact @Optimizer.ask_counts_one. Qed.
Print Assumptions C01_retries_not_counted.

Example C01_retries_example :
  exists s', ask _ _ _ (ex_env [100; 101; 102]%nat None None) ex_start = (s', Ok (103%nat, false)) /\
    o_num_ask _ _ _ s' = 1%nat.
Proof. eexists. vm_compute. auto. Qed.

(** Finding: an ask that raises after a constraint retry has increased num_ask. *)
Theorem C01_raising_ask_counted_refuted : exists (E : env nat archst (list (list fl))) s s' e,
  ask _ _ _ E s = (s', Err e) /\ o_num_ask _ _ _ s = 0%nat /\ o_num_ask _ _ _ s' = 2%nat.
Proof.
  exists (ex_env [100; 101]%nat (Some 2%nat) None), ex_start. eexists _, _. split; [vm_compute; reflexivity|].
  vm_compute. auto.
Qed.
Print Assumptions C01_raising_ask_counted_refuted.

(** * C02 *)

(** After any history the set of asked candidates is exactly the list of candidates
    returned by ask from the algorithm and not told since, in order and without
    repetition; an ask returning a candidate of the algorithm returns one that is
    not outstanding. *)
Theorem C02_outstanding : forall ALG ARC HV (E : env ALG ARC HV) arc0 alg0 ops s h,
  perform E (o_init _ _ _ arc0 alg0) ops = (s, h) ->
  o_asked _ _ _ s = outstanding h /\ NoDup (outstanding h) /\
  (forall s' c, ask _ _ _ E s = (s', Ok (c, false)) -> ~ In c (outstanding h)).
Proof. exact @Optimizer.outstanding_spec. Qed.
Print Assumptions C02_outstanding.

Example C02_example : outstanding (firstn 3 ex_history) = [101]%nat /\ outstanding ex_history = [102]%nat.
Proof. vm_compute. auto. Qed.

(** An accepted tell is forwarded to the algorithm as asked exactly when its
    candidate is outstanding; afterwards the candidate is not outstanding, so that
    a second tell is a tell of a non-asked point. *)
Theorem C02_second_tell_not_asked : forall ALG ARC HV (E : env ALG ARC HV) s c l cv s1 l2 cv2 s2,
  tell _ _ _ E s (CParam c) l cv = (s1, Ok true) ->
  tell _ _ _ E s1 (CParam c) l2 cv2 = (s2, Ok true) ->
  ~ In c (o_asked _ _ _ s1) /\ o_num_tna _ _ _ s2 = S (o_num_tna _ _ _ s1).
Proof. exact @Optimizer.second_tell. Qed.
Print Assumptions C02_second_tell_not_asked.

(** * C03 *)

Theorem C03_last_in_first_out : forall ALG ARC HV (E : env ALG ARC HV) arc0 alg0 ops s h,
  no_violation E -> perform E (o_init _ _ _ arc0 alg0) ops = (s, h) ->
  o_suggestions _ _ _ s = pending h /\
  forall s' c b, ask _ _ _ E s = (s', Ok (c, b)) ->
    match pending h with
    | c0 :: l => c = c0 /\ b = true /\ o_suggestions _ _ _ s' = l /\ o_trace _ _ _ s' = o_trace _ _ _ s
    | [] => b = false
    end.
Proof. exact @Optimizer.lifo. Qed.
Print Assumptions C03_last_in_first_out.

(** every suggestion made was asked exactly once or is still pending *)
Theorem C03_each_exactly_once : forall ALG ARC HV (E : env ALG ARC HV) arc0 alg0 ops s h,
  no_violation E -> perform E (o_init _ _ _ arc0 alg0) ops = (s, h) ->
  Permutation (suggested h) (suggestions_asked h ++ pending h).
Proof. exact (fun ALG ARC HV E arc0 alg0 ops s h H1 H2 => Optimizer.pending_perm E h s arc0 alg0 ops H1 H2). Qed.
Print Assumptions C03_each_exactly_once.

Example C03_example : no_violation (ex_env [] None (Some 10%nat)) /\
  suggested ex_history = [7; 8]%nat /\ suggestions_asked ex_history = [8; 7]%nat /\
  pending (firstn 5 ex_history) = [8; 7]%nat.
Proof. split; [easy|]. vm_compute. auto. Qed.

(** Finding: a suggestion violating the constraints is dropped, never asked. *)
Theorem C03_rejected_suggestion_lost_refuted : exists (E : env nat archst (list (list fl))) s s' c,
  o_suggestions _ _ _ s = [5%nat] /\ ask _ _ _ E s = (s', Ok (c, false)) /\
  c <> 5%nat /\ o_suggestions _ _ _ s' = [].
Proof.
  exists (ex_env [5%nat] None None), (set_suggestions _ _ _ ex_start [5%nat]). eexists _, 100%nat.
  split; [reflexivity|]. split; [vm_compute; reflexivity|]. split; [discriminate|reflexivity].
Qed.
Print Assumptions C03_rejected_suggestion_lost_refuted.

(** * C04 *)

(** The loss recorded for a told scalar, whatever the constraints: the told one
    below 5e20, else 5e20. *)
Theorem C04_recorded_loss : forall ALG ARC HV (E : env ALG ARC HV) s c f cv s',
  tell _ _ _ E s (CParam c) (LReal f) cv = (s', Ok true) ->
  exists l, dget c (o_loss _ _ _ s') = Some l /\ fl_eq l (kept_loss f) /\
    (fl_lt f max_loss = true -> l = f) /\ l <> NaN /\ fl_le l max_loss = true.
Proof.
  exact (fun ALG ARC HV E s c f cv s' H => ex_intro _ _
    (conj (Optimizer.scalar_recorded E s c f cv s' H) (conj (Optimizer.kept_clip f)
      (conj (Optimizer.clip_exact f) (conj (Optimizer.clip_not_nan f) (Optimizer.clip_le f)))))).
Qed.
Print Assumptions C04_recorded_loss.

(** Without constraint violation the same loss is what the archive and the
    algorithm receive, once each, in that order. *)
Theorem C04_forwarded_loss : forall ALG ARC HV (E : env ALG ARC HV) s c f s',
  no_violation E -> tell _ _ _ E s (CParam c) (LReal f) None = (s', Ok true) ->
  exists l b, dget c (o_loss _ _ _ s') = Some l /\
    o_trace _ _ _ s' = o_trace _ _ _ s ++ [EArchive c l; EAlgTell c l b] /\
    e_update _ _ _ E (o_arc _ _ _ s) c l = (o_arc _ _ _ s', Ok tt).
Proof.
  exact (fun ALG ARC HV E s c f s' Hn H => ex_intro _ _ (ex_intro _ _
    (conj (Optimizer.scalar_recorded E s c f None s' H) (Optimizer.scalar_forwarded E s c f s' Hn H)))).
Qed.
Print Assumptions C04_forwarded_loss.

Example C04_example : exists s',
  tell _ _ _ (ex_env [] None None) ex_start (CParam 3) (LReal NaN) None = (s', Ok true) /\
  dget 3 (o_loss _ _ _ s') = Some max_loss.
Proof. eexists. split; vm_compute; reflexivity. Qed.

(** Finding: a loss in a list of length one is not sanitised, and an integer in
    such a list raises AttributeError. *)
Theorem C04_list_of_one_refuted :
  (exists (E : env nat archst (list (list fl))) s s',
     tell _ _ _ E s (CParam 3) (LSeq [IFloat NaN]) None = (s', Ok true) /\
     dget 3 (o_loss _ _ _ s') = Some NaN) /\
  (exists (E : env nat archst (list (list fl))) s s',
     tell _ _ _ E s (CParam 3) (LSeq [IInt (Fin 4)]) None = (s', Err AttributeError)).
Proof.
  split; exists (ex_env [] None None), ex_start; eexists; [split|]; vm_compute; reflexivity.
Qed.
Print Assumptions C04_list_of_one_refuted.

(** * C05 *)

(** All completed tells of a history have the same number of losses, which is the
    number of objectives from then on. *)
Theorem C05_same_number : forall ALG ARC HV (E : env ALG ARC HV) ops s s' h,
  perform E s ops = (s', h) ->
  (forall c l cv, In (OTell c l cv, RDone) h -> n_losses l = o_num_obj _ _ _ s') /\
  (o_num_obj _ _ _ s <> 0%nat -> o_num_obj _ _ _ s' = o_num_obj _ _ _ s).
Proof.
  exact (fun ALG ARC HV E ops s s' h H =>
    conj (Optimizer.n_losses_run E ops s s' h H) (Optimizer.num_obj_run E ops s s' h H)).
Qed.
Print Assumptions C05_same_number.

(** Another number of losses is refused without any effect but on the curve. *)
Theorem C05_other_number_rejected : forall ALG ARC HV (E : env ALG ARC HV) s c l cv,
  o_num_obj _ _ _ s <> 0%nat -> n_losses l <> o_num_obj _ _ _ s ->
  exists s' e, tell _ _ _ E s c l cv = (s', Err e) /\ same_but_curve s s'.
Proof.
  exact (fun ALG ARC HV E s c l cv H1 H2 =>
    Optimizer.rejected_spec E s c l cv (or_intror (or_intror (conj H1 H2)))).
Qed.
Print Assumptions C05_other_number_rejected.

(** The right number of (well typed) losses is accepted in every reachable state. *)
Theorem C05_same_number_accepted : forall ALG ARC HV (E : env ALG ARC HV) arc0 alg0 ops s h c l cv,
  never_raises E -> hv_counts E -> perform E (o_init _ _ _ arc0 alg0) ops = (s, h) ->
  ~ bad_loss l -> o_num_obj _ _ _ s = 0%nat \/ o_num_obj _ _ _ s = n_losses l ->
  exists s', tell _ _ _ E s (CParam c) l cv = (s', Ok true).
Proof.
  exact (fun ALG ARC HV E arc0 alg0 ops s h c l cv Hn Hc H =>
    Optimizer.accepted E s c l cv Hn Hc (Optimizer.hv_inv_run E ops Hc (o_init _ _ _ arc0 alg0) s h I H)).
Qed.
Print Assumptions C05_same_number_accepted.

Example C05_example : never_raises (ex_env [] None None) /\ hv_counts (ex_env [] None None) /\
  map snd (snd (perform (ex_env [] None None) ex_start
    [OTell (CParam 1) (LSeq [IFloat (Fin 1); IInt (Fin 2)]) None; OTell (CParam 2) (LReal (Fin 1)) None;
     OTell (CParam 2) (LSeq [IFloat (Fin 1); IFloat (Fin 3)]) None; OTell (CRef None) (LSeq [IFloat (Fin 1)]) None]))
  = [RDone; RErr ValueError; RDone; RErr ValueError].
Proof.
  split; [|split].
  - constructor; cbn; try reflexivity; intros.
    + destruct l; try reflexivity. unfold update_archive. now destruct (archive_put _ c c q _) as [[[h1 a1] i1] b1].
    + eexists; reflexivity.
  - split; reflexivity.
  - vm_compute. reflexivity.
Qed.

(** * C07, through the whole interface *)

(** After any history of asks, suggestions and completed scalar tells (losses
    within +-1e10, distinct candidates) without constraint violations, the
    recommendation is a told candidate of smallest loss. *)
Theorem C07_recommendation_full_interface : forall ALG HV (E : env ALG archst HV) msqrt pruning key,
  (forall a c y, e_update _ _ _ E a c (Fin y) = arch_tell msqrt pruning a (c, key c, y)) ->
  forall alg0 ops s h, sub_pruning pruning -> no_violation E ->
  perform E (o_init ALG archst HV arch_init alg0) ops = (s, h) ->
  (forall c l cv r, In (OTell c l cv, r) h ->
     r = RDone /\ cv = None /\ exists c0 y, c = CParam c0 /\ l = LReal (Fin y) /\ in_range y) ->
  scalar_tells key h <> [] -> distinct_candidates (scalar_tells key h) ->
  exists t, best_told t (scalar_tells key h) /\ arch_recommend true (o_arc _ _ _ s) = Some (t_cand t).
Proof. exact @Optimizer.pipeline_recommend. Qed.
Print Assumptions C07_recommendation_full_interface.

Definition ex_ops7 : list op :=
  [OAsk; OAsk; OTell (CParam 100) (LReal (Fin 3)) None; OSuggest (Ok 7%nat); OAsk;
   OTell (CParam 7) (LReal (Fin 1)) None; OTell (CParam 101) (LReal (Fin 2)) None]%Q.
Example C07_interface_example :
  let E := ex_env [] None None in
  (forall a c y, e_update _ _ _ E a c (Fin y) = arch_tell (fun _ => 0)%Q no_pruning a (c, c, y)) /\
  sub_pruning no_pruning /\ no_violation E /\
  map t_cand (scalar_tells (fun c => c) (snd (perform E ex_start ex_ops7))) = [100; 7; 101]%nat /\
  arch_recommend true (o_arc _ _ _ (fst (perform E ex_start ex_ops7))) = Some 7%nat.
Proof.
  split; [reflexivity|]. split.
  - intros h a a' [= <-]. apply Pruning.sublist_refl.
  - split; [easy|]. vm_compute. auto.
Qed.

(** * C12 *)

Theorem C12_rejected_tell_no_effect : forall ALG ARC HV (E : env ALG ARC HV) s c l cv,
  rejected s c l -> exists s' e, tell _ _ _ E s c l cv = (s', Err e) /\ same_but_curve s s'.
Proof. exact @Optimizer.rejected_spec. Qed.
Print Assumptions C12_rejected_tell_no_effect.

Example C12_example : rejected ex_final CBad (LReal (Fin 1)) /\ rejected ex_final (CParam 4) LOther /\
  rejected ex_final (CParam 4) (LSeq [IFloat (Fin 1); IFloat (Fin 1)]).
Proof. split; [right; left; reflexivity|]. split; [left; exact I|]. right. right. vm_compute. split; discriminate. Qed.

(** Finding: the learning curve records the loss of a rejected tell. *)
Theorem C12_curve_changed_refuted : exists (E : env nat archst (list (list fl))) s s' e,
  tell _ _ _ E s CBad (LReal (Fin 1)) None = (s', Err e) /\ o_curve _ _ _ s' <> o_curve _ _ _ s.
Proof.
  exists (ex_env [] None None), ex_start. eexists _, _. split; [vm_compute; reflexivity|]. discriminate.
Qed.
Print Assumptions C12_curve_changed_refuted.

(** Finding: a reference point given by mistake with one loss raises, but makes the
    optimizer single-objective: the corrected call then fails. *)
Theorem C12_reference_fixes_objectives_refuted : exists (E : env nat archst (list (list fl))) s s1 s2 s3 r,
  tell _ _ _ E s (CRef None) (LReal (Fin 1)) None = (s1, Err RuntimeError) /\
  tell _ _ _ E s1 (CRef None) (LSeq [IFloat (Fin 1); IFloat (Fin 2)]) None = (s2, Err ValueError) /\
  tell _ _ _ E s (CRef None) (LSeq [IFloat (Fin 1); IFloat (Fin 2)]) None = (s3, Ok r).
Proof.
  exists (ex_env [] None None), ex_start. eexists _, _, _, _.
  split; [vm_compute; reflexivity|]. split; vm_compute; reflexivity.
Qed.
Print Assumptions C12_reference_fixes_objectives_refuted.

(** * C13 *)

(** A violating candidate changes nothing in the archive (current bests included),
    is counted, and is forwarded once to the algorithm with a loss which is not
    lower than the recorded one. *)
Theorem C13_violating_scalar : forall ALG ARC HV (E : env ALG ARC HV) s c f cv s',
  told_violating E c cv -> tell _ _ _ E s (CParam c) (LReal f) cv = (s', Ok true) ->
  o_arc _ _ _ s' = o_arc _ _ _ s /\ o_num_tell _ _ _ s' = S (o_num_tell _ _ _ s) /\
  exists l', o_trace _ _ _ s' = o_trace _ _ _ s ++ [EAlgTell c l' (mem c (o_asked _ _ _ s))] /\
    (nonneg_penalties E -> fl_le (clip_loss f) l' = true).
Proof. exact @Optimizer.scalar_violating. Qed.
Print Assumptions C13_violating_scalar.

(** the same for any kind of loss *)
Theorem C13_violating_never_archived : forall ALG ARC HV (E : env ALG ARC HV) s c l cv s',
  told_violating E c cv -> tell _ _ _ E s (CParam c) l cv = (s', Ok true) ->
  o_arc _ _ _ s' = o_arc _ _ _ s.
Proof. exact @Optimizer.violating_archive. Qed.
Print Assumptions C13_violating_never_archived.

Example C13_example : let E := ex_env [5%nat] None (Some 100%nat) in
  told_violating E 5 None /\ told_violating E 6 (Some [0; 2]%Q) /\ nonneg_penalties E /\
  (exists s', tell _ _ _ E ex_start (CParam 5) (LReal (Fin 1)) None = (s', Ok true) /\
     o_trace _ _ _ s' = [EAlgTell 5 (Fin 11) false]) /\
  (exists s', tell _ _ _ E ex_start (CParam 6) (LReal (Fin 1)) (Some [0; 2]%Q) = (s', Ok true)).
Proof.
  cbn zeta. split; [left; split; [easy|discriminate]|]. split.
  { right. eexists. split; [reflexivity|]. constructor 2. constructor. reflexivity. }
  split; [split; intros; cbn; discriminate|]. split; eexists; [split|]; vm_compute; reflexivity.
Qed.

(** Finding: without a budget, candidates violating the registered constraints do
    reach the archive and the recommendation. *)
Theorem C13_no_budget_refuted : exists (E : env nat archst (list (list fl))) s c s',
  violates E c /\ tell _ _ _ E s (CParam c) (LReal (Fin 1)) None = (s', Ok true) /\
  arch_recommend true (o_arc _ _ _ s') = Some c.
Proof.
  exists (ex_env [5%nat] None None), ex_start, 5%nat. eexists.
  split; [easy|]. split; vm_compute; reflexivity.
Qed.
Print Assumptions C13_no_budget_refuted.

(** Finding: during the first half of the budget, the penalty for an explicit
    violation of a candidate with a non-positive loss is zero. *)
Theorem C13_zero_penalty_refuted : exists (E : env nat archst (list (list fl))) s c s',
  nonneg_penalties E /\ (forall x y, e_pow _ _ _ E x y == 1)%Q /\
  tell _ _ _ E s (CParam c) (LReal (Fin (-1))) (Some [100]%Q) = (s', Ok true) /\
  exists l', o_trace _ _ _ s' = o_trace _ _ _ s ++ [EAlgTell c l' false] /\ fl_eq l' (Fin (-1)).
Proof.
  exists (ex_env [] None (Some 10%nat)), ex_start, 5%nat. eexists.
  split; [split; intros; cbn; discriminate|]. split; [reflexivity|]. split; [vm_compute; reflexivity|].
  eexists. split; [reflexivity|]. reflexivity.
Qed.
Print Assumptions C13_zero_penalty_refuted.

(** A problem with a tabu list of length [n] (parametrization/core.py:
    satisfies_constraints adds each accepted value to the list and refuses the
    values in it) and no other constraint. *)
Definition tabu_env (n : nat) (budget : option nat) : env (nat * list nat) archst (list (list fl)) :=
  let check (s : ost (nat * list nat) archst (list (list fl))) c :=
    let '(k, tabu) := o_alg _ _ _ s in
    if mem c tabu then ((k, tabu), false) else ((k, c :: firstn (n - 1) tabu), true) in
  {| e_callbacks_ask := fun s => (o_alg _ _ _ s, Ok tt);
     e_callbacks_tell := fun s _ _ => (o_alg _ _ _ s, Ok tt);
     e_ask := fun s => let '(k, tabu) := o_alg _ _ _ s in ((S k, tabu), Ok (100 + k)%nat);
     e_tell := fun s _ _ => (o_alg _ _ _ s, Ok tt);
     e_tell_not_asked := fun s _ _ => (o_alg _ _ _ s, Ok tt);
     e_spawn := fun s => (o_alg _ _ _ s, 99%nat);
     e_satisfies := check;
     e_satisfies_no_tabu := fun s c => (o_alg _ _ _ s, true);
     e_can_skip := fun _ _ => false;
     e_solver := fun s c => (o_alg _ _ _ s, c);
     e_penalty := fun _ _ => 0;
     e_update := fun a c l => match l with Fin y => arch_tell (fun _ => 0) no_pruning a (c, c, y) | _ => (a, Ok tt) end;
     e_hv_ref := fun b => [b];
     e_hv_auto := [];
     e_hv_add := fun h _ b => (b :: h, Ok (Fin 0));
     e_hv_num_obj := fun h => match h with [] => 0%nat | b :: _ => length b end;
     e_has_checkers := false;
     e_tabu_length := n;
     e_max_trials := 10;
     e_budget := budget;
     e_penalize := false;
     e_no_hypervolume := false;
     e_pow := fun _ _ => 1 |}%Q.

(** Finding: with a tabu list and a budget, a candidate returned by ask and told is
    refused by the check made in tell (the ask put it in the list): it never
    reaches the archive nor the recommendation. *)
Theorem C13_tabu_asked_never_archived_refuted : exists s h,
  perform (tabu_env 5 (Some 10%nat)) (o_init _ _ _ arch_init (0%nat, []))
    [OAsk; OTell (CParam 100) (LReal (Fin 1)) None; OAsk; OTell (CParam 101) (LReal (Fin 0)) None] = (s, h) /\
  tells_completed h = 2%nat /\ st_archive (o_arc _ _ _ s) = [] /\ arch_recommend true (o_arc _ _ _ s) = None.
Proof. eexists _, _. split; [vm_compute; reflexivity|]. vm_compute. auto. Qed.
Print Assumptions C13_tabu_asked_never_archived_refuted.

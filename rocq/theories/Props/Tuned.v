(** C97: the optimizers chosen by NgIohTuned and its relatives *)
From Coq Require Import List Arith ZArith QArith Bool Lia.
From Verif.Model Require Import Prelude MultiValue Portfolio Select Tuned.
From Verif.Spec Require Import Select Tuned.
From Verif.Proofs Require Import Select Tuned.
Import ListNotations.
Open Scope nat_scope.

(** Every variant, for every problem with a budget but those named in Spec/Tuned.v, chooses optimizers which can all be
    created: nothing fails, none of them gets more workers than the problem, and those which work one point at a time
    get one worker.  It holds for every way of rounding the logarithms. *)
Theorem C97_selection : forall cma_vars exceeds_log v t, usable (t_info t) -> ~ unlucky v t ->
  exists l, (forall depth, 14 <= depth -> start cma_vars exceeds_log depth v t = Ok l) /\ sound (i_workers (t_info t)) l.
Proof.
  intros cv el v t U N. destruct (every_fine cv el v t U N) as (l & E & S). exists l. split; [|exact S].
  intros depth H. eapply start_mono; eauto.
Qed.
Print Assumptions C97_selection.

Definition no_log (_ _ : nat) : bool := false.
Definition log_ok (_ _ : nat) : bool := true.
Definition vars (d : nat) : nat := match d with 1 => 4 | 2 => 6 | 10 => 10 | 20 => 12 | _ => 20 end.
Definition problem (b nw d : nat) (det : bool) : tinfo :=
  TInfo (Info (Some b) nw d true det true false (-1) true 0 false) true false false false false false.
Definition marked (real hp neural : bool) (t : tinfo) : tinfo := TInfo (t_info t) (t_array t) real hp neural false false.
Example C97_selection_nontrivial :
  usable (t_info (problem 7000 4 3 true)) /\ ~ unlucky CSEC11 (problem 7000 4 3 true) /\
  start vars no_log 14 NgIoh15 (problem 4900 2 2 true) = Ok [(ACMAstd, 1); (ACMAstd, 1)] /\
  start vars no_log 14 NgIoh17 (problem 4100 1 2 true) =
    Ok [(ACMAinit, 1); (ACMAinit, 1); (ACMAinit, 1); (ARBFGS, 1); (ACMAinit, 1); (ACMAinit, 1); (ACMAinit, 1); (ARBFGS, 1)] /\
  start vars no_log 14 NgIohRW2 (problem 1000 7 2 true) =
    Ok [(ACMAstd, 1); (ATwoPointsDE, 1); (AScrHammersley, 1); (AQODE, 3); (APSO, 3)] /\
  start vars log_ok 14 CSEC11 (problem 1000 7 2 true) = Ok [(ALognormal, 7); (ACMAstd, 7)] /\
  start vars no_log 14 CSEC11 (marked true false true (problem 1000 7 2 false)) =
    Ok [(ADiagonalCMA, 3); (APSO, 3); (ARotatedTwoPointsDE, 3); (ATwoPointsDE, 3); (AOptimistic true, 7)].
Proof.
  split; [|split].
  - repeat split; cbn; try lia. eexists. split; [reflexivity|]. apply Nat.leb_le. reflexivity.
  - intros (_ & R & _). discriminate R.
  - vm_compute. auto 10.
Qed.

(** For the others, the first ask always fails: NgIohTuned cannot tune the hyper-parameters of a real-world problem whose
    budget is at least 12 times the dimension. *)
Theorem C97_unlucky : forall cma_vars exceeds_log depth v t, unlucky v t ->
  start cma_vars exceeds_log depth v t = Err TypeError.
Proof.
  intros cv el depth v t (V & R & Hp & Ne & Co & Fc & Nn & b & B & L).
  assert (E : forall ratio, pick_csec1x cv el ratio t = Err TypeError).
  { intros ratio. unfold pick_csec1x, discrete_array. rewrite B, R, Hp, Ne, Co, Fc, Nn. cbn [negb andb]. rewrite ?andb_false_r. cbn [andb].
    rewrite ?andb_false_r. cbn [andb]. unfold pick_dsrw, quiet. rewrite B, Fc, Nn. apply Nat.leb_le in L. rewrite L. reflexivity. }
  unfold start. destruct V as [-> | ->]; cbn [tpick]; rewrite E; reflexivity.
Qed.
Print Assumptions C97_unlucky.
Example C97_unlucky_nontrivial :
  unlucky CSEC11 (marked true true false (problem 100 1 3 true)) /\ usable (t_info (marked true true false (problem 100 1 3 true))).
Proof.
  split.
  - split; [now right|]. repeat split; auto. exists 100. split; [reflexivity|cbn; lia].
  - repeat split; cbn; try lia. exists 100. split; [reflexivity|lia].
Qed.

(** "NgIohTuned works for every problem with a budget" is false. *)
Theorem C97_tuned_refuted :
  ~ (forall t, usable (t_info t) -> exists l, start vars log_ok 14 CSEC11 t = Ok l).
Proof.
  intros H. destruct (H (marked true true false (problem 100 1 3 true))) as (l & E); [apply C97_unlucky_nontrivial|].
  rewrite C97_unlucky in E; [discriminate E|apply C97_unlucky_nontrivial].
Qed.
Print Assumptions C97_tuned_refuted.

(** Without a budget NgIohTuned always fails. *)
Theorem C97_no_budget : forall cma_vars exceeds_log depth v t, v = CSEC10 \/ v = CSEC11 -> i_budget (t_info t) = None ->
  start cma_vars exceeds_log depth v t = Err AssertionError.
Proof.
  intros cv el depth v t V B. unfold start. destruct V as [-> | ->]; cbn [tpick]; unfold pick_csec1x; rewrite B; reflexivity.
Qed.
Print Assumptions C97_no_budget.

(** One worker, from 2 to 49 variables, at least 30 evaluations per variable: what NgIohTuned does. *)
Theorem C97_one_worker : forall cma_vars exceeds_log depth t b, 14 <= depth -> ordinary t -> i_workers (t_info t) = 1 ->
  i_budget (t_info t) = Some b -> 1 < i_dim (t_info t) < 50 -> 30 * i_dim (t_info t) <= b ->
  start cma_vars exceeds_log depth CSEC11 t = Ok (map (fun a => (a, 1)) (one_after_the_other (i_dim (t_info t)) b)).
Proof. exact one_worker. Qed.
Print Assumptions C97_one_worker.

Example C97_one_worker_nontrivial :
  ordinary (problem 600 1 2 true) /\ one_after_the_other 2 600 = [ACMAinit; ACMAinit; ACMAinit] /\
  one_after_the_other 2 4001 = [AVLPCMA] /\ one_after_the_other 10 3001 = [ACobyla; ACmaFmin2; ASQP] /\
  one_after_the_other 10 300 = [ACobyla; AElitistCMA; ASQP] /\ one_after_the_other 2 601 = [ACMAinit; ACMAinit; ACMAinit; ARBFGS].
Proof. split; [repeat split|]. vm_compute. auto 10. Qed.

(** The same for NgIoh8 with fewer than 300 evaluations per variable. *)
Theorem C97_one_worker8 : forall cma_vars exceeds_log depth t b, 14 <= depth -> ordinary t -> i_workers (t_info t) = 1 ->
  i_budget (t_info t) = Some b -> 1 < i_dim (t_info t) < 50 -> 30 * i_dim (t_info t) <= b < 300 * i_dim (t_info t) ->
  start cma_vars exceeds_log depth NgIoh8 t = Ok (map (fun a => (a, 1)) (one_after_the_other8 (i_dim (t_info t)))).
Proof. exact one_worker8. Qed.
Print Assumptions C97_one_worker8.

Example C97_one_worker8_nontrivial : ordinary (problem 600 1 4 true) /\
  start vars no_log 14 NgIoh8 (problem 600 1 4 true) = Ok [(AElitistCMA, 1); (ASQP, 1)].
Proof. split; [repeat split|]. apply C97_one_worker8 with 600; [lia|repeat split|reflexivity|reflexivity|cbn; lia|cbn; lia]. Qed.

(** NgIoh12 to NgIoh16 with more than 2000 evaluations per variable: as many optimizers, in a portfolio, as there are
    thousands of evaluations per variable, if there are not fewer than workers. *)
Theorem C97_restarts : forall cma_vars exceeds_log v t b, In v [NgIoh12; NgIoh13; NgIoh14; NgIoh15; NgIoh16] ->
  i_continuous (t_info t) = true -> has_noise (t_info t) = false -> i_budget (t_info t) = Some b ->
  2000 * i_dim (t_info t) < b -> i_workers (t_info t) <= b / (1000 * i_dim (t_info t)) ->
  exists members warmup, tpick cma_vars exceeds_log v t = Ok (Plain (Mix members warmup))
    /\ length members = b / (1000 * i_dim (t_info t)).
Proof.
  intros cv el v t b V Fc Nn B L1 L2.
  assert (Da : discrete_array t = false) by (unfold discrete_array; rewrite Fc; now rewrite andb_false_r).
  assert (Qi : quiet (t_info t) = true) by (unfold quiet; now rewrite Fc, Nn).
  assert (X : forall o, pick_large (fun d b0 => if_restarts (i_workers (t_info t)) d b0 (o b0)) carolas t = o b (b / (1000 * i_dim (t_info t)))).
  { intros o. unfold pick_large, arrays, when, if_restarts. rewrite Da, Qi, B. apply Nat.ltb_lt in L1. apply Nat.leb_le in L2.
    rewrite L1, L2. reflexivity. }
  set (num := b / (1000 * i_dim (t_info t))) in *. clearbody num.
  assert (F4 : forall o (a b c d : opt), length (firstn num [a; b; c; d] ++ repeat o (num - 4)) = num).
  { intros o a0 b0 c0 d0. rewrite app_length, firstn_length, repeat_length. cbn [length]. lia. }
  destruct V as [<-|[<-|[<-|[<-|[<-|[]]]]]]; cbn [tpick]; rewrite X; unfold copies, four_kinds;
    eexists; eexists; (split; [reflexivity|]); try apply repeat_length; apply F4.
Qed.
Print Assumptions C97_restarts.

(** A function with noise, of continuous variables: one TBPSA with all the workers, whatever the budget. *)
Theorem C97_noise : forall cma_vars exceeds_log depth t b, 14 <= depth -> unmarked t -> i_budget (t_info t) = Some b ->
  i_continuous (t_info t) = true -> i_disc (t_info t) = false -> i_metrizable (t_info t) = true -> i_det (t_info t) = false ->
  start cma_vars exceeds_log depth CSEC11 t = Ok [(ATBPSA, i_workers (t_info t))].
Proof. exact noise. Qed.
Print Assumptions C97_noise.

Example C97_noise_nontrivial : start vars no_log 14 CSEC11 (problem 30 7 40 false) = Ok [(ATBPSA, 7)].
Proof. apply C97_noise with 30; auto. now split. Qed.

(** NgDS2, "with direct search", uses it if and only if the problem is continuous and without noise, with one worker,
    31 to 49 variables and no more evaluations than variables; it then runs it once, followed by SQP. *)
Theorem C97_direct_search : forall cma_vars exceeds_log depth t b, 14 <= depth -> 1 <= i_dim (t_info t) -> 1 <= i_workers (t_info t) ->
  i_budget (t_info t) = Some b ->
  if i_continuous (t_info t) && negb (has_noise (t_info t)) && (i_workers (t_info t) =? 1) && (b <=? i_dim (t_info t)) && (30 <? i_dim (t_info t)) && (i_dim (t_info t) <? 50)
  then start cma_vars exceeds_log depth NgDS2 t = Ok [(ADSproba, 1); (ASQP, 1)]
  else forall l w, start cma_vars exceeds_log depth NgDS2 t = Ok l -> ~ In (ADSproba, w) l.
Proof. exact direct_search. Qed.
Print Assumptions C97_direct_search.

Example C97_direct_search_nontrivial :
  start vars no_log 14 NgDS2 (problem 30 1 40 true) = Ok [(ADSproba, 1); (ASQP, 1)] /\
  start vars no_log 14 NgDS2 (problem 30 1 50 true) = Ok [(AOnePlusOne, 1)].
Proof. vm_compute. auto. Qed.

(** A meta-model "is always added to a (1+1) in dimension 1" (optimizerlib.py:2190-2192), but not that of NgIohTuned: from
    2001 evaluations it uses CMA-ES, whose package has no dimension 1. *)
Theorem C97_one_variable_refuted :
  ~ (forall t l, usable (t_info t) -> ordinary t -> i_dim (t_info t) = 1 -> start vars no_log 14 CSEC11 t = Ok l ->
     forall a w, In (a, w) l -> ~ cma_es a).
Proof.
  intros H.
  assert (E : start vars no_log 14 CSEC11 (problem 2001 1 1 true) = Ok [(AVLPCMA, 1)]) by (vm_compute; reflexivity).
  assert (U : usable (t_info (problem 2001 1 1 true))).
  { split; [exists 2001; split; [reflexivity|apply Nat.leb_le; vm_compute; reflexivity]|]. split; apply le_n. }
  assert (O : ordinary (problem 2001 1 1 true)) by (repeat split).
  exact (H _ _ U O eq_refl E AVLPCMA 1 (or_introl eq_refl) ltac:(cbn; auto 15)).
Qed.
Print Assumptions C97_one_variable_refuted.

(** "NgIohTuned will delegate to DE in the case of multi-objective functions" (docs/optimization.rst:286-287) holds for
    its ancestors, not for it: it goes on with one-point-at-a-time methods on the hypervolume. *)
Theorem C97_multiobjective : forall cma_vars exceeds_log depth v n t, 14 <= depth -> usable (t_info t) ->
  v = NgIoh1 \/ v = NgIoh2 \/ v = NgIoh3 \/ v = NGDSRW \/ v = CSEC ->
  1 < n -> has_noise (t_info t) = false ->
  after_tell cma_vars exceeds_log depth v n t = Ok [(ADE, i_workers (t_info t))].
Proof.
  intros cv el depth v n t Hd U V N Hn.
  assert (NU : ~ unlucky v t) by (intros ([-> | ->] & _); intuition congruence).
  destruct (C97_selection cv el v t U NU) as (l & E & _). unfold after_tell. rewrite E by exact Hd. cbn [bind].
  assert (F : from_ngopt8 v = true) by (destruct V as [-> |[-> |[-> |[-> | ->]]]]; reflexivity).
  apply Nat.ltb_lt in N. rewrite F, N, Hn, orb_true_r. cbn [andb negb]. destruct depth; [lia|]. reflexivity.
Qed.
Print Assumptions C97_multiobjective.
Theorem C97_multiobjective_refuted :
  ~ (forall t, usable (t_info t) -> ordinary t -> after_tell vars no_log 14 CSEC11 2 t = Ok [(ADE, i_workers (t_info t))]).
Proof.
  intros H.
  assert (E : after_tell vars no_log 14 CSEC11 2 (problem 100 1 2 true) = Ok [(ACobyla, 1); (AElitistCMA, 1); (ASQP, 1)]) by (vm_compute; reflexivity).
  rewrite H in E; [discriminate E| |repeat split]. repeat split; cbn; try lia. exists 100. split; [reflexivity|lia].
Qed.
Print Assumptions C97_multiobjective_refuted.

(** C104: the search for a point which satisfies the constraints *)
From Coq Require Import List Arith QArith Bool Lia Lqa.
From Verif.Model Require Import Prelude MultiValue Archive Solver.
From Verif.Spec Require Import MultiValue Pruning Archive Solver.
From Verif.Proofs Require Import Prelude MultiValue Pruning Archive Solver.
Import ListNotations.
Open Scope nat_scope.

Section C104.
  Variable checkers : list (nat -> answer).
  Variable distance : nat -> Q.
  Variable propose : list (nat * nat * Q) -> nat * nat.
  Notation proposals budget := (solver_loop checkers distance propose budget []).
  (** The constraints are checked on at most [budget] points, and no more after a point which satisfies them; fewer points
      than [budget] are tried only if the last one satisfies them. *)
  Theorem C104_trials budget : length (proposals budget) <= budget /\
    (forall before t after, proposals budget = before ++ t :: after -> feasible checkers (t_key t) -> after = []) /\
    (length (proposals budget) < budget -> exists before t, proposals budget = before ++ [t] /\ feasible checkers (t_key t)).
  Proof.
    destruct (loop_shape checkers distance propose budget []) as (new & E & L & _ & D). cbn [app] in E. rewrite E. split; [exact L|]. split.
    - intros before t after Es Ft. apply penalty_feasible in Ft. destruct D as [(_ & D)|(new' & t' & D1 & D2 & _)].
      + exfalso. rewrite Es in D. apply Forall_app in D. destruct D as (_ & D). inversion D; subst. contradiction.
      + destruct (exists_last (l := t :: after)) as (pre & z & Ez); [discriminate|]. rewrite Ez in Es. rewrite D1, app_assoc in Es. apply app_inj_tail in Es. destruct Es as (Es & ->).
        destruct pre as [|p pre]; [cbn in Ez; congruence|]. cbn in Ez. injection Ez as <- Ez. exfalso. rewrite Es in D2. apply Forall_app in D2. destruct D2 as (_ & D2). inversion D2; subst. contradiction.
    - intros Ll. destruct D as [(D & _)|(new' & t' & D1 & _ & D3)]; [lia|]. exists new', t'. split; [exact D1|now apply penalty_feasible].
  Qed.
  Variable msqrt : Q -> Q.
  Variable pruning : list mv -> list (nat * nat) -> result (list (nat * nat)).
  Hypothesis Hprune : sub_pruning pruning.
  Hypothesis Hfresh : forall h, ~ In (fst (propose h)) (map t_cand h).
  Hypothesis Hdist : forall key, (0 <= distance key <= 1)%Q.
  (** If one of the tried points satisfies the constraints, that point is returned. For functions which are not
      deterministic, this needs all the tried points to be different. *)
  Theorem C104_feasible deterministic budget t : In t (proposals budget) -> feasible checkers (t_key t) ->
    (deterministic = true \/ NoDup (map t_key (proposals budget))) ->
    constraint_solver msqrt pruning checkers distance propose deterministic budget = Some (t_key t).
  Proof.
    intros Ht Ft D0. unfold constraint_solver. cbv zeta. pose proof (loop_distinct checkers distance propose Hfresh budget [] (NoDup_nil _)) as ND. unfold told in ND.
    destruct (loop_shape checkers distance propose budget []) as (new & E & L & F & D). cbn [app] in E. rewrite E in *. clear E L. apply penalty_feasible in Ft.
    destruct D as [(_ & D)|(new' & t' & D1 & D2 & D3)]; [rewrite Forall_forall in D; exfalso; exact (D t Ht Ft)|]. subst new.
    assert (t = t') as <-. { apply in_app_iff in Ht. destruct Ht as [Ht|[<-|[]]]; [|reflexivity]. rewrite Forall_forall in D2. exfalso. exact (D2 t Ht Ft). }
    assert (K : arch_recommend deterministic (arch_run msqrt pruning arch_init (new' ++ [t])) = Some (t_cand t)).
    { apply (found_recommended checkers distance Hdist msqrt pruning Hprune deterministic new' t D2 D3 F).
      destruct D0 as [D0|D0]; [now left|right]. rewrite map_app in D0. cbn [map] in D0. apply NoDup_remove in D0. rewrite app_nil_r in D0. apply D0. }
    pose proof (find_cand _ t ND Ht) as K2. unfold told in K, K2. rewrite K, K2. reflexivity.
  Qed.
  (** Otherwise the returned point is one of the tried points for which the violations of the constraints plus the distance
      to the original candidate are the smallest (for a deterministic function). *)
  Theorem C104_least budget : 0 < budget -> (forall t, In t (proposals budget) -> ~ feasible checkers (t_key t)) ->
    (forall t vs, In t (proposals budget) -> violations checkers (t_key t) vs -> (sum vs <= 9999999998)%Q) ->
    exists t, In t (proposals budget) /\ constraint_solver msqrt pruning checkers distance propose true budget = Some (t_key t) /\
      forall t' vs vs', In t' (proposals budget) -> violations checkers (t_key t) vs -> violations checkers (t_key t') vs' ->
        (sum vs + distance (t_key t) <= sum vs' + distance (t_key t'))%Q.
  Proof.
    intros Hb N Hr. assert (P : forall key vs, violations checkers key vs -> (penalty checkers key == sum vs)%Q).
    { intros key vs V. unfold penalty. assert (K : forall a, (fold_left (fun a f => a + penalty_of (f key))%Q checkers a == a + sum vs)%Q); [|rewrite K; lra].
      clear -V. induction V as [|f v fs vs V0 V IH]; intros a; cbn [fold_left sum fold_right]; [lra|]. rewrite IH. fold (sum vs). assert (E : (penalty_of (f key) == v)%Q).
      { destruct (f key) as [[]|q]; cbn [violation penalty_of] in *; [lra|lra|]. unfold qmin. destruct (qlt q 0) eqn:E; [apply qlt_iff in E|apply qlt_false in E]; lra. }
      rewrite E. lra. }
    assert (Ex : forall key, exists vs, violations checkers key vs).
    { intros key. clear. induction checkers as [|f fs (vs & IH)]; [exists []; constructor|]. exists (penalty_of (f key) :: vs). constructor; [|exact IH]. destruct (f key) as [[]|q]; cbn [violation penalty_of]; try lra. unfold qmin. destruct (qlt q 0) eqn:E; [apply qlt_iff in E; right|apply qlt_false in E; left]; lra. }
    pose proof (loop_distinct checkers distance propose Hfresh budget [] (NoDup_nil _)) as ND. unfold told in ND. unfold constraint_solver. cbv zeta.
    destruct (loop_shape checkers distance propose budget []) as (new & E & L & F & D). cbn [app] in E. rewrite E in *. clear E.
    destruct D as [(D1 & D2)|(new' & t' & D1 & _ & D3)]; [|exfalso; apply (N t'); [rewrite D1; apply in_app_iff; right; now left|now apply penalty_feasible]].
    assert (Ls : forall t, In t new -> t_loss t = (penalty checkers (t_key t) + distance (t_key t) + 1)%Q).
    { intros t Ht. rewrite Forall_forall in F, D2. rewrite (F t Ht). exact (proj1 (loss_unfeasible checkers distance Hdist (t_key t) (D2 t Ht))). }
    destruct (recommend_best msqrt pruning Hprune new) as (t & (Ht & Best) & R0).
    - intros ->. cbn in D1. lia.
    - exact ND.
    - unfold losses_in_range, in_range. rewrite Forall_forall. intros t Ht. rewrite (Ls t Ht). pose proof (Hdist (t_key t)). destruct (Ex (t_key t)) as (vs & V). pose proof (penalty_pos checkers (t_key t)). pose proof (Hr t vs Ht V). rewrite <- (P _ _ V) in H1. lra.
    - exists t. split; [exact Ht|]. pose proof (find_cand _ t ND Ht) as K2. unfold told in R0, K2. rewrite R0, K2. split; [reflexivity|]. intros t' vs vs' Ht' V V'. specialize (Best t' Ht'). rewrite (Ls t Ht), (Ls t' Ht') in Best. rewrite <- (P _ _ V), <- (P _ _ V'). lra.
  Qed.
End C104.
Print Assumptions C104_trials.
Print Assumptions C104_feasible.
Print Assumptions C104_least.

(** A point tried twice which violates the constraints, then one which satisfies them: the first one is returned for a function
    which is not deterministic (the square roots are only used at 0 and at 500000). *)
Definition ex_checker (key : nat) : answer := Holds (key =? 1).
Definition ex_propose (h : list (nat * nat * Q)) : nat * nat := (length h, if length h <? 2 then 0 else 1).
Theorem C104_noisy_refuted msqrt : (forall q, q == 0 -> msqrt q == 0)%Q -> (forall q, q == 500000 -> 700 <= msqrt q)%Q ->
  exists t, In t (solver_loop [ex_checker] (fun _ => 0%Q) ex_propose 3 []) /\ feasible [ex_checker] (t_key t) /\
  exists key, constraint_solver msqrt no_pruning [ex_checker] (fun _ => 0%Q) ex_propose false 3 = Some key /\ ~ feasible [ex_checker] key.
Proof.
  intros S0 S1. exists (2, 1, 0%Q). split; [vm_compute; auto|]. split; [intros f [<-|[]]; reflexivity|]. exists 0. split; [|intros H; specialize (H ex_checker (or_introl eq_refl)); discriminate H].
  unfold constraint_solver. cbv zeta. replace (solver_loop [ex_checker] (fun _ => 0%Q) ex_propose 3 []) with [(0, 0, (0 + 1 + 0 + 1)%Q); (1, 0, (0 + 1 + 0 + 1)%Q); (2, 1, 0%Q)] by reflexivity.
  set (y := (0 + 1 + 0 + 1)%Q). set (m := mv_add msqrt y (mv_new 0 y)).
  assert (Hs : st_heap (arch_run msqrt no_pruning arch_init [(0, 0, y); (1, 0, y); (2, 1, 0%Q)]) = [m; mv_new 2 0%Q] /\ st_bests (arch_run msqrt no_pruning arch_init [(0, 0, y); (1, 0, y)]) Pessimistic = Some 0 /\
    st_bests (arch_run msqrt no_pruning arch_init [(0, 0, y); (1, 0, y); (2, 1, 0%Q)]) Pessimistic = if qle (mv_pessimistic msqrt (mv_new 2 0%Q)) (mv_pessimistic msqrt m) then Some 1 else Some 0) by (split; [reflexivity|split; reflexivity]).
  destruct Hs as (Hh & _ & Hb). unfold arch_recommend. rewrite Hb, Hh.
  assert (Em : (mv_pessimistic msqrt m == 2)%Q).
  { unfold mv_pessimistic, mv_width. rewrite (S0 (mv_var m / (1 + qnat (mv_count m)))%Q); [reflexivity|]. unfold m. cbn [mv_add mv_new mv_var mv_count mv_square mv_mean].
    match goal with |- context[(?a * (qmax ?u ?v - ?w))%Q] => assert (Z : (qmax u v - w == 0)%Q) by reflexivity; rewrite Z end. unfold Qdiv. rewrite Qmult_0_r, Qmult_0_l. reflexivity. }
  assert (En : (70 <= mv_pessimistic msqrt (mv_new 2 0%Q))%Q) by (unfold mv_pessimistic, mv_width; cbn [mv_new mv_mean mv_var mv_count]; pose proof (S1 (1000000 / (1 + qnat 1))%Q eq_refl); lra).
  destruct (qle _ _) eqn:K; [apply qle_iff in K; rewrite Em in K; lra|reflexivity].
Qed.
Print Assumptions C104_noisy_refuted.

(** The hypotheses hold for this search, with different points. *)
Example ex_search : constraint_solver (fun q => q) (default_pruning (fun q => q) 10 100) [ex_checker; fun k => Margin (2 - qnat k)] (fun k => (1 # 2)%Q) (fun h => (length h, 4 - length h)) true 5 = Some 1 /\
  constraint_solver (fun q => q) (default_pruning (fun q => q) 10 100) [ex_checker; fun k => Margin (2 - qnat k)] (fun k => (1 # 2)%Q) (fun h => (length h, 4 - length h)) true 3 = Some 2 /\
  sub_pruning (default_pruning (fun q => q) 10 100).
Proof. split; [vm_compute; reflexivity|]. split; [vm_compute; reflexivity|]. apply default_pruning_sub. Qed.
(** Fresh uids: one more than all the others. *)
Example ex_fresh : let propose := fun h : list told => (S (list_max (map t_cand h)), 4 - length h) in
  (forall h, ~ In (fst (propose h)) (map t_cand h)) /\
  constraint_solver (fun q => q) no_pruning [ex_checker] (fun k => (1 # 2)%Q) propose false 5 = Some 1.
Proof.
  split; [|vm_compute; reflexivity]. intros h I. cbn [fst] in I. assert (K : Forall (fun k => k <= list_max (map t_cand h)) (map t_cand h)) by (apply list_max_le; lia). rewrite Forall_forall in K. specialize (K _ I). lia.
Qed.

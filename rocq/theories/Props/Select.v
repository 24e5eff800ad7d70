(** C74: the optimizer chosen by NGOpt and its relatives *)
From Coq Require Import List Arith ZArith QArith Bool Lia.
From Verif.Model Require Import Prelude MultiValue Chain Portfolio Select.
From Verif.Spec Require Import Select.
From Verif.Proofs Require Import Select.
Import ListNotations.
Open Scope nat_scope.

(** Every variant, for every problem with a budget, chooses optimizers which can all be created: nothing fails, none of
    them gets more workers than the problem, and those which work one point at a time get one worker. *)
Theorem C74_selection : forall cma_vars v i, usable i ->
  exists l, (forall depth, 10 <= depth -> create cma_vars depth (Ng v) i = Ok l) /\ sound (i_workers i) l.
Proof.
  intros cv v i U. destruct (every_works cv v i U) as (l & E & S). exists l. split; [|exact S].
  intros depth H. eapply create_mono; eauto.
Qed.
Print Assumptions C74_selection.

(** 4 + int(3 * np.log(d)) for a few dimensions *)
Definition vars (d : nat) : nat := match d with 1 => 4 | 2 => 6 | 10 => 10 | 20 => 12 | _ => 20 end.
Definition problem (b nw d : nat) (det bounded : bool) : info := Info (Some b) nw d true det true false (-1) true 0 bounded.
Example C74_selection_nontrivial :
  usable (problem 3000 4 2 true true) /\
  create vars 10 (Ng VRW) (problem 10001 1 20 true true) =
    Ok [(ARotatedTwoPointsDE, 1); (ATwoPointsDE, 1); (APSO, 1); (ACmaFmin2, 1)] /\
  create vars 10 (Ng V39) (problem 3000 8 10 false true) =
    Ok [(ADiagonalCMA, 3); (APSO, 3); (ARotatedTwoPointsDE, 3); (ATwoPointsDE, 3); (AOptimisticNoisy, 8)] /\
  create vars 10 (Ng V39) (problem 3000 4 2 true true) = Ok (repeat (ACMAbounded, 1) 7) /\
  create vars 10 (Ng VRW) (problem 3000 4 2 true true) =
    Ok ([(ARotatedTwoPointsDE, 2); (ATwoPointsDE, 2); (APSO, 2)] ++ repeat (ACMAbounded, 1) 5) /\
  create vars 10 (Ng VWiz) (problem 3000 1 10 true true) = Ok [(ACobyla, 1); (AElitistCMA, 1); (ASQP, 1)].
Proof. split; [repeat split; eauto; cbn; try lia; exists 3000; split; [reflexivity|lia]|]. vm_compute. auto. Qed.

(** With one variable and no noise, NGOpt never uses CMA-ES, whose package has no dimension 1. *)
Theorem C74_one_variable : forall cma_vars depth i l, cma_vars 1 = 4 -> usable i -> i_dim i = 1 -> has_noise i = false ->
  create cma_vars depth (Ng V39) i = Ok l -> forall a w, In (a, w) l -> ~ cma_es a.
Proof. exact v39_plain. Qed.
Print Assumptions C74_one_variable.
Example C74_one_variable_nontrivial :
  create vars 10 (Ng V39) (problem 3000 1 1 true true) = Ok [(AOnePlusOne, 1)] /\
  create vars 10 (Ng V39) (problem 700 200 1 true false) = Ok [(ANaiveTBPSA, 200)].
Proof. vm_compute. auto. Qed.
(** This is false with noise, and for older variants. *)
Theorem C74_one_variable_refuted :
  ~ (forall i l, usable i -> i_dim i = 1 -> create vars 10 (Ng V39) i = Ok l -> forall a w, In (a, w) l -> ~ cma_es a) /\
  ~ (forall i l, usable i -> i_dim i = 1 -> has_noise i = false -> create vars 10 (Ng V8) i = Ok l -> forall a w, In (a, w) l -> ~ cma_es a).
Proof.
  split; intros H.
  - refine (H (problem 100 1 1 false true) _ _ eq_refl eq_refl ADiagonalCMA 1 _ _); cbn; auto 10.
    repeat split; cbn; try lia. exists 100; split; [reflexivity|lia].
  - refine (H (problem 20 5 1 true true) _ _ eq_refl eq_refl eq_refl ADiagonalCMA 5 _ _); cbn; auto 10.
    repeat split; cbn; try lia. exists 20; split; [reflexivity|lia].
Qed.
Print Assumptions C74_one_variable_refuted.

(** MetaCMA, on a continuous problem without noise, with a budget and one objective: CMA-ES exactly when there are several
    variables. *)
Theorem C74_metacma : forall cma_vars depth i l, i_budget i <> None -> i_continuous i = true -> has_noise i = false -> i_objectives i < 2 ->
  create cma_vars depth (Ng VMetaCMA) i = Ok l -> l <> [] /\ forall a w, In (a, w) l -> (cma_es a <-> i_dim i <> 1).
Proof.
  intros cv depth i l Hb Hc Hn Ho E. destruct depth as [|depth]; [discriminate E|]. rewrite create_ng in E. apply bind_ok in E as (o & Po & E).
  unfold pick, pick_metacma in Po. destruct (i_budget i) as [b|]; [|contradiction]. rewrite Hc, Hn in Po. cbn [andb negb] in Po. destruct (Nat.ltb_spec (i_objectives i) 2); [|lia].
  assert (K : forall a, o = Leaf a -> l = [(a, i_workers i)]).
  { intros a ->. destruct depth as [|depth]; [discriminate E|]. cbn in E. repeat match type of E with (if ?b then _ else _) = _ => destruct b; [discriminate E|] end. now injection E as <-. }
  destruct (Nat.eqb_spec (i_dim i) 1) as [D|D].
  - injection Po as <-. rewrite (K _ eq_refl). split; [discriminate|]. intros a w [[= <- <-]|[]]. split; [|now intros]. intros C. repeat (destruct C as [C|C]; [discriminate C|]). destruct C.
  - destruct (i_bounded i); [|destruct (b <? 50); [destruct (i_dim i <=? 15)|destruct (20 <? i_workers i)]]; injection Po as <-; rewrite (K _ eq_refl); (split; [discriminate|]); intros a w [[= <- <-]|[]]; (split; [now intros|]); intros _; cbn; auto 10.
Qed.
Print Assumptions C74_metacma.
Example C74_metacma_nontrivial :
  create vars 10 (Ng VMetaCMA) (problem 3000 1 1 true true) = Ok [(AOnePlusOne, 1)] /\
  create vars 10 (Ng VMetaCMA) (problem 3000 30 5 true true) = Ok [(ACMAbounded, 30)].
Proof. vm_compute. auto. Qed.
(** Without a budget, NGOpt works exactly for continuous problems with noise and for discrete problems with an arity and
    no noise; for all the others the first [ask] raises an AssertionError. *)
Theorem C74_no_budget : forall cma_vars depth i, 10 <= depth -> 1 <= i_dim i -> 1 <= i_workers i -> i_budget i = None ->
  if i_continuous i then
    if has_noise i then exists l, create cma_vars depth (Ng V39) i = Ok l /\ sound (i_workers i) l
    else create cma_vars depth (Ng V39) i = Err AssertionError
  else
    if negb (has_noise i) && (0 <? i_arity i)%Z then create cma_vars depth (Ng V39) i = Ok [(ALengler, i_workers i)]
    else create cma_vars depth (Ng V39) i = Err AssertionError.
Proof.
  intros cv depth i H D W B.
  assert (N : forall j, i_budget j = None -> i_continuous j && has_noise j = false -> pick39 cv j = Ok (Ng V16)).
  { intros j Bj Nj. unfold pick39. rewrite Nj. unfold pick39_bounded, with_budget. rewrite Bj. reflexivity. }
  destruct depth as [|[|[|depth]]]; try lia.
  destruct (i_continuous i) eqn:C; [destruct (has_noise i) eqn:E|].
  - destruct (noisy_no_budget cv (inner (i_budget i) (i_workers i) i)) as (l & El & S); try assumption.
    exists l. split; [|exact S]. apply create_mono with (f := 5); [lia|].
    rewrite create_ng. unfold pick, pick39. rewrite C, E. exact El.
  - rewrite create_ng. unfold pick at 1. rewrite N by (rewrite ?C, ?E; auto). cbn [bind]. rewrite create_ng. cbn [pick].
    rewrite pick16_no_budget by exact B. unfold arity. cbn [inner i_continuous]. rewrite C, andb_false_r. reflexivity.
  - assert (F : create cv (Datatypes.S (Datatypes.S (Datatypes.S depth))) (Ng V39) i =
      if negb (has_noise i) && (0 <? i_arity i)%Z then Ok [(ALengler, i_workers i)] else Err AssertionError).
    { rewrite create_ng. unfold pick at 1. rewrite N by (rewrite ?C; auto). cbn [bind]. rewrite create_ng. cbn [pick].
      rewrite pick16_no_budget by exact B. unfold arity. cbn [inner i_continuous]. rewrite C. cbn [inner i_arity].
      change (has_noise (inner (i_budget i) (i_workers i) i)) with (has_noise i).
      change (i_arity (inner (i_budget i) (i_workers i) i)) with (i_arity i).
      destruct (negb (has_noise i) && (0 <? i_arity i)%Z); [|reflexivity]. cbn [bind]. rewrite create_leaf. reflexivity. }
    rewrite F. destruct (negb (has_noise i) && (0 <? i_arity i)%Z); reflexivity.
Qed.
Print Assumptions C74_no_budget.
Example C74_no_budget_nontrivial :
  create vars 10 (Ng V39) (Info None 2 10 true true true false (-1) true 0 false) = Err AssertionError /\
  create vars 10 (Ng V39) (Info None 3 10 true false true false (-1) true 0 false) =
    Ok [(ADiagonalCMA, 1); (APSO, 1); (ARotatedTwoPointsDE, 1); (ATwoPointsDE, 1); (AOptimisticNoisy, 3)] /\
  create vars 10 (Ng V39) (Info None 2 10 true true false true 4 true 0 false) = Ok [(ALengler, 2)].
Proof. vm_compute. auto. Qed.
Theorem C74_no_budget_refuted :
  ~ (forall v i, 1 <= i_dim i -> 1 <= i_workers i -> exists l, create vars 10 (Ng v) i = Ok l).
Proof.
  intros H. destruct (H V39 (Info None 2 10 true true true false (-1) true 0 false)) as (l & E); cbn; try lia.
  vm_compute in E. discriminate E.
Qed.
Print Assumptions C74_no_budget_refuted.

(** With a noisy function, NGOpt includes an optimizer which evaluates points again, if the parametrization is
    continuous, or has discrete variables without sampling, or is not metrizable. *)
Theorem C74_noise : forall cma_vars depth i l, usable i -> i_det i = false ->
  i_continuous i = true \/ i_disc i = true \/ i_metrizable i = false ->
  create cma_vars depth (Ng V39) i = Ok l -> exists a w, In (a, w) l /\ reevaluates a.
Proof.
  intros cv depth i l U R C E.
  assert (N : has_noise i = true) by (unfold has_noise; rewrite R, andb_false_r; reflexivity).
  destruct depth as [|depth]; [discriminate E|]. rewrite create_ng in E. apply bind_ok in E as (o & Po & E).
  unfold pick, pick39 in Po. rewrite N, andb_true_r in Po. destruct (i_continuous i) eqn:Ec.
  - injection Po as <-. destruct depth as [|depth]; [discriminate E|]. unfold noisy_mix in E. rewrite create_chain in E.
    unfold chain_budgets in E. cbn [map app zip_create] in E.
    apply bind_ok in E as (l1 & E1 & E). apply bind_ok in E as (l2 & E2 & E). apply bind_ok in E2 as (l3 & E3 & E2).
    destruct depth as [|depth]; [discriminate E3|]. rewrite create_leaf in E3. cbn [sequential andb] in E3. injection E3 as <-.
    cbn [bind] in E2. injection E2 as <-. injection E as <-.
    eexists _, _. split; [apply in_or_app; right; left; reflexivity|]. cbn; auto.
  - unfold pick39_bounded in Po. rewrite Ec in Po. cbn [andb] in Po. rewrite !andb_false_r in Po. cbn [andb] in Po. injection Po as <-.
    destruct depth as [|depth]; [discriminate E|]. rewrite create_ng in E. apply bind_ok in E as (o & Po & E).
    assert (o = Leaf (AOptimistic true) \/ o = Leaf (AOptimistic false)) as O.
    { unfold pick, pick16, pick15, pick12, pick10 in Po. cbn [inner i_continuous] in Po. 
      change (has_noise (inner (i_budget i) (i_workers i) i)) with (has_noise i) in Po.
      rewrite Ec, N in Po. rewrite !andb_false_r in Po. cbn [andb negb] in Po.
      unfold pick8 in Po. cbn [inner i_budget i_disc i_metrizable] in Po.
      change (has_noise (inner (i_budget i) (i_workers i) i)) with (has_noise i) in Po.
      destruct U as ((b & Eb & _) & _). rewrite Eb, N in Po.
      assert (i_disc i || negb (i_metrizable i) = true) as X.
      { destruct C as [C|[->| ->]]; [discriminate C|reflexivity|apply orb_true_r]. }
      rewrite X in Po. cbn [andb] in Po. destruct (10000 <? b); injection Po as <-; auto. }
    destruct depth as [|depth]; [discriminate E|].
    destruct O as [-> | ->]; rewrite create_leaf in E; cbn [sequential andb] in E; injection E as <-; eexists _, _; (split; [left; reflexivity|cbn; auto]).
Qed.
Print Assumptions C74_noise.
Example C74_noise_nontrivial :
  create vars 10 (Ng V39) (Info (Some 500) 3 10 true false false true 4 true 0 false) = Ok [(AOptimistic false, 3)].
Proof. reflexivity. Qed.
(** It is not so for integer variables (with rounding and without arity). *)
Theorem C74_noise_refuted :
  ~ (forall i l, usable i -> i_det i = false -> create vars 10 (Ng V39) i = Ok l -> exists a w, In (a, w) l /\ reevaluates a).
Proof.
  intros H. destruct (H (Info (Some 500) 3 10 true false false false (-1) true 0 false) [(ADoubleFastGA, 3)]) as (a & w & I & R).
  - repeat split; cbn; try lia. exists 500; split; [reflexivity|lia].
  - reflexivity.
  - reflexivity.
  - destruct I as [I|[]]. injection I as <- <-. cbn in R. repeat (destruct R as [R|R]; [discriminate R|]). contradiction.
Qed.
Print Assumptions C74_noise_refuted.

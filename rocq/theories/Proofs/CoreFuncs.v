(** Proofs about the test functions *)
From Coq Require Import Reals Lra Lia Psatz Arith ZArith QArith Bool List FinFun.
From Verif.Model Require Import Prelude CoreFuncs.
From Verif.Spec Require Import CoreFuncs.
From Verif.Proofs Require Import LayerValues.
Import ListNotations.
Open Scope R_scope.

(** ** Sums over the coordinates *)
Fixpoint mapi_from {A B} (k : nat) (f : nat -> A -> B) (l : list A) : list B :=
  match l with [] => [] | a :: l' => f k a :: mapi_from (S k) f l' end.
Lemma mapi_eq {A B} (f : nat -> A -> B) l : mapi f l = mapi_from 0 f l.
Proof.
  unfold mapi, indexed. generalize 0%nat. induction l as [|a l IH]; intros k; [reflexivity|].
  cbn [length seq combine map mapi_from]. now rewrite IH.
Qed.
Lemma map_mapi {A B} (f : A -> B) l k : map f l = mapi_from k (fun _ => f) l.
Proof. revert k. induction l as [|a l IH]; intros k; [reflexivity|]. cbn. now rewrite <- IH. Qed.
Lemma mapi_length {A B} (f : nat -> A -> B) l k : length (mapi_from k f l) = length l.
Proof. revert k. induction l as [|a l IH]; intros k; cbn; [reflexivity|now rewrite IH]. Qed.

Lemma sum_nonneg (g : nat -> R -> R) k x : (forall i a, (k <= i < k + length x)%nat -> 0 <= g i a) -> 0 <= rsum (mapi_from k g x).
Proof.
  revert k. induction x as [|a x IH]; intros k H; cbn [mapi_from rsum length] in *; [lra|].
  assert (0 <= g k a) by (apply H; lia). assert (0 <= rsum (mapi_from (S k) g x)) by (apply IH; intros; apply H; lia). lra.
Qed.
Lemma sum_zero (g : nat -> R -> R) c k x : (forall i a, (k <= i < k + length x)%nat -> 0 <= g i a) ->
  (forall i a, (k <= i < k + length x)%nat -> (g i a = 0 <-> a = c)) ->
  (rsum (mapi_from k g x) = 0 <-> x = constant c (length x)).
Proof.
  unfold constant. revert k. induction x as [|a x IH]; intros k H Z; cbn [mapi_from rsum length repeat] in *; [tauto|].
  assert (H1 : 0 <= g k a) by (apply H; lia).
  assert (H2 : forall i b, (S k <= i < S k + length x)%nat -> 0 <= g i b) by (intros; apply H; lia).
  assert (Z2 : forall i b, (S k <= i < S k + length x)%nat -> (g i b = 0 <-> b = c)) by (intros; apply Z; lia).
  pose proof (sum_nonneg g (S k) x H2) as H3. destruct (IH (S k) H2 Z2) as (I1 & I2). destruct (Z k a ltac:(lia)) as (Z3 & Z4). split.
  - intros E. rewrite Z3, <- I1 by lra. reflexivity.
  - intros E. injection E as E1 E2. rewrite (I2 E2), (Z4 E1). lra.
Qed.
Lemma sum_optimum (dims : nat -> Prop) (g : nat -> nat -> R -> R) c : (forall d i a, dims d -> (i < d)%nat -> 0 <= g d i a /\ (g d i a = 0 <-> a = c)) ->
  optimum dims (fun x => Ok (rsum (mapi (g (length x)) x))) (fun _ => 0) (constant c).
Proof.
  intros H d Hd. split; [apply repeat_length|]. intros x Hx. eexists. split; [reflexivity|]. rewrite mapi_eq. rewrite Hx. split.
  - apply sum_nonneg. intros i a Hi. apply H; [exact Hd|lia].
  - rewrite <- Hx at 2. apply sum_zero; intros i a Hi; apply H; try exact Hd; lia.
Qed.
Lemma optimum_ext (dims : nat -> Prop) f g v w opt opt' : (forall d, dims d -> forall x, length x = d -> f x = g x) -> (forall d, dims d -> v d = w d) ->
  (forall d, dims d -> opt d = opt' d) -> optimum dims f v opt -> optimum dims g w opt'.
Proof.
  intros Hf Hv Ho H d Hd. rewrite <- (Ho d Hd), <- (Hv d Hd). destruct (H d Hd) as (L & G). split; [exact L|].
  intros x Hx. rewrite <- (Hf d Hd x Hx). apply G. exact Hx.
Qed.

Lemma sq_zero a : a * a = 0 <-> a = 0.
Proof. split; [intros H; nra|intros ->; lra]. Qed.
Lemma sphere_nonneg x : 0 <= sphere x.
Proof. unfold sphere. rewrite (map_mapi _ _ 0). apply sum_nonneg. intros. nra. Qed.
Lemma sphere_zero x : sphere x = 0 <-> x = constant 0 (length x).
Proof. unfold sphere. rewrite (map_mapi _ _ 0). apply sum_zero; intros; [nra|apply sq_zero]. Qed.
Lemma constant_app c n m : constant c n ++ constant c m = constant c (n + m).
Proof. unfold constant. now rewrite <- repeat_app. Qed.
Lemma constant_rev c n : rev (constant c n) = constant c n.
Proof.
  unfold constant. induction n as [|n IH]; [reflexivity|]. cbn [repeat rev]. rewrite IH.
  change [c] with (repeat c 1). rewrite <- repeat_app. now rewrite Nat.add_1_r.
Qed.
Lemma rev_constant c x : rev x = constant c (length x) <-> x = constant c (length x).
Proof.
  assert (P : forall y : list R, y = constant c (length x) -> rev y = constant c (length x)) by (intros y ->; apply constant_rev).
  split; intros H; [|now apply P]. apply P in H. now rewrite rev_involutive in H.
Qed.

Lemma optimum_sphere : optimum all_dims (fun x => Ok (sphere x)) (fun _ => 0) (constant 0).
Proof.
  intros d _. split; [apply repeat_length|]. intros x <-. eexists. split; [reflexivity|]. split; [apply sphere_nonneg|apply sphere_zero].
Qed.
Lemma optimum_sphere_from c : optimum all_dims (fun x => Ok (sphere_from c x)) (fun _ => 0) (constant c).
Proof.
  apply optimum_ext with (f := fun x => Ok (rsum (mapi (fun _ a => (a - c) * (a - c)) x))) (v := fun _ => 0) (opt := constant c); auto.
  - intros d _ x _. unfold sphere_from, sphere. now rewrite map_map, mapi_eq, <- map_mapi.
  - apply (sum_optimum all_dims (fun _ _ a => (a - c) * (a - c))). intros d i a _ _. cbv beta. split; [apply Rle_0_sqr|]. rewrite sq_zero. split; lra.
Qed.
Lemma optimum_cigar : optimum (from_dim 1) cigar (fun _ => 0) (constant 0).
Proof.
  intros d Hd. unfold from_dim in Hd. split; [apply repeat_length|]. intros x Hx. destruct x as [|a l]; [cbn in Hx; lia|]. cbn [cigar].
  eexists. split; [reflexivity|]. pose proof (sphere_nonneg l). pose proof (sphere_zero l) as Z. split; [nra|].
  subst d. cbn [length constant repeat]. split.
  - intros E. assert (Ha : a * a = 0) by nra. assert (Hl : sphere l = 0) by nra. apply (proj1 (sq_zero a)) in Ha. apply (proj1 Z) in Hl. subst a. unfold constant. cbn. now rewrite Hl at 1.
  - intros E. unfold constant in E. cbn in E. injection E as -> E. apply (proj2 Z) in E. rewrite E. lra.
Qed.
Lemma optimum_discus : optimum (from_dim 1) discus (fun _ => 0) (constant 0).
Proof.
  intros d Hd. unfold from_dim in Hd. split; [apply repeat_length|]. intros x Hx. destruct x as [|a l]; [cbn in Hx; lia|]. cbn [discus].
  eexists. split; [reflexivity|]. pose proof (sphere_nonneg l). pose proof (sphere_zero l) as Z. split; [nra|].
  subst d. cbn [length constant repeat]. split.
  - intros E. assert (Ha : a * a = 0) by nra. assert (Hl : sphere l = 0) by nra. apply (proj1 (sq_zero a)) in Ha. apply (proj1 Z) in Hl. subst a. unfold constant. cbn. now rewrite Hl at 1.
  - intros E. unfold constant in E. cbn in E. injection E as -> E. apply (proj2 Z) in E. rewrite E. lra.
Qed.
Lemma optimum_rev (dims : nat -> Prop) f v c : optimum dims f v (constant c) -> optimum dims (fun x => f (rev x)) v (constant c).
Proof.
  intros H d Hd. destruct (H d Hd) as (L & G). split; [exact L|]. intros x Hx.
  destruct (G (rev x)) as (r & E1 & E2 & E3); [now rewrite rev_length|]. exists r. split; [exact E1|]. split; [exact E2|].
  rewrite E3. subst d. apply rev_constant.
Qed.
Lemma sum_rev l : rsum (rev l) = rsum l.
Proof.
  assert (A : forall a b, rsum (a ++ b) = rsum a + rsum b) by (induction a as [|u a IH]; intros b; cbn; [lra|rewrite IH; lra]).
  induction l as [|a l IH]; cbn; [reflexivity|]. rewrite A, IH. cbn. lra.
Qed.
Lemma optimum_altcigar : optimum (from_dim 1) altcigar (fun _ => 0) (constant 0).
Proof.
  apply optimum_ext with (f := fun x => cigar (rev x)) (v := fun _ => 0) (opt := constant 0); auto.
  - intros d _ x _. unfold altcigar, cigar. destruct (rev x); [reflexivity|]. unfold sphere. now rewrite map_rev, sum_rev.
  - apply optimum_rev, optimum_cigar.
Qed.
Lemma weight_pos d i : 0 < weight d i.
Proof. unfold weight. destruct (_ =? _)%nat; [lra|apply exp_pos]. Qed.
Lemma scaled_square w a : 0 < w -> 0 <= w * (a * a) /\ (w * (a * a) = 0 <-> a = 0).
Proof.
  intros H. assert (0 <= a * a) by nra. split; [nra|]. rewrite <- (sq_zero a). split; [intros E; apply Rmult_integral in E as [E|E]; lra|intros E; rewrite E; lra].
Qed.
Lemma optimum_ellipsoid : optimum all_dims (fun x => Ok (ellipsoid x)) (fun _ => 0) (constant 0).
Proof.
  apply (sum_optimum all_dims (fun d i a => weight d i * (a * a))). intros d i a _ _. apply scaled_square, weight_pos.
Qed.
Lemma optimum_altellipsoid : optimum all_dims (fun x => Ok (altellipsoid x)) (fun _ => 0) (constant 0).
Proof. apply (optimum_rev all_dims (fun x => Ok (ellipsoid x))), optimum_ellipsoid. Qed.

(** multimodal *)
Lemma rsum_map_plus {A} (f g : A -> R) l : rsum (map (fun a => f a + g a) l) = rsum (map f l) + rsum (map g l).
Proof. induction l as [|a l IH]; cbn; [lra|rewrite IH; lra]. Qed.
Lemma rsum_map_scale {A} c (f : A -> R) l : rsum (map (fun a => c * f a) l) = c * rsum (map f l).
Proof. induction l as [|a l IH]; cbn; [lra|rewrite IH; lra]. Qed.
Lemma rsum_map_const {A} c (l : list A) : rsum (map (fun _ => c) l) = c * INR (length l).
Proof. induction l as [|a l IH]; [cbn; lra|]. cbn [map rsum length]. rewrite IH, S_INR. lra. Qed.
Lemma rastrigin_sum x : rastrigin x = rsum (map (fun a => 10 * (1 - cos (2 * PI * a)) + a * a) x).
Proof.
  unfold rastrigin, sphere. rewrite rsum_map_plus, rsum_map_scale. f_equal. f_equal.
  replace (map (fun a => 1 - cos (2 * PI * a)) x) with (map (fun a => 1 + (-1) * cos (2 * PI * a)) x) by (apply map_ext; intros; lra).
  rewrite rsum_map_plus, rsum_map_const, rsum_map_scale. lra.
Qed.
Lemma rastrigin_term a : 0 <= 10 * (1 - cos (2 * PI * a)) + a * a /\ (10 * (1 - cos (2 * PI * a)) + a * a = 0 <-> a = 0).
Proof.
  pose proof (COS_bound (2 * PI * a)) as (_ & H). split; [nra|]. split; [intros E; apply sq_zero; nra|].
  intros ->. replace (2 * PI * 0) with 0 by lra. rewrite cos_0. lra.
Qed.
Lemma optimum_rastrigin : optimum all_dims (fun x => Ok (rastrigin x)) (fun _ => 0) (constant 0).
Proof.
  apply optimum_ext with (f := fun x => Ok (rsum (mapi (fun _ a => 10 * (1 - cos (2 * PI * a)) + a * a) x))) (v := fun _ => 0) (opt := constant 0); auto.
  - intros d _ x _. now rewrite rastrigin_sum, mapi_eq, <- map_mapi.
  - apply (sum_optimum all_dims (fun _ _ a => 10 * (1 - cos (2 * PI * a)) + a * a)). intros d i a _ _. apply rastrigin_term.
Qed.
Lemma mapi_constant {A B} (f : nat -> A -> B) x c c' k : (forall i a, f i a = c' <-> a = c) ->
  (mapi_from k f x = repeat c' (length x) <-> x = repeat c (length x)).
Proof.
  intros H. revert k. induction x as [|a x IH]; intros k; cbn [mapi_from length repeat]; [tauto|].
  split; intros E; injection E as E1 E2.
  - apply H in E1. apply IH in E2. now rewrite E1, E2 at 1.
  - f_equal; [now apply H|now apply IH].
Qed.
Lemma optimum_mapi (dims : nat -> Prop) f (g : nat -> nat -> R -> R) c c' : optimum dims f (fun _ => 0) (constant c') -> (forall d i a, g d i a = c' <-> a = c) ->
  optimum dims (fun x => f (mapi (g (length x)) x)) (fun _ => 0) (constant c).
Proof.
  intros H Hg d Hd. destruct (H d Hd) as (_ & G). split; [apply repeat_length|]. intros x Hx.
  destruct (G (mapi (g (length x)) x)) as (r & E1 & E2 & E3); [now rewrite mapi_eq, mapi_length|].
  exists r. split; [exact E1|]. split; [exact E2|]. rewrite E3, mapi_eq. subst d. apply mapi_constant. intros i a. apply Hg.
Qed.
Lemma optimum_weaken (dims dims' : nat -> Prop) f v opt : (forall d, dims' d -> dims d) -> optimum dims f v opt -> optimum dims' f v opt.
Proof. intros H G d Hd. apply G, H, Hd. Qed.
Lemma Rpower_pos a b : 0 < Rpower a b.
Proof. apply exp_pos. Qed.
Lemma optimum_bucherastrigin : optimum (from_dim 2) bucherastrigin (fun _ => 0) (constant 0).
Proof.
  apply optimum_ext with (f := fun x => Ok (rastrigin (mapi (bucher (length x)) x))) (v := fun _ => 0) (opt := constant 0); auto.
  - intros d Hd x Hx. unfold from_dim in Hd. unfold bucherastrigin. destruct (Nat.eqb_spec (length x) 1); [lia|reflexivity].
  - apply (optimum_mapi (from_dim 2) (fun x => Ok (rastrigin x)) bucher 0 0).
    + eapply optimum_weaken; [|apply optimum_rastrigin]. now intros.
    + intros d i a. unfold bucher. pose proof (Rpower_pos 10 ((INR i - 1) / (2 * (INR d - 1)))) as P. split; [|intros ->; lra].
      intros E. apply Rmult_integral in E as [E|E]; [|lra]. apply Rmult_integral in E as [E|E]; [exact E|].
      destruct (Rlt_dec 0 a); [destruct (Nat.odd i)|]; lra.
Qed.
Lemma optimum_bentcigar : optimum (from_dim 2) bentcigar (fun _ => 0) (constant 0).
Proof.
  apply optimum_ext with (f := fun x => cigar (mapi (bent (length x)) x)) (v := fun _ => 0) (opt := constant 0); auto.
  - intros d Hd x Hx. unfold from_dim in Hd. destruct x as [|a [|b l]]; cbn in Hx; [lia|lia|reflexivity].
  - apply optimum_mapi with (c' := 0).
    + eapply optimum_weaken; [|apply optimum_cigar]. unfold from_dim. intros. lia.
    + intros d i a. unfold bent. destruct (Rlt_dec 0 a) as [H|H]; [|tauto].
      split; [|lra]. intros E. pose proof (Rpower_pos a (1 + 1 / 2 * sqrt a * (INR i - 1) / (INR d - 1))). lra.
Qed.
Lemma optimum_schwefel : optimum all_dims (fun x => Ok (schwefel_1_2 x)) (fun _ => 0) (constant 0).
Proof.
  intros d _. split; [apply repeat_length|]. intros x Hx. eexists. split; [reflexivity|]. split; [apply sphere_nonneg|].
  unfold schwefel_1_2. rewrite sphere_zero. subst d.
  assert (L : forall acc, length (cumsum acc x) = length x) by (induction x as [|a x IH]; intros acc; cbn; auto).
  rewrite L. clear L. unfold constant.
  induction x as [|a x IH]; cbn [cumsum length repeat]; [tauto|]. split; intros E; injection E as E1 E2.
  - assert (a = 0) by lra. subst a. f_equal. apply IH. now replace 0 with (0 + 0) at 1 by lra.
  - subst a. f_equal; [lra|]. replace (0 + 0) with 0 by lra. now apply IH.
Qed.
Lemma squares_zero u v s : 0 <= s -> 100 * (u * u) + v * v + s = 0 -> u = 0 /\ v = 0 /\ s = 0.
Proof.
  intros Hs E. pose proof (Rle_0_sqr u) as H1. pose proof (Rle_0_sqr v) as H2. unfold Rsqr in *.
  split; [apply sq_zero; lra|]. split; [apply sq_zero; lra|lra].
Qed.
Lemma optimum_rosenbrock : optimum (from_dim 2) (fun x => Ok (rosenbrock x)) (fun _ => 0) (constant 1).
Proof.
  assert (N : forall x, 0 <= rosenbrock x).
  { induction x as [|a [|b l] IH]; [cbn; lra|cbn; lra|].
    change (rosenbrock (a :: b :: l)) with (100 * ((a * a - b) * (a * a - b)) + (a - 1) * (a - 1) + rosenbrock (b :: l)).
    pose proof (Rle_0_sqr (a * a - b)) as H1. pose proof (Rle_0_sqr (a - 1)) as H2. unfold Rsqr in *. lra. }
  assert (Z : forall l a b, rosenbrock (a :: b :: l) = 0 <-> a = 1 /\ b = 1 /\ l = repeat 1 (length l)).
  { induction l as [|c l IH]; intros a b.
    - cbn [rosenbrock length repeat]. split; [intros E|intros (-> & -> & _); lra].
      apply squares_zero in E as (E1 & E2 & _); [|lra]. assert (a = 1) by lra. subst a. split; [reflexivity|]. split; [lra|reflexivity].
    - specialize (IH b c). pose proof (N (b :: c :: l)) as Hn. remember (rosenbrock (b :: c :: l)) as s eqn:Es.
      change (rosenbrock (a :: b :: c :: l)) with (100 * ((a * a - b) * (a * a - b)) + (a - 1) * (a - 1) + rosenbrock (b :: c :: l)).
      rewrite <- Es. cbn [length repeat]. split.
      + intros E. apply squares_zero in E as (E1 & E2 & H); [|exact Hn]. destruct (proj1 IH H) as (-> & -> & E3). split; [lra|]. split; [reflexivity|]. now rewrite <- E3.
      + intros (-> & -> & E3). injection E3 as -> E3. rewrite (proj2 IH); [lra|auto]. }
  intros d Hd. unfold from_dim in Hd. split; [apply repeat_length|]. intros x Hx. eexists. split; [reflexivity|]. split; [apply N|].
  destruct x as [|a [|b l]]; cbn in Hx; [lia|lia|]. subst d. rewrite Z. cbn [constant repeat]. split.
  - intros (-> & -> & E). unfold constant. cbn. now rewrite <- E.
  - intros E. unfold constant in E. cbn in E. injection E as -> -> E. auto.
Qed.

(** ** Ackley, Griewank, Lunacek *)
Lemma cos_sum_le {A} (f : A -> R) l : rsum (map (fun a => cos (f a)) l) <= INR (length l).
Proof.
  induction l as [|a l IH]; [cbn; lra|]. cbn [map rsum length]. rewrite S_INR. pose proof (COS_bound (f a)). lra.
Qed.
Lemma sum_constant f c n : rsum (map f (constant c n)) = INR n * f c.
Proof. unfold constant. induction n as [|n IH]; [cbn; lra|]. cbn [repeat map rsum]. rewrite IH, S_INR. lra. Qed.
Lemma sphere_constant c n : sphere (constant c n) = INR n * (c * c).
Proof. apply (sum_constant (fun a => a * a)). Qed.
Lemma exp_le a b : a <= b -> exp a <= exp b.
Proof. intros [H| ->]; [left; now apply exp_increasing|lra]. Qed.
Lemma optimum_ackley : optimum (from_dim 1) ackley (fun _ => 0) (constant 0).
Proof.
  intros d Hd. unfold from_dim in Hd. split; [apply repeat_length|]. intros x Hx.
  assert (L : 0 < INR d) by (apply lt_0_INR; lia).
  assert (E0 : ackley x = Ok (- 20 * exp (- (2 / 10) * sqrt (sphere x / INR d)) - exp (rsum (map (fun a => cos (2 * PI * a)) x) / INR d) + 20 + exp 1)).
  { unfold ackley. rewrite Hx. destruct x; [cbn in Hx; lia|reflexivity]. }
  rewrite E0. clear E0. eexists. split; [reflexivity|].
  pose proof (sphere_nonneg x) as N. pose proof (cos_sum_le (fun a => 2 * PI * a) x) as C. rewrite Hx in C.
  assert (C1 : rsum (map (fun a => cos (2 * PI * a)) x) / INR d <= 1).
  { apply Rmult_le_reg_r with (INR d); [exact L|]. unfold Rdiv. rewrite Rmult_assoc, Rinv_l; lra. }
  apply exp_le in C1. set (e1 := exp (_ / _)) in *.
  assert (Hq : 0 <= sphere x / INR d) by (apply Rmult_le_pos; [exact N|left; now apply Rinv_0_lt_compat]).
  pose proof (sqrt_pos (sphere x / INR d)) as Hs.
  assert (E1 : exp (- (2 / 10) * sqrt (sphere x / INR d)) <= 1) by (rewrite <- exp_0; apply exp_le; lra).
  split; [lra|]. split; intros H.
  - subst d. apply sphere_zero. destruct (Rle_lt_or_eq_dec _ _ N) as [N1|]; [exfalso|auto].
    assert (P : 0 < sqrt (sphere x / INR (length x))) by (apply sqrt_lt_R0, Rdiv_lt_0_compat; lra).
    assert (exp (- (2 / 10) * sqrt (sphere x / INR (length x))) < 1) by (rewrite <- exp_0; apply exp_increasing; lra). lra.
  - subst x. assert (Z : sphere (constant 0 d) = 0) by (rewrite sphere_constant; lra). rewrite Z.
    unfold e1. rewrite sum_constant. replace (2 * PI * 0) with 0 by lra. rewrite cos_0.
    replace (INR d * 1 / INR d) with 1 by (field; lra). replace (0 / INR d) with 0 by (unfold Rdiv; lra). rewrite sqrt_0.
    replace (- (2 / 10) * 0) with 0 by lra. rewrite exp_0. lra.
Qed.
Lemma prod_bound l : Forall (fun a => Rabs a <= 1) l -> Rabs (rprod l) <= 1.
Proof.
  induction 1 as [|a l H _ IH]; cbn [rprod]; [rewrite Rabs_R1; lra|]. rewrite Rabs_mult.
  pose proof (Rabs_pos a). pose proof (Rabs_pos (rprod l)). nra.
Qed.
Lemma optimum_griewank : optimum all_dims (fun x => Ok (griewank x)) (fun _ => 0) (constant 0).
Proof.
  intros d _. split; [apply repeat_length|]. intros x Hx. eexists. split; [reflexivity|]. unfold griewank. rewrite mapi_eq.
  assert (P : rprod (mapi_from 0 (fun i a => cos (a / sqrt (1 + INR i))) x) <= 1).
  { eapply Rle_trans; [apply Rle_abs|]. apply prod_bound. generalize 0%nat. clear. induction x as [|a x IH]; intros k; constructor; [|apply IH].
    apply Rabs_le. pose proof (COS_bound (a / sqrt (1 + INR k))). lra. }
  pose proof (sphere_nonneg x) as N. split; [lra|]. split; intros H.
  - subst d. apply sphere_zero. lra.
  - subst x. rewrite sphere_constant.
    assert (E : rprod (mapi_from 0 (fun i a => cos (a / sqrt (1 + INR i))) (constant 0 d)) = 1).
    { unfold constant. generalize 0%nat. clear. induction d as [|d IH]; intros k; [reflexivity|]. cbn [repeat mapi_from rprod]. rewrite IH.
      replace (0 / sqrt (1 + INR k)) with 0 by (unfold Rdiv; lra). rewrite cos_0. lra. }
    rewrite E. lra.
Qed.
Lemma optimum_lunacek : optimum all_dims (fun x => Ok (lunacek x)) (fun _ => 0) (constant (25 / 10)).
Proof.
  intros d _. split; [apply repeat_length|]. intros x Hx. eexists. split; [reflexivity|]. unfold lunacek. rewrite Hx.
  set (mu2 := - sqrt _). clearbody mu2.
  assert (F : 0 <= rsum (map (fun a => (a - 25 / 10) * (a - 25 / 10)) x)) by (rewrite (map_mapi _ _ 0); apply sum_nonneg; intros; apply Rle_0_sqr).
  assert (Z : rsum (map (fun a => (a - 25 / 10) * (a - 25 / 10)) x) = 0 <-> x = constant (25 / 10) d).
  { subst d. rewrite (map_mapi _ _ 0). apply sum_zero; intros; [apply Rle_0_sqr|]. rewrite sq_zero. split; lra. }
  assert (S : 0 <= rsum (map (fun a => (a - mu2) * (a - mu2)) x)) by (rewrite (map_mapi _ _ 0); apply sum_nonneg; intros; apply Rle_0_sqr).
  assert (T : 0 <= rsum (map (fun a => 1 - cos (2 * PI * (a - 25 / 10))) x)).
  { rewrite (map_mapi _ _ 0). apply sum_nonneg. intros i a _. pose proof (COS_bound (2 * PI * (a - 25 / 10))). lra. }
  assert (D : 0 <= INR d) by apply pos_INR.
  set (f := rsum (map (fun a => (a - 25 / 10) * (a - 25 / 10)) x)) in *. set (s := rsum (map (fun a => (a - mu2) * (a - mu2)) x)) in *.
  assert (M : 0 <= Rmin f (1 * INR d + s)) by (apply Rmin_glb; lra). split; [lra|]. split; intros H.
  - destruct d as [|d]; [destruct x; [reflexivity|discriminate]|]. apply Z. rewrite S_INR in *. pose proof (pos_INR d).
    assert (E : Rmin f (1 * (INR d + 1) + s) = 0) by lra. unfold Rmin in E. destruct (Rle_dec f (1 * (INR d + 1) + s)); lra.
  - pose proof (proj2 Z H) as E. rewrite E, Rmin_left by lra. rewrite H, sum_constant.
    replace (2 * PI * (25 / 10 - 25 / 10)) with 0 by lra. rewrite cos_0. lra.
Qed.

(** ** Several peaks *)
Lemma fold_min_le (f : nat -> R) l v : fold_left (fun v a => Rmin v (f a)) l v <= v /\ (forall a, In a l -> fold_left (fun v a => Rmin v (f a)) l v <= f a).
Proof.
  revert v. induction l as [|b l IH]; intros v; cbn [fold_left]; [split; [lra|easy]|]. destruct (IH (Rmin v (f b))) as (H1 & H2).
  pose proof (Rmin_l v (f b)). pose proof (Rmin_r v (f b)). split; [lra|]. intros a [<-|Ha]; [lra|now apply H2].
Qed.
Lemma fold_min_in (f : nat -> R) l v : let r := fold_left (fun v a => Rmin v (f a)) l v in r = v \/ exists a, In a l /\ r = f a.
Proof.
  revert v. induction l as [|b l IH]; intros v; cbn [fold_left] in *; [now left|]. destruct (IH (Rmin v (f b))) as [H|(a & Ha & H)].
  - rewrite H. unfold Rmin. destruct (Rle_dec v (f b)); [now left|right; exists b; cbn; auto].
  - right. exists a. cbn. auto.
Qed.
Lemma minus_zero x y : length x = length y -> minus x y = constant 0 (length x) <-> x = y.
Proof.
  unfold minus, constant. revert y. induction x as [|a x IH]; intros [|b y] L; try discriminate; [cbn; tauto|]. cbn [combine map length repeat fst snd].
  injection L as L. specialize (IH y L). split; intros H; injection H as H1 H2.
  - f_equal; [lra|now apply IH].
  - f_equal; [lra|now apply IH].
Qed.
Lemma minus_length x y : length x = length y -> length (minus x y) = length x.
Proof. intros L. unfold minus. rewrite map_length, combine_length. lia. Qed.
Lemma peak_length a d : length (peak a d) = d.
Proof. unfold peak. now rewrite map_length, seq_length. Qed.
Lemma optimum_multipeak : optimum all_dims (fun x => Ok (multipeak x)) (fun _ => 1) (peak 0).
Proof.
  intros d _. split; [apply peak_length|]. intros x Hx. eexists. split; [reflexivity|]. unfold multipeak. rewrite Hx.
  set (f := fun a => INR a / 101 + exp (Rmin 100 (sphere (minus x (peak a d))))).
  assert (E1 : forall a, 1 <= exp (Rmin 100 (sphere (minus x (peak a d))))).
  { intros a. rewrite <- exp_0 at 1. apply exp_le, Rmin_glb; [lra|apply sphere_nonneg]. }
  assert (F : forall a, INR a / 101 + 1 <= f a) by (intros a; unfold f; specialize (E1 a); lra).
  change (fold_left _ (seq 0 101) 10000) with (fold_left (fun v a => Rmin v (f a)) (seq 0 101) 10000).
  set (r := fold_left _ (seq 0 101) 10000).
  assert (G : r <= f 0%nat) by (apply (proj2 (fold_min_le f (seq 0 101) 10000)); apply in_seq; lia).
  assert (Z : x = peak 0 d -> f 0%nat = 1).
  { intros E. unfold f. assert (M : minus x (peak 0 d) = constant 0 (length x)) by (apply minus_zero; [now rewrite peak_length|exact E]).
    rewrite M, sphere_constant, Rmin_right by lra. replace (INR (length x) * (0 * 0)) with 0 by lra. rewrite exp_0. cbn [INR]. lra. }
  destruct (fold_min_in f (seq 0 101) 10000) as [H|(a & Ha & H)]; fold r in H; cbv beta in H.
  - split; [lra|]. split; [lra|]. intros E. apply Z in E. lra.
  - pose proof (pos_INR a) as Pa. specialize (F a). split; [lra|]. split; [|intros E; apply Z in E; lra].
    intros E. destruct a as [|a]; [|rewrite S_INR in F; pose proof (pos_INR a); lra].
    assert (S : sphere (minus x (peak 0 d)) = 0).
    { unfold f in H. cbn [INR] in H. pose proof (sphere_nonneg (minus x (peak 0 d))) as N.
      destruct (Rle_lt_or_eq_dec _ _ N) as [N1|]; [exfalso|auto].
      assert (exp 0 < exp (Rmin 100 (sphere (minus x (peak 0 d))))) by (apply exp_increasing, Rmin_glb_lt; lra).
      rewrite exp_0 in *. lra. }
    apply sphere_zero in S. rewrite minus_length in S by (now rewrite peak_length). apply (proj1 (minus_zero x (peak 0 d) ltac:(now rewrite peak_length))); exact S.
Qed.
Lemma optimum_minusgenz : optimum all_dims (fun x => Ok (minusgenzgaussianpeakintegral x)) (fun _ => -1) (constant 0).
Proof.
  intros d _. split; [apply repeat_length|]. intros x Hx. eexists. split; [reflexivity|]. unfold minusgenzgaussianpeakintegral, genzgaussianpeakintegral.
  pose proof (sphere_nonneg x) as N. assert (E : exp (- sphere x / 4) <= 1) by (rewrite <- exp_0; apply exp_le; lra). split; [lra|].
  subst d. rewrite <- sphere_zero. split; intros H.
  - destruct (Rle_lt_or_eq_dec _ _ N) as [N1|]; [exfalso|auto].
    assert (exp (- sphere x / 4) < exp 0) by (apply exp_increasing; lra). rewrite exp_0 in *. lra.
  - rewrite H. replace (- 0 / 4) with 0 by lra. rewrite exp_0. lra.
Qed.

(** ** Deceptive functions *)
Lemma distance_zero a b : sqrt (a * a + b * b) = 0 <-> a = 0 /\ b = 0.
Proof.
  pose proof (Rle_0_sqr a) as Ha. pose proof (Rle_0_sqr b) as Hb. unfold Rsqr in *. split.
  - intros H. apply sqrt_eq_0 in H; [|lra]. split; apply sq_zero; lra.
  - intros (-> & ->). replace (0 * 0 + 0 * 0) with 0 by lra. apply sqrt_0.
Qed.
Lemma deceptive_value whole a b l : exists r, deceptive whole (a :: b :: l) = Ok r /\ 0 <= r /\ (r = 0 <-> a = 0 /\ b = 0) /\ (r = 1 \/ r = sqrt (a * a + b * b)).
Proof.
  unfold deceptive. pose proof (sqrt_pos (a * a + b * b)) as P. pose proof (distance_zero a b) as Z.
  destruct (Req_EM_T (sqrt (a * a + b * b)) 0) as [E|E].
  - exists 0. split; [reflexivity|]. split; [lra|]. split; [tauto|]. right. now rewrite E.
  - destruct (Rlt_dec _ _); eexists; (split; [reflexivity|]).
    + split; [lra|]. split; [|now left]. split; [lra|]. intros H. tauto.
    + split; [lra|]. split; [exact Z|now right].
Qed.
Lemma illcond_value a b l : a <> 0 -> exists r, deceptiveillcond (a :: b :: l) = Ok (RTransforms.Fin r) /\ 0 < r.
Proof.
  intros H. unfold deceptiveillcond. destruct (Req_EM_T a 0) as [E|E]; [easy|]. eexists. split; [reflexivity|].
  assert (P : 0 < sqrt (a * a + b * b)).
  { pose proof (sqrt_pos (a * a + b * b)) as P. destruct P as [P|P]; [exact P|]. symmetry in P. apply distance_zero in P. tauto. }
  set (s := sqrt _) in *. set (t := Rabs _). set (u := if Rlt_dec 0 a then 1 else 0).
  pose proof (Rmax_r t s). pose proof (Rmax_l (Rmax t s) u). lra.
Qed.
Lemma illcond_near e l : 0 < e -> deceptiveillcond (- e :: 0 :: l) = Ok (RTransforms.Fin e).
Proof.
  intros H. unfold deceptiveillcond. destruct (Req_EM_T (- e) 0) as [E|E]; [lra|]. do 2 f_equal.
  replace (0 / - e) with 0 by (field; lra). rewrite atan_0, Rabs_R0. replace (- e * - e + 0 * 0) with (e * e) by lra.
  rewrite sqrt_square by lra. destruct (Rlt_dec 0 (- e)); [lra|]. rewrite (Rmax_right 0 e) by lra. now rewrite Rmax_left by lra.
Qed.

(** ** Steps *)
Lemma Int_part_spec r : IZR (Int_part r) <= r < IZR (Int_part r) + 1.
Proof. destruct (base_Int_part r). lra. Qed.
Lemma Int_part_mono r s : r <= s -> (Int_part r <= Int_part s)%Z.
Proof.
  intros H. pose proof (Int_part_spec r). pose proof (Int_part_spec s). apply Z.lt_succ_r, lt_IZR. rewrite succ_IZR. lra.
Qed.
Lemma trunc_mono r s : r <= s -> (trunc r <= trunc s)%Z.
Proof.
  intros H. unfold trunc. destruct (Rle_dec 0 r) as [Hr|Hr], (Rle_dec 0 s) as [Hs|Hs]; try lra.
  - now apply Int_part_mono.
  - pose proof (Int_part_mono 0 s Hs) as H1. pose proof (Int_part_mono 0 (- r) ltac:(lra)) as H2.
    assert (Int_part 0 = 0%Z). { pose proof (Int_part_spec 0) as (A & B). apply Z.le_antisymm; [apply le_IZR; exact A|apply Z.lt_succ_r, lt_IZR; rewrite succ_IZR; lra]. } lia.
  - pose proof (Int_part_mono (- s) (- r) ltac:(lra)). lia.
Qed.
Lemma tiny_pos : 0 < tiny.
Proof. apply Rpower_pos. Qed.
Lemma step_pos s : 0 < step s.
Proof. apply exp_pos. Qed.
Lemma step_mono r s : (r = 0 \/ tiny <= r) -> (s = 0 \/ tiny <= s) -> r <= s -> step r <= step s.
Proof.
  intros Hr Hs H. pose proof tiny_pos as T. unfold step.
  set (r' := if Req_EM_T r 0 then tiny else r). set (s' := if Req_EM_T s 0 then tiny else s).
  assert (0 < r' <= s').
  { unfold r', s'. destruct (Req_EM_T r 0), (Req_EM_T s 0); lra. }
  apply exp_le, IZR_le, trunc_mono. destruct (Req_dec r' s') as [->|]; [lra|]. left. apply ln_increasing; lra.
Qed.
Lemma step_above s : 1 <= s -> s / exp 1 < step s <= s.
Proof.
  intros H. unfold step. destruct (Req_EM_T s 0); [lra|]. assert (L : 0 <= ln s) by (rewrite <- ln_1; destruct H as [H| <-]; [left; apply ln_increasing; lra|lra]).
  unfold trunc. destruct (Rle_dec 0 (ln s)); [|lra]. pose proof (Int_part_spec (ln s)) as (A & B).
  replace s with (exp (ln s)) at 1 by (apply exp_ln; lra). replace s with (exp (ln s)) at 4 by (apply exp_ln; lra).
  unfold Rdiv. rewrite <- exp_Ropp, <- exp_plus. split; [apply exp_increasing; lra|now apply exp_le].
Qed.
Lemma step_below s : 0 < s < 1 -> s <= step s < exp 1 * s.
Proof.
  intros H. unfold step. destruct (Req_EM_T s 0); [lra|]. assert (L : ln s < 0) by (rewrite <- ln_1; apply ln_increasing; lra).
  unfold trunc. destruct (Rle_dec 0 (ln s)); [lra|]. pose proof (Int_part_spec (- ln s)) as (A & B). rewrite opp_IZR.
  replace s with (exp (ln s)) at 1 by (apply exp_ln; lra). replace s with (exp (ln s)) at 4 by (apply exp_ln; lra).
  rewrite <- exp_plus. split; [apply exp_le; lra|apply exp_increasing; lra].
Qed.
Lemma step_plateau s : / exp 1 < s < exp 1 -> step s = 1.
Proof.
  intros (H1 & H2). assert (P : 0 < / exp 1) by (apply Rinv_0_lt_compat, exp_pos). unfold step. destruct (Req_EM_T s 0); [lra|].
  assert (L1 : - 1 < ln s) by (replace (- 1) with (ln (/ exp 1)) by (rewrite <- exp_Ropp; apply ln_exp); apply ln_increasing; lra).
  assert (L2 : ln s < 1) by (replace 1 with (ln (exp 1)) by apply ln_exp; apply ln_increasing; lra).
  assert (Z : forall r, 0 <= r < 1 -> Int_part r = 0%Z).
  { intros r Hr. pose proof (Int_part_spec r) as (A & B). assert (IZR (Int_part r) < 1) by lra. assert (- 1 < IZR (Int_part r)) by lra.
    assert (Int_part r < 1)%Z by now apply lt_IZR. assert (-1 < Int_part r)%Z by now apply lt_IZR. lia. }
  unfold trunc. destruct (Rle_dec 0 (ln s)); rewrite Z by lra; cbn; apply exp_0.
Qed.

(** ** Styblinski-Tang *)
Lemma st0_term a : 0 <= a * a * (a * a) + (5 * a - 16 * (a * a)) + 7833234 / 100000.
Proof.
  pose proof (Rle_0_sqr (a * a - 843050972 / 100000000)) as H1. pose proof (Rle_0_sqr (a + 2903534 / 1000000)) as H2. unfold Rsqr in *. nra.
Qed.
Lemma st0_bound x : - (18 / 100000) * INR (length x) <= st0 x.
Proof.
  unfold st0. induction x as [|a x IH]; [cbn; lra|]. cbn [length map rsum]. rewrite S_INR. pose proof (st0_term a). lra.
Qed.
(** ** Values on the axes *)
Lemma axis_sum (g : nat -> R) i n : forall k, rsum (mapi_from k (fun j a => g j * (a * a)) (map (fun k => if (k =? i)%nat then 1 else 0) (seq k n))) =
  if ((k <=? i) && (i <? k + n))%nat%bool then g i else 0.
Proof.
  induction n as [|n IH]; intros k; cbn [seq map mapi_from rsum].
  - destruct (Nat.leb_spec k i), (Nat.ltb_spec i (k + 0)); cbn [andb]; try lia; reflexivity.
  - rewrite IH. destruct (Nat.eqb_spec k i) as [E|E]; [subst i|];
      match goal with |- context [(S k <=? ?i)%nat] => destruct (Nat.leb_spec (S k) i), (Nat.leb_spec k i), (Nat.ltb_spec i (S k + n)), (Nat.ltb_spec i (k + S n)) end;
      cbn [andb]; try lia; lra.
Qed.
Lemma axis_length d i : length (axis d i) = d.
Proof. unfold axis. now rewrite map_length, seq_length. Qed.
Lemma ellipsoid_axis d i : (i < d)%nat -> ellipsoid (axis d i) = weight d i.
Proof.
  intros H. unfold ellipsoid. rewrite axis_length, mapi_eq. unfold axis. rewrite (axis_sum (weight d)).
  destruct (Nat.leb_spec 0 i), (Nat.ltb_spec i (0 + d)); cbn [andb]; try lia; reflexivity.
Qed.
Lemma axis_rev d i : (i < d)%nat -> rev (axis d i) = axis d (d - 1 - i).
Proof.
  intros H. apply nth_ext with (d := 0) (d' := 0); [now rewrite rev_length, !axis_length|]. intros k Hk. rewrite rev_length, axis_length in Hk.
  rewrite rev_nth by (rewrite axis_length; lia). rewrite axis_length. unfold axis.
  assert (G : forall e n, (n < d)%nat -> nth n (map (fun k => if (k =? e)%nat then 1 else 0) (seq 0 d)) 0 = if (n =? e)%nat then 1 else 0).
  { intros e n Hn. rewrite nth_indep with (d' := (fun k => if (k =? e)%nat then 1 else 0) 0%nat) by (rewrite map_length, seq_length; lia).
    rewrite (map_nth (fun k => if (k =? e)%nat then 1 else 0) (seq 0 d)), seq_nth by lia. reflexivity. }
  rewrite !G by lia. destruct (Nat.eqb_spec (d - S k) i), (Nat.eqb_spec k (d - 1 - i)); try lia; reflexivity.
Qed.
Lemma sphere_axis i n k : sphere (map (fun k => if (k =? i)%nat then 1 else 0) (seq k n)) = if ((k <=? i) && (i <? k + n))%nat%bool then 1 else 0.
Proof.
  rewrite <- (axis_sum (fun _ => 1)). unfold sphere. rewrite (map_mapi _ _ k). f_equal.
  generalize (map (fun k => if (k =? i)%nat then 1 else 0) (seq k n)). intros l. revert k. induction l as [|a l IH]; intros k; cbn [mapi_from]; [reflexivity|].
  f_equal; [lra|apply IH].
Qed.
Lemma cigar_axis d i : (i < d)%nat -> cigar (axis d i) = Ok (if (i =? 0)%nat then 1 else 1000000).
Proof.
  intros H. destruct d as [|d]; [lia|]. unfold axis. cbn [seq map cigar]. rewrite sphere_axis. f_equal.
  destruct (Nat.eqb_spec 0 i), (Nat.eqb_spec i 0), (Nat.leb_spec 1 i), (Nat.ltb_spec i (1 + d)); cbn [andb]; try lia; lra.
Qed.
Lemma discus_axis d i : (i < d)%nat -> discus (axis d i) = Ok (if (i =? 0)%nat then 1000000 else 1).
Proof.
  intros H. destruct d as [|d]; [lia|]. unfold axis. cbn [seq map discus]. rewrite sphere_axis. f_equal.
  destruct (Nat.eqb_spec 0 i), (Nat.eqb_spec i 0), (Nat.leb_spec 1 i), (Nat.ltb_spec i (1 + d)); cbn [andb]; try lia; lra.
Qed.
Lemma sphere_rev x : sphere (rev x) = sphere x.
Proof.
  unfold sphere. induction x as [|a x IH]; [reflexivity|]. cbn [rev]. rewrite map_app. cbn [map rsum].
  assert (A : forall u v, rsum (u ++ v) = rsum u + rsum v) by (intros u v; induction u as [|b u IH']; cbn; [lra|rewrite IH'; lra]).
  rewrite A, IH. cbn. lra.
Qed.
Lemma altcigar_rev x : altcigar x = cigar (rev x).
Proof. unfold altcigar, cigar. destruct (rev x); [reflexivity|]. now rewrite sphere_rev. Qed.
Lemma weight_first d : weight d 0 = 1.
Proof. unfold weight. destruct (d =? 1)%nat; [reflexivity|]. cbn [INR]. rewrite Rmult_0_r. unfold Rdiv. rewrite Rmult_0_l. apply Rpower_O. lra. Qed.
Lemma weight_last d : (2 <= d)%nat -> weight d (d - 1) = 1000000.
Proof.
  intros H. unfold weight. destruct (Nat.eqb_spec d 1); [lia|]. rewrite minus_INR by lia. cbn [INR].
  assert (2 <= INR d) by (change 2 with (INR 2); now apply le_INR). replace (6 * (INR d - 1) / (INR d - 1)) with (INR 6) by (cbn [INR]; field; lra).
  rewrite Rpower_pow by lra. lra.
Qed.
Lemma weight_step d i : (2 <= d)%nat -> weight d i * weight d (S (S i)) = weight d (S i) * weight d (S i).
Proof.
  intros H. unfold weight. destruct (Nat.eqb_spec d 1); [lia|]. rewrite <- !Rpower_plus. f_equal. rewrite !S_INR.
  assert (2 <= INR d) by (change 2 with (INR 2); now apply le_INR). field. lra.
Qed.

(** ** Functions without a minimum, or with a degenerate one *)
Lemma bent_far a : 16 <= a -> exists r, bentcigar [a; 0] = Ok r /\ 0 < r <= / (a * a).
Proof.
  intros H. unfold bentcigar, mapi, indexed. cbn [length seq combine map fst snd cigar]. eexists. split; [reflexivity|].
  unfold bent. destruct (Rlt_dec 0 a); [|lra]. destruct (Rlt_dec 0 0); [lra|].
  assert (S4 : 4 <= sqrt a) by (replace 4 with (sqrt (4 * 4)) by (apply sqrt_square; lra); apply sqrt_le_1; lra).
  set (p := 1 + 1 / 2 * sqrt a * (INR 0 - 1) / (INR 2 - 1)).
  assert (Hp : p <= - 1). { unfold p. cbn [INR]. replace (1 + 1 - 1) with 1 by lra. unfold Rdiv. rewrite Rinv_1. lra. }
  assert (E : Rpower a p <= / a).
  { replace (/ a) with (Rpower a (Ropp 1)) by (rewrite Rpower_Ropp, Rpower_1; lra). apply Rle_Rpower; lra. }
  pose proof (Rpower_pos a p) as P. unfold sphere. cbn [map rsum]. rewrite Rinv_mult. split; nra.
Qed.
Lemma hm_positive x r : x <> [] -> hm x = RTransforms.Fin r -> 0 < r.
Proof.
  unfold hm. intros Hx H. destruct (existsb _ x) eqn:E; [discriminate|]. injection H as <-.
  assert (Z : Forall (fun a => a <> 0) x).
  { apply Forall_forall. intros a Ha ->. assert (T : existsb (fun a => if Req_EM_T a 0 then true else false) x = true).
    { apply existsb_exists. exists 0. split; [exact Ha|]. now destruct (Req_EM_T 0 0). } congruence. }
  clear E. assert (T : forall a, a <> 0 -> 0 < a * a * (11 / 10 + cos (1 / a))).
  { intros a Ha. pose proof (COS_bound (1 / a)). assert (0 < a * a) by nra. nra. }
  destruct x as [|a x]; [easy|]. inversion_clear Z as [|? ? Z1 Z2]. cbn [map rsum]. specialize (T a Z1) as Ta.
  enough (0 <= rsum (map (fun a => a * a * (11 / 10 + cos (1 / a))) x)) by lra. clear - Z2 T.
  induction Z2 as [|b l Hb _ IH]; cbn [map rsum]; [lra|]. specialize (T b Hb). lra.
Qed.
Lemma hm_defined x : (exists r, hm x = RTransforms.Fin r) <-> ~ In 0 x.
Proof.
  unfold hm. split.
  - intros (r & H) Hi. destruct (existsb _ x) eqn:E; [discriminate|].
    assert (T : existsb (fun a => if Req_EM_T a 0 then true else false) x = true).
    { apply existsb_exists. exists 0. split; [exact Hi|]. now destruct (Req_EM_T 0 0). } congruence.
  - intros Hi. destruct (existsb _ x) eqn:E; [|eauto]. exfalso. apply existsb_exists in E as (a & Ha & E).
    destruct (Req_EM_T a 0) as [->|]; [easy|discriminate].
Qed.
Lemma tanh_bounds a : - 1 < tanh a < 1.
Proof.
  unfold tanh, sinh, cosh. pose proof (exp_pos a). pose proof (exp_pos (- a)).
  replace ((exp a - exp (- a)) / 2 / ((exp a + exp (- a)) / 2)) with ((exp a - exp (- a)) / (exp a + exp (- a))) by (field; lra).
  split.
  - apply Rmult_lt_reg_r with (exp a + exp (- a)); [lra|]. unfold Rdiv. rewrite Rmult_assoc, Rinv_l by lra. lra.
  - apply Rmult_lt_reg_r with (exp a + exp (- a)); [lra|]. unfold Rdiv. rewrite Rmult_assoc, Rinv_l by lra. lra.
Qed.
Lemma tanh_increasing a b : a < b -> tanh a < tanh b.
Proof.
  intros H.
  assert (E : forall x, tanh x = 1 - 2 / (exp (2 * x) + 1)).
  { intros x. unfold tanh, sinh, cosh. replace (2 * x) with (x + x) by lra. rewrite exp_plus, exp_Ropp. pose proof (exp_pos x). field. split; nra. }
  rewrite !E. assert (G : exp (2 * a) < exp (2 * b)) by (apply exp_increasing; lra). pose proof (exp_pos (2 * a)).
  assert (/ (exp (2 * b) + 1) < / (exp (2 * a) + 1)) by (apply Rinv_lt_contravar; nra). unfold Rdiv. lra.
Qed.
Lemma tanh_sum_bounds y : y <> [] -> - INR (length y) < rsum (map tanh y) < INR (length y).
Proof.
  induction y as [|a [|b l] IH]; intros H; [easy| |].
  - cbn. pose proof (tanh_bounds a). lra.
  - specialize (IH ltac:(easy)). remember (b :: l) as m. cbn [length map rsum]. rewrite S_INR. pose proof (tanh_bounds a). lra.
Qed.
Lemma corner_value y : y <> [] -> exists r, genzcornerpeak y = Ok r /\ (/ 2) ^ (length y + 1) < r.
Proof.
  intros H. pose proof (tanh_sum_bounds y H) as B. assert (L : 0 < INR (length y)) by (apply lt_0_INR; destruct y; [easy|cbn; lia]).
  assert (V : 0 < 1 + rsum (map tanh y) / INR (length y) < 2).
  { assert (- 1 < rsum (map tanh y) / INR (length y) < 1); [|lra]. unfold Rdiv. split; apply Rmult_lt_reg_r with (INR (length y)); try exact L; rewrite Rmult_assoc, Rinv_l; lra. }
  exists (/ (1 + rsum (map tanh y) / INR (length y)) ^ (length y + 1)). split; [unfold genzcornerpeak; destruct y; easy|].
  set (v := 1 + _) in *. rewrite <- Rinv_pow by lra. apply Rinv_lt_contravar.
  - apply Rmult_lt_0_compat; apply pow_lt; lra.
  - assert (P : forall n, v ^ S n < 2 ^ S n).
    { induction n as [|n IH]; [cbn; lra|]. change (v * v ^ S n < 2 * 2 ^ S n). assert (0 < v ^ S n) by (apply pow_lt; lra). nra. }
    rewrite Nat.add_1_r. apply P.
Qed.
Lemma step_origin x : tiny <= ellipsoid x \/ ellipsoid x = 0 -> stepellipsoid (constant 0 (length x)) <= stepellipsoid x.
Proof.
  intros H. unfold stepellipsoid. destruct (optimum_ellipsoid (length x) I) as (_ & G).
  destruct (G (constant 0 (length x)) (repeat_length _ _)) as (r & E & _ & Z). injection E as E. assert (r = 0) by now apply Z. subst r. rewrite H0.
  apply step_mono; [now left|tauto|]. destruct H; [pose proof tiny_pos; lra|lra].
Qed.

(** ** Discrete functions *)
Lemma round_rounds q n : Layers.round_half_even q = n <-> rounds q n.
Proof.
  assert (A : rounds q (Layers.round_half_even q)).
  { unfold rounds. destruct (round_bounds q) as (B1 & B2). set (r := Layers.round_half_even q) in *.
    destruct (Qlt_le_dec (inject_Z r - (1 # 2)) q) as [H1|H1]; [destruct (Qlt_le_dec q (inject_Z r + (1 # 2))) as [H2|H2]; [now left|]|]; right.
    - assert (E : (q == inject_Z r + (1 # 2))%Q) by (apply Qle_antisym; [lra|exact H2]). split; [now right|].
      pose proof (round_tie q r E) as T. fold r in T. destruct (Z.even r) eqn:Ev; [reflexivity|lia].
    - assert (E : (q == inject_Z (r - 1) + (1 # 2))%Q) by (unfold Z.sub; rewrite inject_Z_plus, inject_Z_opp; change (inject_Z 1) with 1%Q; lra).
      split; [left; lra|]. pose proof (round_tie q _ E) as T. fold r in T. destruct (Z.even (r - 1)) eqn:Ev; [lia|].
      replace r with (Z.succ (r - 1)) by lia. rewrite Z.even_succ, <- Z.negb_even, Ev. reflexivity. }
  split; [now intros <-|]. intros B. set (r := Layers.round_half_even q) in *.
  assert (L : forall a b, (inject_Z a <= inject_Z b + 1)%Q -> (a <= b + 1)%Z).
  { intros a b H. rewrite Zle_Qle. rewrite inject_Z_plus. exact H. }
  assert (L' : forall a b, (inject_Z a < inject_Z b + 1)%Q -> (a < b + 1)%Z).
  { intros a b H. rewrite Zlt_Qlt. rewrite inject_Z_plus. exact H. }
  unfold rounds in A, B.
  assert (C : (r = n \/ (r <= n + 1 /\ n <= r + 1 /\ Z.even r = true /\ Z.even n = true))%Z).
  { destruct A as [(A1 & A2)|([A1|A1] & A3)], B as [(B1 & B2)|([B1|B1] & B3)];
      try (left; assert (r < n + 1)%Z by (apply L'; lra); assert (n < r + 1)%Z by (apply L'; lra); lia);
      right; (split; [apply L; lra|]; split; [apply L; lra|]; auto). }
  destruct C as [C|(C1 & C2 & C3 & C4)]; [exact C|]. apply Z.even_spec in C3, C4. destruct C3 as (u & Hu), C4 as (v & Hv). lia.
Qed.
Definition bad (arity i : nat) (q : Q) : bool := negb (Z.eqb (Layers.round_half_even q) (Z.of_nat (i mod arity))).
Lemma wrong_nth arity x i : nth_error (wrong arity x) i = option_map (bad arity i) (nth_error x i).
Proof.
  unfold wrong. change (map _ (indexed x)) with (mapi (bad arity) x). rewrite mapi_eq.
  enough (G : forall k, nth_error (mapi_from k (bad arity) x) i = option_map (bad arity (k + i)) (nth_error x i)) by apply (G 0%nat).
  revert i. induction x as [|a x IH]; intros [|i] k; cbn [mapi_from nth_error option_map]; try reflexivity.
  - now rewrite Nat.add_0_r.
  - rewrite IH. now rewrite Nat.add_succ_r.
Qed.
Lemma wrong_length arity x : length (wrong arity x) = length x.
Proof. unfold wrong, indexed. rewrite map_length, combine_length, seq_length. lia. Qed.
Lemma wrong_false arity x i : nth_error (wrong arity x) i = Some false <-> correct arity x i.
Proof.
  rewrite wrong_nth. unfold correct, bad. split.
  - destruct (nth_error x i) as [q|]; [|discriminate]. cbn. intros [= H]. exists q. split; [reflexivity|].
    apply negb_false_iff, Z.eqb_eq in H. now apply round_rounds.
  - intros (q & -> & H). cbn. apply round_rounds in H. now rewrite H, Z.eqb_refl.
Qed.
Lemma wrong_true arity x i : nth_error (wrong arity x) i = Some true <-> (i < length x)%nat /\ ~ correct arity x i.
Proof.
  rewrite <- wrong_false, <- (wrong_length arity x), <- nth_error_Some. destruct (nth_error (wrong arity x) i) as [[|]|]; split.
  - intros _. split; [easy|intros H; discriminate].
  - reflexivity.
  - discriminate.
  - intros (_ & H). now exfalso.
  - discriminate.
  - intros (H & _). now exfalso.
Qed.
Lemma filter_positions (l : list bool) : exists p, NoDup p /\ length p = length (filter (fun b => b) l) /\ forall i, In i p <-> nth_error l i = Some true.
Proof.
  induction l as [|b l (p & N & L & I)].
  - exists []. split; [constructor|]. split; [reflexivity|]. intros [|i]; split; [intros []|discriminate|intros []|discriminate].
  - assert (N' : NoDup (map S p)) by (apply FinFun.Injective_map_NoDup; [intros u v; lia|exact N]).
    assert (I' : forall i, In (S i) (map S p) <-> nth_error l i = Some true).
    { intros i. rewrite <- I, in_map_iff. split; [intros (j & [= ->] & Hj); exact Hj|eauto]. }
    assert (Z : ~ In 0%nat (map S p)) by (rewrite in_map_iff; intros (j & ? & _); discriminate).
    destruct b.
    + exists (0%nat :: map S p). split; [now constructor|]. cbn. rewrite map_length, L. split; [reflexivity|].
      intros [|i]; cbn; [tauto|]. rewrite <- I'. split; [intros [H|H]; [discriminate|exact H]|tauto].
    + exists (map S p). split; [exact N'|]. cbn. rewrite map_length, L. split; [reflexivity|].
      intros [|i]; cbn; [split; [tauto|discriminate]|apply I'].
Qed.
Lemma onemax_mistakes arity x : exists k, mistakes arity x k /\ onemax arity x = Z.of_nat k.
Proof.
  destruct (filter_positions (wrong arity x)) as (p & N & L & I). exists (length p). split.
  - exists p. split; [exact N|]. split; [reflexivity|]. intros i. rewrite I. apply wrong_true.
  - unfold onemax. now rewrite L.
Qed.
Lemma mistakes_unique arity x k m : mistakes arity x k -> mistakes arity x m -> k = m.
Proof.
  intros (p & Np & <- & Ip) (q & Nq & <- & Iq). apply Nat.le_antisymm; apply NoDup_incl_length; try assumption; intros i Hi.
  - apply Iq, Ip, Hi.
  - apply Ip, Iq, Hi.
Qed.
Lemma mistakes_zero arity x : mistakes arity x 0 <-> target arity x.
Proof.
  split.
  - intros (l & _ & L & I) i Hi. destruct l; [|discriminate]. apply wrong_false.
    destruct (nth_error (wrong arity x) i) as [[|]|] eqn:E; [|reflexivity|].
    + apply wrong_true, I in E. destruct E.
    + apply nth_error_None in E. rewrite wrong_length in E. lia.
  - intros T. exists []. split; [constructor|]. split; [reflexivity|]. intros i. split; [intros []|]. intros (Hi & H). now apply H, T.
Qed.
Lemma mistakes_le arity x k : mistakes arity x k -> (k <= length x)%nat.
Proof.
  intros (l & N & <- & I). rewrite <- (seq_length (length x) 0). apply NoDup_incl_length; [exact N|]. intros i Hi. apply in_seq.
  apply I in Hi. lia.
Qed.
Lemma first_wrong_spec l k : first_wrong l = Some k -> nth_error l k = Some true /\ forall j, (j < k)%nat -> nth_error l j = Some false.
Proof.
  revert k. induction l as [|[|] l IH]; intros k; cbn; [discriminate| |].
  - intros [= <-]. split; [reflexivity|lia].
  - destruct (first_wrong l) as [m|]; [|discriminate]. intros [= <-]. destruct (IH m eq_refl) as (A & B). split; [exact A|].
    intros [|j] Hj; [reflexivity|]. apply B. lia.
Qed.
Lemma first_wrong_none l : first_wrong l = None -> forall j, (j < length l)%nat -> nth_error l j = Some false.
Proof.
  induction l as [|[|] l IH]; cbn; [lia|discriminate|]. destruct (first_wrong l); [discriminate|]. intros _ [|j] Hj; [reflexivity|].
  apply IH; [reflexivity|lia].
Qed.
Lemma leadingones_prefix arity x : exists k, correct_prefix arity x k /\ leadingones arity x = (Z.of_nat (length x) - Z.of_nat k)%Z.
Proof.
  unfold leadingones, correct_prefix. destruct (first_wrong (wrong arity x)) as [k|] eqn:E.
  - apply first_wrong_spec in E as (A & B). apply wrong_true in A as (A1 & A2). exists k. split; [|reflexivity]. split; [lia|].
    split; [intros i Hi; now apply wrong_false, B|now right].
  - exists (length x). split; [|lia]. split; [lia|]. split; [|now left]. intros i Hi. apply wrong_false, first_wrong_none; [exact E|]. now rewrite wrong_length.
Qed.

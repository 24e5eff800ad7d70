(** * C83: what the test functions of nevergrad/functions/corefuncs.py are minimised by *)
From Coq Require Import Reals Lra Lia Psatz Arith ZArith QArith Bool List.
From Verif.Model Require Import Prelude CoreFuncs.
From Verif.Model Require RTransforms.
From Verif.Spec Require Import CoreFuncs.
From Verif.Proofs Require Import CoreFuncs.
Import ListNotations.
Open Scope R_scope.

(** ** Functions with one optimum, at the origin, where the value is 0: in each dimension and over all vectors *)
Theorem C83_sphere : optimum all_dims (fun x => Ok (sphere x)) (fun _ => 0) (constant 0).
Proof. exact optimum_sphere. Qed.
Print Assumptions C83_sphere.
Theorem C83_ill_conditioned :
  optimum (from_dim 1) cigar (fun _ => 0) (constant 0) /\
  optimum (from_dim 1) altcigar (fun _ => 0) (constant 0) /\
  optimum (from_dim 1) discus (fun _ => 0) (constant 0) /\
  optimum (from_dim 2) bentcigar (fun _ => 0) (constant 0) /\
  optimum all_dims (fun x => Ok (ellipsoid x)) (fun _ => 0) (constant 0) /\
  optimum all_dims (fun x => Ok (altellipsoid x)) (fun _ => 0) (constant 0) /\
  optimum all_dims (fun x => Ok (schwefel_1_2 x)) (fun _ => 0) (constant 0).
Proof.
  exact (conj optimum_cigar (conj optimum_altcigar (conj optimum_discus (conj optimum_bentcigar (conj optimum_ellipsoid
        (conj optimum_altellipsoid optimum_schwefel)))))).
Qed.
Print Assumptions C83_ill_conditioned.
(** Their conditioning: the values on the canonical basis. All are between 1 and 10^6; those of the ellipsoid are in
    geometric progression, and the "alt" versions read the coordinates backwards. *)
Theorem C83_conditioning : forall d, (2 <= d)%nat ->
  ellipsoid (axis d 0) = 1 /\ ellipsoid (axis d (d - 1)) = 1000000 /\
  (forall i, (i + 2 < d)%nat -> ellipsoid (axis d i) * ellipsoid (axis d (i + 2)) = ellipsoid (axis d (i + 1)) * ellipsoid (axis d (i + 1))) /\
  (forall i, (i < d)%nat -> altellipsoid (axis d i) = ellipsoid (axis d (d - 1 - i))) /\
  (forall i, (i < d)%nat -> cigar (axis d i) = Ok (if (i =? 0)%nat then 1 else 1000000)) /\
  (forall i, (i < d)%nat -> altcigar (axis d i) = Ok (if (i =? d - 1)%nat then 1 else 1000000)) /\
  (forall i, (i < d)%nat -> discus (axis d i) = Ok (if (i =? 0)%nat then 1000000 else 1)).
Proof.
  intros d H. rewrite !ellipsoid_axis by lia. split; [apply weight_first|]. split; [now apply weight_last|].
  split; [intros i Hi; rewrite !ellipsoid_axis by lia; replace (i + 2)%nat with (S (S i)) by lia; replace (i + 1)%nat with (S i) by lia; now apply weight_step|].
  split; [intros i Hi; unfold altellipsoid; now rewrite axis_rev|]. split; [intros; now apply cigar_axis|].
  split; [|intros; now apply discus_axis]. intros i Hi. rewrite altcigar_rev, axis_rev, cigar_axis by lia.
  destruct (Nat.eqb_spec (d - 1 - i) 0), (Nat.eqb_spec i (d - 1)); try lia; reflexivity.
Qed.
Print Assumptions C83_conditioning.
Theorem C83_multimodal :
  optimum all_dims (fun x => Ok (rastrigin x)) (fun _ => 0) (constant 0) /\
  optimum (from_dim 2) bucherastrigin (fun _ => 0) (constant 0) /\
  optimum (from_dim 1) ackley (fun _ => 0) (constant 0) /\
  optimum all_dims (fun x => Ok (griewank x)) (fun _ => 0) (constant 0).
Proof. exact (conj optimum_rastrigin (conj optimum_bucherastrigin (conj optimum_ackley optimum_griewank))). Qed.
Print Assumptions C83_multimodal.

(** ** Functions with one optimum elsewhere *)
(** [sphere1], [sphere2], [sphere4]: at (1, ..., 1), (2, ..., 2), (4, ..., 4) *)
Theorem C83_sphere_from : forall c, optimum all_dims (fun x => Ok (sphere_from c x)) (fun _ => 0) (constant c).
Proof. exact optimum_sphere_from. Qed.
Print Assumptions C83_sphere_from.
Theorem C83_rosenbrock : optimum (from_dim 2) (fun x => Ok (rosenbrock x)) (fun _ => 0) (constant 1).
Proof. exact optimum_rosenbrock. Qed.
Print Assumptions C83_rosenbrock.
Theorem C83_lunacek : optimum all_dims (fun x => Ok (lunacek x)) (fun _ => 0) (constant (5 / 2)).
Proof.
  apply optimum_ext with (f := fun x => Ok (lunacek x)) (v := fun _ => 0) (opt := constant (25 / 10)); auto using optimum_lunacek.
  intros d _. f_equal. lra.
Qed.
Print Assumptions C83_lunacek.
(** the best of 101 peaks is the first: at (cos 0, cos 1, cos (sqrt 2), ...), with value 1 *)
Theorem C83_multipeak :
  optimum all_dims (fun x => Ok (multipeak x)) (fun _ => 1) (fun d => map (fun i => cos (sqrt (INR i))) (seq 0 d)).
Proof.
  apply optimum_ext with (f := fun x => Ok (multipeak x)) (v := fun _ => 1) (opt := peak 0); auto using optimum_multipeak.
  intros d _. unfold peak. apply map_ext. intros i. f_equal. cbn. lra.
Qed.
Print Assumptions C83_multipeak.
Theorem C83_gaussian_peak : optimum all_dims (fun x => Ok (minusgenzgaussianpeakintegral x)) (fun _ => -1) (constant 0).
Proof. exact optimum_minusgenz. Qed.
Print Assumptions C83_gaussian_peak.

(** ** Deceptive functions: [deceptivepath] ([whole = false]) and [deceptivemultimodal].
    The minimum is at the origin of the plane of the first two coordinates; the other coordinates have no influence. *)
Theorem C83_deceptive : forall whole a b l, exists r,
  deceptive whole (a :: b :: l) = Ok r /\ 0 <= r /\ (r = 0 <-> a = 0 /\ b = 0) /\
  (r = 1 \/ r = sqrt (a * a + b * b)) /\
  (forall l', deceptive whole (a :: b :: l') = Ok r).
Proof.
  intros whole a b l. destruct (deceptive_value whole a b l) as (r & E & H1 & H2 & H3). exists r.
  split; [exact E|]. split; [exact H1|]. split; [exact H2|]. split; [exact H3|]. intros l'. rewrite <- E. reflexivity.
Qed.
Print Assumptions C83_deceptive.
(** [deceptiveillcond] has no minimum: finite values are positive and as small as one wishes,
    and the value at the origin is infinite. *)
Theorem C83_illcond_minimum_refuted :
  (forall a b l, a <> 0 -> exists r, deceptiveillcond (a :: b :: l) = Ok (RTransforms.Fin r) /\ 0 < r) /\
  (forall e l, 0 < e -> deceptiveillcond (- e :: 0 :: l) = Ok (RTransforms.Fin e)) /\
  (forall b l, deceptiveillcond (0 :: b :: l) = Ok RTransforms.PInf).
Proof.
  split; [exact illcond_value|]. split; [exact illcond_near|]. intros b l. unfold deceptiveillcond. destruct (Req_EM_T 0 0); easy.
Qed.
Print Assumptions C83_illcond_minimum_refuted.

(** ** Plateaus: [stepellipsoid] and [stepdoublelinearslope] round the logarithm of the value towards 0 *)
(** Values are positive, change the order of no two points but may make them equal, and stay within a factor e. *)
Theorem C83_step :
  (forall s, 0 < step s) /\
  (forall r s, r = 0 \/ tiny <= r -> s = 0 \/ tiny <= s -> r <= s -> step r <= step s) /\
  (forall s, 1 <= s -> s / exp 1 < step s <= s) /\
  (forall s, 0 < s < 1 -> s <= step s < exp 1 * s) /\
  (forall s, / exp 1 < s < exp 1 -> step s = 1).
Proof. exact (conj step_pos (conj step_mono (conj step_above (conj step_below step_plateau)))). Qed.
Print Assumptions C83_step.
(** the origin minimises [stepellipsoid] among the vectors whose [ellipsoid] is 0 or a positive float *)
Theorem C83_stepellipsoid : forall x,
  ellipsoid x = 0 \/ tiny <= ellipsoid x -> stepellipsoid (constant 0 (length x)) <= stepellipsoid x.
Proof. intros x H. apply step_origin. tauto. Qed.
Print Assumptions C83_stepellipsoid.

(** ** Degenerate cases *)
(** Rosenbrock's function of one variable is 0 everywhere. *)
Theorem C83_rosenbrock_one_variable_refuted : forall a, rosenbrock [a] = 0.
Proof. reflexivity. Qed.
Print Assumptions C83_rosenbrock_one_variable_refuted.
(** In dimension 2, the values of [bentcigar] tend to its minimum, 0, far from the optimum along the positive first axis:
    the exponent there is 1 - sqrt(x) / 2, because coordinates are numbered from 0 in a formula which numbers them from 1. *)
Theorem C83_bentcigar_far_refuted : forall a, 16 <= a -> exists r, bentcigar [a; 0] = Ok r /\ 0 < r <= / (a * a).
Proof. exact bent_far. Qed.
Print Assumptions C83_bentcigar_far_refuted.
(** [hm] has no value at its optimum, the origin, nor at any point with a coordinate 0; it is positive where it has one. *)
Theorem C83_hm_minimum_refuted :
  (forall x, (exists r, hm x = RTransforms.Fin r) <-> ~ In 0 x) /\
  (forall x r, x <> [] -> hm x = RTransforms.Fin r -> 0 < r).
Proof. split; [exact hm_defined|exact hm_positive]. Qed.
Print Assumptions C83_hm_minimum_refuted.
(** [doublelinearslope] is minimal on the whole hyperplane of the vectors of sum 0. *)
Theorem C83_doublelinearslope : forall x, 0 <= doublelinearslope x /\ (doublelinearslope x = 0 <-> fold_right Rplus 0 x = 0).
Proof.
  intros x. assert (E : fold_right Rplus 0 x = rsum x) by (induction x as [|a x IH]; cbn; congruence). rewrite E. unfold doublelinearslope.
  split; [apply Rabs_pos|]. split; [|intros ->; apply Rabs_R0]. intros H. destruct (Req_dec (rsum x) 0) as [|N]; [assumption|]. now apply Rabs_no_R0 in N.
Qed.
Print Assumptions C83_doublelinearslope.
(** Without a minimum: [slope] (any real is a value), [linear] and [genzcornerpeak] (bounds which are not reached). *)
Theorem C83_slope_minimum_refuted : forall d v, exists x, length x = S d /\ slope x = v.
Proof.
  intros d v. exists (v :: constant 0 d). unfold constant. cbn [length slope rsum]. rewrite repeat_length. split; [reflexivity|].
  unfold slope. cbn [rsum]. assert (E : rsum (repeat 0 d) = 0) by (induction d as [|d IH]; cbn; [reflexivity|rewrite IH; lra]). rewrite E. lra.
Qed.
Print Assumptions C83_slope_minimum_refuted.
Theorem C83_linear_minimum_refuted : forall a l, exists r, linear (a :: l) = Ok r /\ -1 < r < 1 /\
  exists r', linear (a - 1 :: l) = Ok r' /\ r' < r.
Proof.
  intros a l. exists (tanh a). split; [reflexivity|]. split; [apply tanh_bounds|]. exists (tanh (a - 1)). split; [reflexivity|].
  apply tanh_increasing. lra.
Qed.
Print Assumptions C83_linear_minimum_refuted.
Theorem C83_corner_peak : forall y, y <> [] -> exists r, genzcornerpeak y = Ok r /\ (/ 2) ^ (length y + 1) < r.
Proof. exact corner_value. Qed.
Print Assumptions C83_corner_peak.
(** Styblinski-Tang: the constant added to "return a positive value" (corefuncs.py:82-83) is slightly too small;
    the minimum is between -0.00018 and -0.00017 per coordinate. *)
Theorem C83_styblinski_tang_positive_refuted : forall d,
  (exists x, length x = d /\ st0 x <= - (17 / 100000) * INR d) /\ forall x, length x = d -> - (18 / 100000) * INR d <= st0 x.
Proof.
  intros d. split; [|intros x <-; apply st0_bound]. exists (repeat (- (2903534 / 1000000)) d). split; [apply repeat_length|].
  induction d as [|d IH]; [unfold st0; cbn [repeat length map rsum INR]; lra|]. unfold st0 in *. cbn [repeat length map rsum]. rewrite repeat_length in *. rewrite S_INR. lra.
Qed.
Print Assumptions C83_styblinski_tang_positive_refuted.

(** ** Discrete functions *)
(** [onemax] is the number of wrong coordinates *)
Theorem C83_onemax : forall arity x, exists k, mistakes arity x k /\ onemax arity x = Z.of_nat k /\
  (k <= length x)%nat /\ (k = 0%nat <-> target arity x).
Proof.
  intros arity x. destruct (onemax_mistakes arity x) as (k & M & E). exists k. split; [exact M|]. split; [exact E|].
  split; [exact (mistakes_le _ _ _ M)|]. rewrite <- mistakes_zero. split; [now intros <-|]. intros Z. exact (mistakes_unique _ _ _ _ M Z).
Qed.
Print Assumptions C83_onemax.
(** [leadingones] is the number of coordinates after the longest correct prefix *)
Theorem C83_leadingones : forall arity x, exists k, correct_prefix arity x k /\
  leadingones arity x = Z.of_nat (length x - k) /\ (k = length x <-> target arity x).
Proof.
  intros arity x. destruct (leadingones_prefix arity x) as (k & P & E). exists k. split; [exact P|].
  destruct P as (P1 & P2 & P3). split; [lia|]. split; [intros ->; exact P2|]. intros T. destruct P3 as [|P3]; [assumption|].
  destruct (Nat.eq_dec k (length x)); [assumption|]. exfalso. apply P3, T. lia.
Qed.
Print Assumptions C83_leadingones.
(** [jump] of n coordinates: minimum -(n/4), at the target only; between 1 and n/4 - 1 mistakes is worse than anything else,
    so that no sequence of improving single corrections reaches the target from afar. *)
Theorem C83_jump : forall arity x k, mistakes arity x k ->
  let n := length x in
  (k = 0%nat -> jump arity x = (- Z.of_nat (n / 4))%Z) /\
  ((0 < k)%nat -> (n / 4 <= k)%nat -> jump arity x = Z.of_nat (k - n / 4)) /\
  ((0 < k < n / 4)%nat -> jump arity x = Z.of_nat (n - k)) /\
  (- Z.of_nat (n / 4) <= jump arity x)%Z /\
  (jump arity x = (- Z.of_nat (n / 4))%Z <-> target arity x).
Proof.
  intros arity x k M n. destruct (onemax_mistakes arity x) as (k' & M' & E). assert (k' = k) by exact (mistakes_unique _ _ _ _ M' M). subst k'.
  pose proof (mistakes_le _ _ _ M) as L.
  assert (T : k = 0%nat <-> target arity x).
  { rewrite <- mistakes_zero. split; [now intros <-|]. intros Z. exact (mistakes_unique _ _ _ _ M Z). }
  fold n in L. unfold jump. rewrite E. fold n.
  assert (Q : (Z.of_nat n / 4)%Z = Z.of_nat (n / 4)) by (now rewrite Nat2Z.inj_div). rewrite Q.
  assert (B : (n / 4 <= n)%nat) by (apply Nat.div_le_upper_bound; lia).
  assert (B4 : (4 * (n / 4) <= n)%nat) by (apply Nat.mul_div_le; lia). set (m := (n / 4)%nat) in *.
  destruct (Z.eqb_spec (Z.of_nat n - Z.of_nat k) (Z.of_nat n)) as [H1|H1]; cbn [orb].
  - repeat split; try lia. intros _. apply T. lia.
  - destruct (Z.leb_spec (Z.of_nat n - Z.of_nat k) (Z.of_nat n - Z.of_nat m)) as [H2|H2].
    + repeat split; try lia; intros H; solve [exfalso; lia|apply T in H; lia].
    + repeat split; try lia; intros H; solve [exfalso; lia|apply T in H; lia].
Qed.
Print Assumptions C83_jump.
Theorem C83_jump_valley : forall arity x y k m, length x = length y -> mistakes arity x k -> mistakes arity y m ->
  (0 < k < length x / 4)%nat -> m = 0%nat \/ (length x / 4 <= m)%nat -> (jump arity y < jump arity x)%Z.
Proof.
  intros arity x y k m L Mx My Hk Hm. destruct (C83_jump arity x k Mx) as (_ & _ & A & _). destruct (C83_jump arity y m My) as (B0 & B1 & _).
  rewrite (A Hk). rewrite <- L in B0, B1. assert (B4 : (4 * (length x / 4) <= length x)%nat) by (apply Nat.mul_div_le; lia).
  pose proof (mistakes_le _ _ _ My). destruct (Nat.eq_dec m 0) as [Z|Z]; [rewrite (B0 Z); lia|]. rewrite B1 by lia. lia.
Qed.
Print Assumptions C83_jump_valley.

(** ** Cases *)
Example C83_target_case : target 3 [(0 # 1); (1 # 2) + (2 # 5); (5 # 2); (1 # 4)]%Q /\ ~ target 3 [(1 # 1)]%Q.
Proof.
  split.
  - apply mistakes_zero. destruct (onemax_mistakes 3 [(0 # 1); (1 # 2) + (2 # 5); (5 # 2); (1 # 4)]%Q) as (k & M & E).
    vm_compute in E. destruct k; [exact M|discriminate].
  - intros T. apply mistakes_zero in T. destruct (onemax_mistakes 3 [(1 # 1)]%Q) as (k & M & E). vm_compute in E.
    pose proof (mistakes_unique _ _ _ _ M T). subst k. discriminate.
Qed.
(** jump over eight bits: six mistakes, two, one, none *)
Example C83_jump_case :
  map (jump 2) [[1; 0; 1; 0; 1; 0; 0; 1]; [0; 1; 0; 1; 0; 1; 1; 0]; [0; 1; 0; 1; 0; 1; 0; 0]; [0; 1; 0; 1; 0; 1; 0; 1]]%Q = [4; 0; 7; -2]%Z.
Proof. reflexivity. Qed.
Example C83_leadingones_case : map (leadingones 2) [[0; 1; 1; 1]; [1; 1; 0; 1]; [0; 1; 0; 1]]%Q = [2; 4; 0]%Z.
Proof. reflexivity. Qed.
Example C83_values : cigar [2; 1; 1] = Ok 2000004 /\ rosenbrock [0; 0; 0] = 2 /\ schwefel_1_2 [1; -1; 2] = 5.
Proof.
  unfold cigar, sphere, schwefel_1_2, sphere. cbn [cumsum map rsum rosenbrock].
  split; [f_equal; lra|]. split; lra.
Qed.

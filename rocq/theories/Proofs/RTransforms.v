(** Lemmas on the real transforms. *)
From Coq Require Import Reals ZArith Bool Lra Lia List.
From Verif.Model Require Import Prelude RTransforms.
Import ListNotations.
Open Scope R_scope.

Lemma tanh_exp x : tanh x = 1 - 2 / (exp (2 * x) + 1).
Proof.
  unfold tanh, sinh, cosh. replace (2 * x) with (x + x) by ring. rewrite exp_plus, exp_Ropp. pose proof (exp_pos x) as H.
  assert (0 < exp x * exp x) by nra. assert (Hi : / exp x > 0) by now apply Rinv_0_lt_compat.
  field; repeat split; nra.
Qed.
Lemma tanh_bound x : -1 < tanh x < 1.
Proof.
  rewrite tanh_exp. pose proof (exp_pos (2 * x)) as H. assert (Hd : 0 < exp (2 * x) + 1) by lra.
  assert (H1 : 0 < / (exp (2 * x) + 1)) by now apply Rinv_0_lt_compat.
  assert (H2 : / (exp (2 * x) + 1) < 1). { rewrite <- Rinv_1. apply Rinv_lt_contravar; lra. }
  unfold Rdiv. lra.
Qed.
Lemma tanh_increasing x y : x < y -> tanh x < tanh y.
Proof.
  intros H. rewrite !tanh_exp. assert (He : exp (2 * x) < exp (2 * y)) by (apply exp_increasing; lra).
  pose proof (exp_pos (2 * x)) as H1. assert (Hi : / (exp (2 * y) + 1) < / (exp (2 * x) + 1)) by (apply Rinv_lt_contravar; nra).
  unfold Rdiv. lra.
Qed.
Lemma arctanh_tanh x : ln ((1 + tanh x) / (1 - tanh x)) / 2 = x.
Proof.
  rewrite tanh_exp. pose proof (exp_pos (2 * x)) as H.
  replace ((1 + (1 - 2 / (exp (2 * x) + 1))) / (1 - (1 - 2 / (exp (2 * x) + 1)))) with (exp (2 * x)) by (field; lra).
  rewrite ln_exp. field.
Qed.
Lemma tanh_arctanh y : -1 < y < 1 -> tanh (ln ((1 + y) / (1 - y)) / 2) = y.
Proof.
  intros H. rewrite tanh_exp. replace (2 * (ln ((1 + y) / (1 - y)) / 2)) with (ln ((1 + y) / (1 - y))) by field.
  rewrite exp_ln; [field; lra|]. apply Rmult_lt_0_compat; [lra|]. apply Rinv_0_lt_compat. lra.
Qed.
Lemma np_arctanh_open y : -1 < y < 1 -> np_arctanh y = Fin (ln ((1 + y) / (1 - y)) / 2).
Proof.
  intros H. unfold np_arctanh. destruct (Req_EM_T y 1); [lra|]. destruct (Req_EM_T y (-1)); [lra|].
  destruct (Rlt_dec (-1) y); [|lra]. destruct (Rlt_dec y 1); [reflexivity|lra].
Qed.
Lemma np_tan_open x : - (PI / 2) < x < PI / 2 -> np_tan x = Fin (tan x).
Proof. intros H. unfold np_tan. destruct (Req_EM_T x (PI / 2)); [lra|]. destruct (Req_EM_T x (- (PI / 2))); [lra|reflexivity]. Qed.
Lemma tan_atan' x : tan (atan x) = x.
Proof. apply tan_atan. Qed.

(** a cumulative density function and its inverse *)
Definition density (cdf ppf : R -> R) : Prop :=
  (forall x, 0 < cdf x < 1) /\ (forall x y, x < y -> cdf x < cdf y) /\
  (forall x, ppf (cdf x) = x) /\ (forall q, 0 < q < 1 -> cdf (ppf q) = q).
Lemma cauchy_density : density cauchy_cdf cauchy_ppf.
Proof.
  pose proof PI_RGT_0 as Hp. unfold cauchy_cdf, cauchy_ppf. repeat split.
  - destruct (atan_bound x) as (H1 & H2). assert (- (1/2) < atan x / PI); [|lra].
    apply (Rmult_lt_reg_r PI); [exact Hp|]. unfold Rdiv. rewrite Rmult_assoc, Rinv_l by lra. lra.
  - destruct (atan_bound x) as (H1 & H2). assert (atan x / PI < 1/2); [|lra].
    apply (Rmult_lt_reg_r PI); [exact Hp|]. unfold Rdiv. rewrite Rmult_assoc, Rinv_l by lra. lra.
  - intros x y H. apply Rplus_lt_compat_l. apply Rmult_lt_compat_r; [now apply Rinv_0_lt_compat|]. now apply atan_increasing.
  - intros x. replace (PI * (1 / 2 + atan x / PI - 1 / 2)) with (atan x) by (field; lra). apply tan_atan.
  - intros q Hq. rewrite atan_tan; [field; lra|]. split; nra.
Qed.

(** scaling between (-1, 1) and (lo, hi) *)
Lemma scale_inside lo hi t : lo < hi -> -1 < t < 1 -> lo < (hi + lo) / 2 + (hi - lo) / 2 * t < hi.
Proof. intros H Ht. split; nra. Qed.
Lemma unscale_inside lo hi y : lo < hi -> lo < y < hi -> -1 < (y - (hi + lo) / 2) / ((hi - lo) / 2) < 1.
Proof.
  intros H Hy. split.
  - apply (Rmult_lt_reg_r ((hi - lo) / 2)); [lra|]. unfold Rdiv at 2. rewrite Rmult_assoc, Rinv_l by lra. lra.
  - apply (Rmult_lt_reg_r ((hi - lo) / 2)); [lra|]. unfold Rdiv at 1. rewrite Rmult_assoc, Rinv_l by lra. lra.
Qed.
Lemma unscale_scale lo hi t : lo < hi -> ((hi + lo) / 2 + (hi - lo) / 2 * t - (hi + lo) / 2) / ((hi - lo) / 2) = t.
Proof. intros. field. lra. Qed.
Lemma rclip_inside x lo hi : lo <= x <= hi -> rclip x lo hi = x.
Proof. intros H. unfold rclip. rewrite Rmax_left, Rmin_left; lra. Qed.

Lemma rpower_inv x p : 0 < x -> p <> 0 -> Rpower (Rpower x p) (1 / p) = x.
Proof. intros Hx Hp. rewrite Rpower_mult. replace (p * (1 / p)) with 1 by (field; exact Hp). now apply Rpower_1. Qed.
Lemma np_power_pos x p : 0 < x -> np_power x p = Fin (Rpower x p).
Proof. intros H. unfold np_power. destruct (Rlt_dec 0 x); [reflexivity|lra]. Qed.
Lemma np_log_pos x : 0 < x -> np_log x = Fin (ln x).
Proof. intros H. unfold np_log. destruct (Rlt_dec 0 x); [reflexivity|lra]. Qed.
Lemma ln_neq_0 b : 0 < b -> b <> 1 -> ln b <> 0.
Proof. intros H H1 E. apply H1. apply ln_inv; [exact H|lra|]. now rewrite ln_1. Qed.
Lemma np_div_nz x y : y <> 0 -> np_div x y = Fin (x / y).
Proof. intros H. unfold np_div. destruct (Req_EM_T y 0); [lra|reflexivity]. Qed.

(** angles *)
Lemma angle_range x y : - PI < np_angle x y <= PI.
Proof.
  pose proof PI_RGT_0 as Hp. unfold np_angle. destruct (atan_bound (y / x)) as (H1 & H2).
  destruct (Rlt_dec 0 x); [lra|]. destruct (Rlt_dec x 0) as [Hx|Hx].
  - destruct (Rle_dec 0 y) as [Hy|Hy].
    + assert (y / x <= 0). { unfold Rdiv. assert (/ x < 0) by now apply Rinv_lt_0_compat. nra. }
      assert (atan (y / x) <= 0). { destruct (Req_dec (y / x) 0) as [E|E]; [rewrite E, atan_0; lra|]. rewrite <- atan_0. left. apply atan_increasing. lra. }
      lra.
    + assert (0 < y / x). { unfold Rdiv. assert (/ x < 0) by now apply Rinv_lt_0_compat. nra. }
      assert (0 < atan (y / x)) by (rewrite <- atan_0; apply atan_increasing; lra). lra.
  - destruct (Rlt_dec 0 y); [lra|]. destruct (Rlt_dec y 0); lra.
Qed.
Lemma tan_plus_pi v : cos v <> 0 -> tan (v + PI) = tan v.
Proof. intros H. unfold tan. rewrite neg_sin, neg_cos. field. exact H. Qed.
Lemma angle_polar r v : 0 < r -> - PI < v <= PI -> np_angle (r * cos v) (r * sin v) = v.
Proof.
  intros Hr Hv. pose proof PI_RGT_0 as Hp. unfold np_angle.
  assert (Hq : cos v <> 0 -> r * sin v / (r * cos v) = tan v). { intros Hc. unfold tan. field. split; [exact Hc|lra]. }
  destruct (Rlt_dec 0 (r * cos v)) as [Hc|Hc].
  - assert (0 < cos v) by nra. rewrite Hq by lra. apply atan_tan.
    split.
    + destruct (Rlt_dec (- (PI / 2)) v) as [|N]; [assumption|]. exfalso. assert (cos v <= 0); [|lra].
      rewrite <- cos_neg. apply cos_le_0; lra.
    + destruct (Rlt_dec v (PI / 2)) as [|N]; [assumption|]. exfalso. assert (cos v <= 0); [|lra]. apply cos_le_0; lra.
  - destruct (Rlt_dec (r * cos v) 0) as [Hc'|Hc'].
    + assert (Hcv : cos v < 0) by nra. rewrite Hq by lra. destruct (Rle_dec 0 (r * sin v)) as [Hs|Hs].
      * assert (0 <= sin v) by nra.
        assert (0 <= v). { destruct (Rle_dec 0 v) as [|N]; [assumption|]. exfalso. assert (sin v < 0) by (apply sin_lt_0_var; lra). lra. }
        assert (PI / 2 < v). { destruct (Rlt_dec (PI / 2) v) as [|N]; [assumption|]. exfalso. assert (0 <= cos v) by (apply cos_ge_0; lra). lra. }
        replace (tan v) with (tan (v - PI)).
        2:{ rewrite <- (tan_plus_pi (v - PI)); [f_equal; ring|]. rewrite cos_minus, cos_PI, sin_PI. lra. }
        rewrite atan_tan; lra.
      * assert (sin v < 0) by nra.
        assert (v < 0). { destruct (Rlt_dec v 0) as [|N]; [assumption|]. exfalso. assert (0 <= sin v) by (apply sin_ge_0; lra). lra. }
        assert (v < - (PI / 2)). { destruct (Rlt_dec v (- (PI / 2))) as [|N]; [assumption|]. exfalso. assert (0 <= cos v) by (apply cos_ge_0; lra). lra. }
        replace (tan v) with (tan (v + PI)) by (apply tan_plus_pi; lra). rewrite atan_tan; lra.
    + assert (Hz : cos v = 0) by nra. assert (Hs2 : sin v * sin v = 1). { pose proof (sin2_cos2 v) as E. unfold Rsqr in E. rewrite Hz in E. lra. }
      destruct (Rlt_dec 0 (r * sin v)) as [Hs|Hs].
      * assert (0 < sin v) by nra.
        assert (0 < v). { destruct (Rlt_dec 0 v) as [|N]; [assumption|]. exfalso. assert (sin v <= 0); [|lra].
          destruct (Req_dec v 0) as [->|]; [rewrite sin_0; lra|]. left. apply sin_lt_0_var; lra. }
        destruct (Rtotal_order v (PI / 2)) as [L|[E|G]]; [|lra|]; exfalso.
        -- assert (0 < cos v) by (apply cos_gt_0; lra). lra.
        -- assert (cos v < 0) by (apply cos_lt_0; lra). lra.
      * destruct (Rlt_dec (r * sin v) 0) as [Hs'|Hs']; [|exfalso; assert (sin v = 0) by nra; nra].
        assert (sin v < 0) by nra.
        assert (v < 0). { destruct (Rlt_dec v 0) as [|N]; [assumption|]. exfalso. assert (0 <= sin v) by (apply sin_ge_0; lra). lra. }
        destruct (Rtotal_order v (- (PI / 2))) as [L|[E|G]]; [|lra|]; exfalso.
        -- assert (cos v < 0); [|lra]. rewrite <- cos_neg. apply cos_lt_0; lra.
        -- assert (0 < cos v) by (apply cos_gt_0; lra). lra.
Qed.

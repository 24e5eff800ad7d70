(** C66 (end): mutation rates over the reals. *)
From Coq Require Import Reals ZArith Lra Lia.
From Verif.Model Require Import MutationRate.
Open Scope R_scope.

Lemma INR_pos n : (1 <= n)%nat -> 1 <= INR n. Proof. intros H. apply (le_INR 1) in H. exact H. Qed.
Lemma base_rate dimension g : (1 <= dimension)%nat -> g <= 1 -> 0 < Rmax (0.1 / INR dimension) g <= 1.
Proof.
  intros D G. assert (H := INR_pos dimension D). assert (0 < 0.1 / INR dimension <= 1) as [A B].
  { split; [apply Rdiv_lt_0_compat; lra|]. apply Rmult_le_reg_r with (INR dimension); [lra|]. unfold Rdiv. rewrite Rmult_assoc, Rinv_l by lra. lra. }
  split; [apply Rlt_le_trans with (0.1 / INR dimension); [exact A|apply Rmax_l]|apply Rmax_lub; assumption].
Qed.
(** the rate of a candidate is in (0, 1] *)
Theorem C66_lognormal_rate (dimension : nat) (g z : R) : (1 <= dimension)%nat -> g <= 1 -> 0 < lognormal_rate dimension g z <= 1.
Proof.
  intros D G. unfold lognormal_rate. destruct (base_rate dimension g D G) as [P Q]. set (r := Rmax _ g) in *.
  assert (0 <= (1 - r) / r * exp (0.22 * z)) as H.
  { apply Rmult_le_pos; [|left; apply exp_pos]. apply Rmult_le_pos; [lra|]. left. apply Rinv_0_lt_compat, P. }
  split; [apply Rdiv_lt_0_compat; lra|]. apply Rmult_le_reg_r with (1 + (1 - r) / r * exp (0.22 * z)); [lra|].
  unfold Rdiv at 1. rewrite Rmult_assoc, Rinv_l by lra. lra.
Qed.
(** its odds are those of the common rate (at least 0.1 / dimension) divided by the log-normal factor *)
Theorem C66_lognormal_odds (dimension : nat) (g z : R) : (1 <= dimension)%nat -> g < 1 ->
  let common := Rmax (0.1 / INR dimension) g in
  let rate := lognormal_rate dimension g z in
  rate < 1 /\ rate / (1 - rate) = common / (1 - common) / exp (0.22 * z).
Proof.
  intros D G common rate. assert (H := INR_pos dimension D).
  assert (0 < common < 1) as [P Q].
  { split; [apply (base_rate dimension g D); lra|]. apply Rmax_lub_lt; [|exact G].
    apply Rmult_lt_reg_r with (INR dimension); [lra|]. unfold Rdiv. rewrite Rmult_assoc, Rinv_l by lra. lra. }
  unfold rate, lognormal_rate. fold common. assert (E := exp_pos (0.22 * z)). set (e := exp (0.22 * z)) in *.
  assert (0 < (1 - common) / common * e) as X by (apply Rmult_lt_0_compat; [apply Rdiv_lt_0_compat; lra|exact E]).
  split.
  - apply Rmult_lt_reg_r with (1 + (1 - common) / common * e); [lra|]. unfold Rdiv at 1. rewrite Rmult_assoc, Rinv_l by lra. lra.
  - set (a := (1 - common) / common * e) in *.
    replace (1 / (1 + a) / (1 - 1 / (1 + a))) with (1 / a) by (field; lra). unfold a. field. lra.
Qed.
(** lengler mutations: at least one coordinate, exactly one when ask numbers are large, and at most alpha times the dimension (or one) *)
Theorem C66_lengler (dimension : nat) (alpha : R) (n : nat) : (1 <= n)%nat -> 0 <= alpha ->
  (1 <= lengler_intensity dimension alpha n)%Z /\ IZR (lengler_intensity dimension alpha n) <= Rmax 1 (alpha * INR dimension) /\
  (INR dimension * alpha * ln (INR n) < 2 * INR n -> lengler_intensity dimension alpha n = 1%Z).
Proof.
  intros N A. unfold lengler_intensity. assert (H := INR_pos n N). set (x := INR dimension * (alpha * ln (INR n) / INR n)).
  destruct (base_Int_part (Rmax 1 x)) as [B1 B2].
  assert (1 <= Int_part (Rmax 1 x))%Z as L.
  { assert (0 < Int_part (Rmax 1 x))%Z; [|lia]. apply lt_IZR. assert (1 <= Rmax 1 x) by apply Rmax_l. lra. }
  split; [exact L|]. split.
  - apply Rle_trans with (Rmax 1 x); [exact B1|]. apply Rmax_lub; [apply Rmax_l|]. apply Rle_trans with (alpha * INR dimension); [|apply Rmax_r].
    unfold x. replace (INR dimension * (alpha * ln (INR n) / INR n)) with (alpha * INR dimension * (ln (INR n) / INR n)) by (field; lra).
    rewrite <- (Rmult_1_r (alpha * INR dimension)) at 2. apply Rmult_le_compat_l; [apply Rmult_le_pos; [exact A|apply pos_INR]|].
    apply Rmult_le_reg_r with (INR n); [lra|]. unfold Rdiv. rewrite Rmult_assoc, Rinv_l by lra. rewrite Rmult_1_r, Rmult_1_l.
    left. destruct (Rle_lt_dec (ln (INR n)) 0) as [Z|Z]; [lra|].
    rewrite <- (exp_ln (INR n)) at 2 by lra. assert (1 + ln (INR n) < exp (ln (INR n))) by (apply exp_ineq1; lra). lra.
  - intros C. assert (x < 2) as X.
    { unfold x. apply Rmult_lt_reg_r with (INR n); [lra|].
      replace (INR dimension * (alpha * ln (INR n) / INR n) * INR n) with (INR dimension * alpha * ln (INR n)) by (field; lra). exact C. }
    assert (Rmax 1 x < 2) as Y by (apply Rmax_lub_lt; lra).
    assert (Int_part (Rmax 1 x) < 2)%Z; [|lia]. apply lt_IZR. lra.
Qed.
(** concrete cases *)
Example some_rate : lognormal_rate 10 (1 / 5) 0 = 1 / 5.
Proof.
  unfold lognormal_rate. rewrite Rmult_0_r, exp_0. assert (Rmax (0.1 / INR 10) (1 / 5) = 1 / 5) as ->; [|field].
  apply Rmax_right. change (INR 10) with (INR (5 + 5)). rewrite plus_INR. cbn. lra.
Qed.
Example some_lengler : lengler_intensity 10 3 1 = 1%Z.
Proof. apply C66_lengler; [lia|lra|]. cbn [INR]. rewrite ln_1. lra. Qed.

Print Assumptions C66_lognormal_rate.
Print Assumptions C66_lognormal_odds.
Print Assumptions C66_lengler.

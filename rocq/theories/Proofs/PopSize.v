From Coq Require Import List Arith ZArith QArith Qreals Reals Lia Lra Bool.
From Verif.Model Require Import Prelude MultiValue PopSize Tbpsa.
From Verif.Spec Require Import PopSize.
From Verif.Proofs Require Import MultiValue.
Import ListNotations.
Open Scope nat_scope.

Lemma ps_run_snoc s l x : ps_run s (l ++ [x]) = ps_add x (ps_run s l).
Proof. unfold ps_run. rewrite fold_left_app. reflexivity. Qed.

Lemma ps_run_app s l m : ps_run s (l ++ m) = ps_run (ps_run s l) m.
Proof. unfold ps_run. apply fold_left_app. Qed.

Lemma shrink_le m mu : m <= mu -> Nat.max m (mu * 84 / 100) <= mu.
Proof.
  intros H. apply Nat.max_lub; [exact H|].
  apply Nat.div_le_upper_bound; lia.
Qed.

(** the new size *)
Lemma ps_add_cases x s :
  (length (ps_record s) + 1 < 5 * ps_lambda s /\
   ps_add x s = PopSize (ps_lambda s) (ps_mu s) (ps_min_mu s) (ps_workers s) (ps_record s ++ [x])) \/
  (5 * ps_lambda s <= length (ps_record s) + 1 /\
   exists mu, (mu = 2 * ps_mu s \/ mu = Nat.max (ps_min_mu s) (ps_mu s * 84 / 100)) /\
   ps_add x s =
     if 1 <? ps_workers s
     then PopSize (Nat.max (4 * mu) (ps_workers s)) (Nat.max (4 * mu) (ps_workers s) / 4) (ps_min_mu s) (ps_workers s) []
     else PopSize (4 * mu) mu (ps_min_mu s) (ps_workers s) []).
Proof.
  unfold ps_add. rewrite app_length; cbn [length].
  destruct (5 * ps_lambda s <=? length (ps_record s) + 1) eqn:E.
  - right. apply Nat.leb_le in E. split; [exact E|].
    destruct (no_progress _ _ _); eexists; (split; [|reflexivity]); [left|right]; reflexivity.
  - left. apply Nat.leb_gt in E. split; [exact E|reflexivity].
Qed.

Lemma ps_add_static x s :
  ps_min_mu (ps_add x s) = ps_min_mu s /\ ps_workers (ps_add x s) = ps_workers s.
Proof.
  destruct (ps_add_cases x s) as [[_ ->]|[_ (mu & _ & ->)]]; [split; reflexivity|].
  destruct (1 <? ps_workers s); split; reflexivity.
Qed.

(** an invariant of all the sizes *)
Definition ps_inv (mu0 dimension w : nat) (s : popsize) : Prop :=
  ps_min_mu s = Nat.min mu0 dimension /\ ps_workers s = w /\
  4 * ps_mu s <= ps_lambda s /\ w <= ps_lambda s /\
  Nat.min mu0 dimension <= ps_mu s /\ 1 <= ps_mu s /\ length (ps_record s) < 5 * ps_lambda s.

Lemma ps_init_inv mu0 dimension w : 1 <= mu0 ->
  ps_inv mu0 dimension w (ps_init (4 * mu0) mu0 dimension w).
Proof. intros H. unfold ps_inv, ps_init. cbn [ps_lambda ps_mu ps_min_mu ps_workers ps_record length]. lia. Qed.

Lemma quarter a : 4 * (a / 4) <= a.
Proof. apply Nat.mul_div_le. lia. Qed.
Lemma quarter_ge a b : 4 * a <= b -> a <= b / 4.
Proof. intros H. apply Nat.div_le_lower_bound; lia. Qed.

Lemma ps_add_inv mu0 dimension w x s : 1 <= mu0 -> 1 <= dimension ->
  ps_inv mu0 dimension w s -> ps_inv mu0 dimension w (ps_add x s).
Proof.
  intros H0 Hd (I1 & I2 & I3 & I4 & I5 & I6 & I7).
  destruct (ps_add_cases x s) as [[E ->]|[E (mu & Hmu & ->)]].
  - unfold ps_inv; cbn [ps_lambda ps_mu ps_min_mu ps_workers ps_record]. rewrite app_length; cbn [length].
    repeat split; try assumption; lia.
  - assert (Hm : Nat.min mu0 dimension <= mu /\ 1 <= mu).
    { destruct Hmu as [-> | ->]; [lia|]. rewrite I1.
      pose proof (Nat.le_max_l (Nat.min mu0 dimension) (ps_mu s * 84 / 100)). lia. }
    destruct (1 <? ps_workers s) eqn:W.
    + unfold ps_inv; cbn [ps_lambda ps_mu ps_min_mu ps_workers ps_record length].
      pose proof (quarter (Nat.max (4 * mu) (ps_workers s))).
      pose proof (quarter_ge mu (Nat.max (4 * mu) (ps_workers s)) (Nat.le_max_l _ _)).
      repeat split; try assumption; try lia.
    + apply Nat.ltb_ge in W.
      unfold ps_inv; cbn [ps_lambda ps_mu ps_min_mu ps_workers ps_record length].
      repeat split; try assumption; try lia.
Qed.

Lemma ps_run_inv mu0 dimension w losses : 1 <= mu0 -> 1 <= dimension ->
  ps_inv mu0 dimension w (ps_run (ps_init (4 * mu0) mu0 dimension w) losses).
Proof.
  intros H0 Hd. induction losses as [|x l IH] using rev_ind.
  - apply ps_init_inv; assumption.
  - rewrite ps_run_snoc. apply ps_add_inv; assumption.
Qed.

Lemma ps_run_growth mu0 dimension w losses : 1 <= mu0 -> 1 <= dimension ->
  let s := ps_run (ps_init (4 * mu0) mu0 dimension w) losses in
  5 * ps_lambda s + length (ps_record s) <= 5 * Nat.max (4 * mu0) w + length losses.
Proof.
  intros H0 Hd. induction losses as [|x l IH] using rev_ind; cbn zeta in *.
  - unfold ps_run, ps_init. cbn [fold_left ps_lambda ps_record length]. lia.
  - rewrite ps_run_snoc, app_length; cbn [length].
    destruct (ps_run_inv mu0 dimension w l H0 Hd) as (I1 & I2 & I3 & I4 & I5 & I6 & I7).
    destruct (ps_add_cases x (ps_run (ps_init (4 * mu0) mu0 dimension w) l)) as [[E ->]|[E (mu & Hmu & ->)]];
      set (s := ps_run (ps_init (4 * mu0) mu0 dimension w) l) in *.
    + cbn [ps_lambda ps_record]. rewrite app_length; cbn [length]. lia.
    + assert (Hm : 4 * mu <= 2 * ps_lambda s).
      { destruct Hmu as [-> | ->]; [lia|].
        pose proof (shrink_le (ps_min_mu s) (ps_mu s)). lia. }
      destruct (1 <? ps_workers s); cbn [ps_lambda ps_record length]; [|lia].
      rewrite I2. lia.
Qed.

(** nothing changes before the test *)
Lemma ps_run_short s losses : length (ps_record s) + length losses < 5 * ps_lambda s ->
  ps_run s losses = PopSize (ps_lambda s) (ps_mu s) (ps_min_mu s) (ps_workers s) (ps_record s ++ losses).
Proof.
  induction losses as [|x l IH] using rev_ind; intros H.
  - rewrite app_nil_r. destruct s; reflexivity.
  - rewrite app_length in H; cbn [length] in H.
    rewrite ps_run_snoc, IH by lia.
    destruct (ps_add_cases x (PopSize (ps_lambda s) (ps_mu s) (ps_min_mu s) (ps_workers s) (ps_record s ++ l)))
      as [[_ ->]|[E _]].
    + cbn [ps_lambda ps_mu ps_min_mu ps_workers ps_record]. rewrite app_assoc. reflexivity.
    + exfalso. cbn [ps_lambda ps_record] in E. rewrite app_length in E. lia.
Qed.

(** ** The test *)
Lemma qnat_INR n : Q2R (qnat n) = INR n.
Proof.
  unfold qnat. rewrite INR_IZR_INZ. unfold Q2R, inject_Z; cbn. lra.
Qed.

Lemma qsum_sq_nonneg (f : Q -> Q) l : (0 <= qsum (map (fun x => f x * f x) l))%Q.
Proof.
  induction l as [|x l IH]; cbn [map qsum fold_right]; [apply Qle_refl|].
  apply (Qplus_le_compat 0 _ 0); [|exact IH].
  unfold Qle, Qmult; cbn. nia.
Qed.

Lemma qvar_nonneg l : (0 <= qvar l)%Q.
Proof.
  unfold qvar. destruct l as [|x l]; [cbn; discriminate|].
  apply Qle_shift_div_l; [unfold qnat, Qlt; cbn; lia|].
  rewrite Qmult_0_l. apply (qsum_sq_nonneg (fun y => y - qmean (x :: l))%Q).
Qed.

Lemma std_error_sq n l : 2 <= n ->
  (std_error n l * std_error n l = Q2R (qvar l / qnat (n - 1)))%R.
Proof.
  intros H. unfold std_error.
  assert (Hn : (0 < INR n - 1)%R).
  { replace 1%R with (INR 1) by reflexivity. rewrite <- minus_INR by lia. apply lt_0_INR. lia. }
  rewrite Q2R_div by (unfold qnat, Qeq; cbn; lia).
  rewrite qnat_INR, minus_INR by lia. cbn [INR].
  pose proof (Qle_Rle _ _ (qvar_nonneg l)) as Hv. rewrite RMicromega.Q2R_0 in Hv.
  pose proof (sqrt_sqrt _ Hv) as E1.
  pose proof (sqrt_sqrt (INR n - 1) (Rlt_le _ _ Hn)) as E2.
  pose proof (sqrt_lt_R0 _ Hn).
  rewrite <- E1 at 3. rewrite <- E2 at 3. field. lra.
Qed.

(** the boolean test is the comparison of the statistic with 2 *)
Lemma no_progress_z n first last : 2 <= n -> ~ (qvar first + qvar last == 0)%Q ->
  no_progress n first last = true <-> (z_value n first last < 2)%R.
Proof.
  intros Hn Hv.
  unfold no_progress, z_value.
  set (vq := (qvar first / qnat (n - 1) + qvar last / qnat (n - 1))%Q).
  assert (Ev : (std_error n first * std_error n first + std_error n last * std_error n last = Q2R vq)%R).
  { unfold vq. rewrite Q2R_plus, !std_error_sq by exact Hn. reflexivity. }
  rewrite Ev.
  assert (Hpos : (0 < Q2R vq)%R).
  { rewrite <- RMicromega.Q2R_0. apply Qlt_Rlt. unfold vq.
    assert (E : (qvar first / qnat (n - 1) + qvar last / qnat (n - 1) == (qvar first + qvar last) / qnat (n - 1))%Q)
      by (unfold Qdiv; ring).
    rewrite E. apply Qlt_shift_div_l; [unfold qnat, Qlt; cbn; lia|].
    rewrite Qmult_0_l.
    assert (H0 : (0 <= qvar first + qvar last)%Q).
    { apply (Qplus_le_compat 0 _ 0); apply qvar_nonneg. }
    apply Qle_lteq in H0. destruct H0 as [H0|H0]; [exact H0|]. exfalso. apply Hv. symmetry. exact H0. }
  pose proof (sqrt_lt_R0 _ Hpos) as Hs.
  pose proof (sqrt_sqrt _ (Rlt_le _ _ Hpos)) as Es.
  set (d := (qmean first - qmean last)%Q).
  assert (Ed : (Q2R (qmean first) - Q2R (qmean last) = Q2R d)%R) by (unfold d; rewrite Q2R_minus; reflexivity).
  rewrite Ed.
  assert (Z : forall a b, qlt a b = true <-> (Q2R a < Q2R b)%R).
  { intros a b. rewrite qlt_iff. split; [apply Qlt_Rlt|apply Rlt_Qlt]. }
  rewrite orb_true_iff, !Z, !Q2R_mult.
  replace (Q2R 4) with 4%R by (unfold Q2R; cbn; lra).
  replace (Q2R 0) with 0%R by (unfold Q2R; cbn; lra).
  set (x := Q2R d) in *. set (sv := sqrt (Q2R vq)) in *. rewrite <- Es.
  assert (L : (x / sv < 2)%R <-> (x < 2 * sv)%R).
  { split; intros H.
    - apply (Rmult_lt_compat_r sv) in H; [|exact Hs]. unfold Rdiv in H.
      rewrite Rmult_assoc, Rinv_l in H by lra. lra.
    - apply (Rmult_lt_reg_r sv); [exact Hs|]. unfold Rdiv. rewrite Rmult_assoc, Rinv_l by lra. lra. }
  rewrite L. split.
  - intros [H|H]; [lra|]. nra.
  - intros H. destruct (Rlt_le_dec x 0); [left; lra|right; nra].
Qed.

(** without dispersion, only a worse mean counts as no progress *)
Lemma no_progress_flat n first last : 2 <= n -> (qvar first == 0)%Q -> (qvar last == 0)%Q ->
  no_progress n first last = true <-> (qmean first < qmean last)%Q.
Proof.
  intros Hn H1 H2. unfold no_progress.
  set (d := (qmean first - qmean last)%Q).
  assert (E : (4 * (qvar first / qnat (n - 1) + qvar last / qnat (n - 1)) == 0)%Q)
    by (rewrite H1, H2; unfold Qdiv; ring).
  rewrite orb_true_iff, !qlt_iff, E.
  assert (Hsq : ~ (d * d < 0)%Q).
  { apply Qle_not_lt. generalize d. intros q. unfold Qle, Qmult; cbn. nia. }
  unfold d. split.
  - intros [H|H]; [|contradiction].
    apply (Qplus_lt_l _ _ (- qmean last)). setoid_replace (qmean last + - qmean last)%Q with 0%Q by ring. exact H.
  - intros H. left. apply (Qplus_lt_l _ _ (- qmean last)) in H.
    setoid_replace (qmean last + - qmean last)%Q with 0%Q in H by ring. exact H.
Qed.

From Coq Require Import List Arith ZArith QArith Qabs Bool Lqa Lia Setoid Morphisms.
From Verif.Model Require Import MultiValue.
From Verif.Spec Require Import MultiValue.
Import ListNotations.
Open Scope Q_scope.

Lemma qlt_iff a b : qlt a b = true <-> a < b.
Proof.
  unfold qlt. rewrite negb_true_iff. split.
  - intros H. apply Qnot_le_lt. intros H2. apply Qle_bool_iff in H2. congruence.
  - intros H. destruct (Qle_bool b a) eqn:E; [|easy]. apply Qle_bool_iff in E. lra.
Qed.
Lemma qlt_false a b : qlt a b = false <-> b <= a.
Proof.
  unfold qlt. rewrite negb_false_iff. apply Qle_bool_iff.
Qed.
Lemma qle_iff a b : qle a b = true <-> a <= b.
Proof. apply Qle_bool_iff. Qed.
Lemma qle_false a b : qle a b = false <-> b < a.
Proof.
  unfold qle. rewrite <- qlt_iff. unfold qlt. destruct (Qle_bool a b); cbn; split; congruence.
Qed.

Lemma qlt_spec a b : reflect (a < b) (qlt a b).
Proof. destruct (qlt a b) eqn:E; constructor; [now apply qlt_iff|apply qlt_false in E; lra]. Qed.
Lemma qle_spec a b : reflect (a <= b) (qle a b).
Proof. destruct (qle a b) eqn:E; constructor; [now apply qle_iff|apply qle_false in E; lra]. Qed.

Lemma qmin_le_l a b : qmin a b <= a.
Proof. unfold qmin. destruct (qlt_spec b a); lra. Qed.
Lemma qmin_le_r a b : qmin a b <= b.
Proof. unfold qmin. destruct (qlt_spec b a); lra. Qed.
Lemma qmin_or a b : qmin a b = a \/ qmin a b = b.
Proof. unfold qmin. destruct (qlt b a); tauto. Qed.
Lemma qmax_ge_l a b : a <= qmax a b.
Proof. unfold qmax. destruct (qlt_spec a b); lra. Qed.
Lemma qmax_ge_r a b : b <= qmax a b.
Proof. unfold qmax. destruct (qlt_spec a b); lra. Qed.
Lemma qmax_left a b : b <= a -> qmax a b = a.
Proof. unfold qmax. destruct (qlt_spec a b); [lra|easy]. Qed.

Lemma qnat_0 : qnat 0 == 0. Proof. reflexivity. Qed.
Lemma qnat_S n : qnat (S n) == qnat n + 1.
Proof.
  unfold qnat. rewrite Nat2Z.inj_succ. unfold Z.succ. rewrite inject_Z_plus. reflexivity.
Qed.
Lemma qnat_nonneg n : 0 <= qnat n.
Proof. unfold qnat. change 0 with (inject_Z 0). rewrite <- Zle_Qle. lia. Qed.
Lemma qnat_pos n : (0 < n)%nat -> 0 < qnat n.
Proof. intros H. unfold qnat. change 0 with (inject_Z 0). rewrite <- Zlt_Qlt. lia. Qed.
Lemma qnat_plus a b : qnat (a + b) == qnat a + qnat b.
Proof. unfold qnat. rewrite Nat2Z.inj_add, inject_Z_plus. reflexivity. Qed.

Lemma mv_clip_id y : in_range y -> mv_clip y = y.
Proof.
  unfold in_range, mv_clip, big. intros [H1 H2].
  destruct (qlt_spec 10000000000 y); [lra|].
  destruct (qlt_spec y (-(10000000000))); [lra|easy].
Qed.

(** sums *)
Lemma sumQ_app l1 l2 : sumQ (l1 ++ l2) == sumQ l1 + sumQ l2.
Proof. induction l1 as [|a l1 IH]; cbn; [lra|]. rewrite IH. lra. Qed.

Lemma sumQ_map_ext (f g : Q -> Q) l : (forall x, f x == g x) -> sumQ (map f l) == sumQ (map g l).
Proof. intros H. induction l as [|a l IH]; cbn; [lra|]. rewrite IH, H. lra. Qed.

Lemma sumQ_sqdev l m :
  sumQ (map (fun y => (y - m) * (y - m)) l)
  == sumQ (map (fun y => y * y) l) - 2 * m * sumQ l + qnat (length l) * (m * m).
Proof.
  induction l as [|a l IH]; cbn [map sumQ length].
  - unfold qnat. cbn. ring.
  - rewrite IH, qnat_S. ring.
Qed.

Lemma sumQ_nonneg (f : Q -> Q) l : (forall x, 0 <= f x) -> 0 <= sumQ (map f l).
Proof. intros H. induction l as [|a l IH]; cbn; [lra|]. specialize (H a). lra. Qed.

Lemma Qsq_nonneg (x : Q) : 0 <= x * x.
Proof. nra. Qed.

Lemma mean_mul l : l <> [] -> qnat (length l) * meanQ l == sumQ l.
Proof.
  intros H. unfold meanQ. field. destruct l; [easy|]. cbn [length].
  pose proof (qnat_pos (S (length l)) ltac:(lia)). lra.
Qed.

(** mean square = variance + square of the mean *)
Lemma meansq_var l : l <> [] ->
  meanQ (map (fun y => y * y) l) == varQ l + meanQ l * meanQ l.
Proof.
  intros H. unfold varQ. unfold meanQ at 1 2. rewrite !map_length.
  rewrite sumQ_sqdev. pose proof (mean_mul l H) as Hm. rewrite <- Hm.
  assert (Hp : 0 < qnat (length l)) by (apply qnat_pos; destruct l; [easy|cbn; lia]).
  field. lra.
Qed.

Lemma varQ_nonneg l : l <> [] -> 0 <= varQ l.
Proof.
  intros H. unfold varQ, meanQ at 1. rewrite map_length.
  assert (Hp : 0 < qnat (length l)) by (apply qnat_pos; destruct l; [easy|cbn; lia]).
  apply Qle_shift_div_l; [easy|]. rewrite Qmult_0_l.
  apply sumQ_nonneg. intros x. apply Qsq_nonneg.
Qed.

Section Sqrt.
  Variable msqrt : Q -> Q.
  Notation mv_add := (mv_add msqrt).
  Notation mv_eval := (mv_eval msqrt).

  (** [m] holds the statistics of the non-empty list [l]. *)
  Record stats (m : mv) (l : list Q) : Prop := {
    st_count : mv_count m = length l;
    st_mean : mv_mean m == meanQ l;
    st_min : is_minimum (mv_min m) l;
    st_square : mv_square m == meanQ (map (fun y => y * y) l) }.

  Lemma stats_new c y : stats (mv_new c y) [y].
  Proof.
    constructor; cbn.
    - reflexivity.
    - unfold meanQ, qnat; cbn. field.
    - split; [exists y; split; [now left|lra]|]. intros z [->|[]]. lra.
    - unfold meanQ, qnat; cbn. field.
  Qed.

  Lemma stats_add m l y : l <> [] -> in_range y -> stats m l -> stats (mv_add y m) (l ++ [y]).
  Proof.
    intros Hl Hy [Hc Hm Hmin Hsq]. unfold MultiValue.mv_add.
    rewrite (mv_clip_id y Hy). cbn zeta.
    assert (Hp : 0 < qnat (length l)) by (apply qnat_pos; destruct l; [easy|cbn; lia]).
    assert (Hcount : (mv_count m + 1)%nat = length (l ++ [y])) by (rewrite app_length, Hc; cbn; lia).
    assert (Hq : qnat (mv_count m + 1) == qnat (length l) + 1).
    { rewrite Hc, qnat_plus. reflexivity. }
    assert (Hmean : qnat (mv_count m) / qnat (mv_count m + 1) * mv_mean m + y / qnat (mv_count m + 1)
                    == meanQ (l ++ [y])).
    { rewrite Hq, Hm, Hc. unfold meanQ. rewrite app_length, sumQ_app. cbn [length sumQ].
      rewrite qnat_plus. change (qnat 1) with 1. field. split; lra. }
    assert (Hsquare : (qnat (mv_count m) * mv_square m + y * y) / qnat (mv_count m + 1)
                      == meanQ (map (fun y => y * y) (l ++ [y]))).
    { rewrite Hq, Hsq, Hc. unfold meanQ. rewrite map_app, !app_length, !map_length, sumQ_app.
      cbn [length sumQ map]. rewrite qnat_plus. change (qnat 1) with 1. field. split; lra. }
    assert (Hne : l ++ [y] <> []) by (destruct l; easy).
    constructor; cbn [mv_count mv_mean mv_min mv_square].
    - exact Hcount.
    - exact Hmean.
    - destruct Hmin as [(z & Hz & Ez) Hall]. split.
      + destruct (qmin_or (mv_min m) y) as [E|E]; rewrite E.
        * exists z. rewrite in_app_iff. tauto.
        * exists y. rewrite in_app_iff. split; [right; now left|lra].
      + intros z' Hz'. apply in_app_iff in Hz' as [Hz'|[<-|[]]].
        * pose proof (qmin_le_l (mv_min m) y). specialize (Hall _ Hz'). lra.
        * apply qmin_le_r.
    - rewrite qmax_left; [exact Hsquare|].
      rewrite Hsquare, Hmean, meansq_var by exact Hne.
      pose proof (varQ_nonneg _ Hne). lra.
  Qed.

  (** after at least one re-evaluation the variance is [factor * varQ] *)
  Lemma stats_var m l y : l <> [] -> in_range y -> stats m l ->
    mv_var (mv_add y m)
    == msqrt (qnat (length l + 1) / (qnat (length l + 1) - 1)) * varQ (l ++ [y]).
  Proof.
    intros Hl Hy Hs. pose proof (stats_add m l y Hl Hy Hs) as Hs'.
    assert (Hne : l ++ [y] <> []) by (destruct l; easy).
    pose proof (meansq_var _ Hne) as Hv.
    destruct Hs' as [_ Hm _ Hsq].
    assert (E : mv_var (mv_add y m)
      = msqrt (qnat (mv_count m + 1) / (qnat (mv_count m + 1) - 1)) *
        (mv_square (mv_add y m) - mv_mean (mv_add y m) * mv_mean (mv_add y m))) by reflexivity.
    rewrite E, (st_count _ _ Hs), Hsq, Hm, Hv. ring.
  Qed.

  Lemma mv_param_add y m : mv_param (mv_add y m) = mv_param m.
  Proof. reflexivity. Qed.

  Lemma eval_snoc c y ys z : mv_eval c y (ys ++ [z]) = mv_add z (mv_eval c y ys).
  Proof. unfold MultiValue.mv_eval. now rewrite fold_left_app. Qed.

  Lemma eval_stats c y ys : Forall in_range ys -> stats (mv_eval c y ys) (y :: ys).
  Proof.
    induction ys as [|z ys IH] using rev_ind; intros H.
    - apply stats_new.
    - apply Forall_app in H as [H1 H2]. inversion H2; subst.
      rewrite eval_snoc. change (y :: ys ++ [z]) with ((y :: ys) ++ [z]).
      apply stats_add; [easy|easy|auto].
  Qed.

  Lemma eval_var c y ys z : Forall in_range (ys ++ [z]) ->
    mv_var (mv_eval c y (ys ++ [z]))
    == msqrt (qnat (length ys + 2) / (qnat (length ys + 2) - 1)) * varQ (y :: ys ++ [z]).
  Proof.
    intros H. apply Forall_app in H as [H1 H2]. inversion H2; subst.
    rewrite eval_snoc, (stats_var _ (y :: ys)); [|easy|easy|now apply eval_stats].
    cbn [length app]. replace (length ys + 2)%nat with (S (length ys) + 1)%nat by lia. reflexivity.
  Qed.

  (** clipping *)
  Lemma mv_clip_in_range y : in_range (mv_clip y).
  Proof.
    unfold mv_clip, in_range, big. destruct (qlt _ y) eqn:E1; [split; discriminate|].
    destruct (qlt y _) eqn:E2; [split; discriminate|].
    apply qlt_false in E1. apply qlt_false in E2. split; [exact E2|exact E1].
  Qed.
  Lemma mv_clip_nearest y : nearest_in_range y (mv_clip y).
  Proof.
    split; [apply mv_clip_in_range|]. intros w [Hw1 Hw2]. unfold mv_clip, big.
    destruct (qlt _ y) eqn:E1.
    - apply qlt_iff in E1. rewrite !Qabs_pos; lra.
    - destruct (qlt y _) eqn:E2.
      + apply qlt_iff in E2. rewrite !Qabs_neg; lra.
      + setoid_replace (y - y) with 0 by ring. apply Qabs_nonneg.
  Qed.
  Lemma eval_clipped c y ys :
    exists zs, Forall2 nearest_in_range ys zs /\ Forall in_range zs /\ mv_eval c y ys = mv_eval c y zs.
  Proof.
    exists (map mv_clip ys). split; [|split].
    - induction ys; constructor; [apply mv_clip_nearest|easy].
    - apply Forall_forall. intros z Hz. apply in_map_iff in Hz as (x & <- & _). apply mv_clip_in_range.
    - induction ys as [|z ys IH] using rev_ind; [easy|]. rewrite map_app. cbn [map].
      rewrite !eval_snoc, <- IH. unfold MultiValue.mv_add.
      rewrite (mv_clip_id (mv_clip z) (mv_clip_in_range z)). reflexivity.
  Qed.

  Hypothesis Hsqrt : nonneg_fun msqrt.

  Lemma mv_add_var_nonneg y m : (1 <= mv_count m)%nat -> 0 <= mv_var (mv_add y m).
  Proof.
    intros Hc. unfold MultiValue.mv_add. cbn zeta. cbn [mv_var].
    apply Qmult_le_0_compat.
    - apply Hsqrt. apply Qle_shift_div_l.
      + rewrite qnat_plus. change (qnat 1) with 1. pose proof (qnat_pos (mv_count m) ltac:(lia)). lra.
      + rewrite Qmult_0_l. apply qnat_nonneg.
    - match goal with |- 0 <= qmax ?a ?b - ?b => pose proof (qmax_ge_r a b) end. lra.
  Qed.

  Lemma eval_count_pos c y ys : (1 <= mv_count (mv_eval c y ys))%nat.
  Proof.
    induction ys as [|z ys IH] using rev_ind; [cbn; lia|].
    rewrite eval_snoc. cbn. lia.
  Qed.

  Lemma eval_var_nonneg c y ys : 0 <= mv_var (mv_eval c y ys).
  Proof.
    induction ys as [|z ys IH] using rev_ind.
    - cbn. unfold Qle; cbn; lia.
    - rewrite eval_snoc. apply mv_add_var_nonneg, eval_count_pos.
  Qed.

  Lemma width_nonneg m : 0 <= mv_var m -> 0 <= mv_width msqrt m.
  Proof.
    intros H. unfold mv_width. apply Qmult_le_0_compat; [lra|]. apply Hsqrt.
    apply Qle_shift_div_l; [|lra]. pose proof (qnat_nonneg (mv_count m)). lra.
  Qed.

  Lemma eval_bounds c y ys :
    let m := mv_eval c y ys in
    mv_est msqrt Optimistic m <= mv_est msqrt Average m /\
    mv_est msqrt Average m <= mv_est msqrt Pessimistic m.
  Proof.
    cbn. pose proof (width_nonneg _ (eval_var_nonneg c y ys)).
    unfold mv_optimistic, mv_pessimistic. lra.
  Qed.
End Sqrt.

Lemma sum_zero_all (f : Q -> Q) l : (forall x, 0 <= f x) -> sumQ (map f l) == 0 ->
  forall y, In y l -> f y == 0.
Proof.
  intros Hf. induction l as [|a l IH]; cbn; [easy|].
  intros H y [->|Hy].
  - pose proof (sumQ_nonneg f l Hf). specialize (Hf y). lra.
  - apply IH; [|easy]. pose proof (sumQ_nonneg f l Hf). specialize (Hf a). lra.
Qed.

Lemma varQ_zero l : l <> [] -> (varQ l == 0 <-> forall x y, In x l -> In y l -> x == y).
Proof.
  intros Hl.
  assert (Hp : 0 < qnat (length l)) by (apply qnat_pos; destruct l; [easy|cbn; lia]).
  unfold varQ, meanQ at 1. rewrite map_length. split.
  - intros H.
    assert (Hs : sumQ (map (fun y => (y - meanQ l) * (y - meanQ l)) l) == 0).
    { set (s := sumQ _) in *.
      assert (E : s == s / qnat (length l) * qnat (length l)) by (field; lra).
      rewrite E, H. ring. }
    pose proof (sum_zero_all (fun y => (y - meanQ l) * (y - meanQ l)) l
                 (fun x => Qsq_nonneg _) Hs) as Hz. cbn beta in Hz.
    assert (Hm : forall x, In x l -> x == meanQ l).
    { intros x Hx. specialize (Hz x Hx). apply Qmult_integral in Hz. lra. }
    intros x y Hx Hy. rewrite (Hm x Hx), (Hm y Hy). reflexivity.
  - intros H. destruct l as [|a l]; [easy|].
    assert (Hm : meanQ (a :: l) == a).
    { unfold meanQ.
      assert (forall l', (forall x, In x l' -> x == a) -> sumQ l' == qnat (length l') * a) as Hs.
      { induction l' as [|b l' IH]; intros H'; cbn [sumQ length].
        - unfold qnat; cbn. ring.
        - rewrite IH by (intros; apply H'; now right).
          rewrite (H' b) by now left. rewrite qnat_S. ring. }
      rewrite Hs by (intros x Hx; apply H; [easy|now left]). field. lra. }
    assert (Hs : sumQ (map (fun y => (y - meanQ (a :: l)) * (y - meanQ (a :: l))) (a :: l)) == 0).
    { set (mm := meanQ (a :: l)) in *.
      assert (Hall : forall x, In x (a :: l) -> x == mm).
      { intros x Hx. rewrite Hm. apply H; [easy|now left]. }
      revert Hall. generalize (a :: l). induction l0 as [|b l0 IH]; cbn; intros Hall; [lra|].
      rewrite IH by (intros; apply Hall; now right). rewrite (Hall b) by now left. ring. }
    rewrite Hs. field. lra.
Qed.

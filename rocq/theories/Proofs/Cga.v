From Coq Require Import List Arith QArith Bool Lia Lqa Qfield.
From Verif.Model Require Import Prelude MultiValue Cga.
From Verif.Spec Require Import Cga.
From Verif.Proofs Require Import MultiValue.
Import ListNotations.
Open Scope nat_scope.

Lemma qtotal_total l : qtotal l = total l.
Proof. induction l as [|x l IH]; [reflexivity|]. cbn [qtotal total fold_right]. fold (total l). rewrite IH. reflexivity. Qed.
Lemma total_repeat x n : (total (repeat x n) == qnat n * x)%Q.
Proof. induction n as [|n IH]; [change (total (repeat x 0)) with 0%Q; rewrite qnat_0; ring|]. cbn [repeat total fold_right]. fold (total (repeat x n)). rewrite IH, qnat_S. ring. Qed.
Lemma total_map_scale c l : (total (map (fun x => x * c) l) == total l * c)%Q.
Proof. induction l as [|x l IH]; cbn [map total fold_right]; [ring|]. fold (total (map (fun x => x * c)%Q l)) (total l). rewrite IH. ring. Qed.
Lemma total_map_div c l : (total (map (fun x => x / c) l) == total l / c)%Q.
Proof. exact (total_map_scale (/ c) l). Qed.
Lemma total_nonneg l : (forall x, In x l -> (0 <= x)%Q) -> (0 <= total l)%Q.
Proof.
  induction l as [|x l IH]; intros H; cbn; [apply Qle_refl|]. fold (total l).
  pose proof (H x (or_introl eq_refl)). specialize (IH (fun y Hy => H y (or_intror Hy))). lra.
Qed.
Lemma total_ge_one l x : (forall y, In y l -> (0 <= y)%Q) -> In x l -> (x <= total l)%Q.
Proof.
  induction l as [|y l IH]; intros H Hx; [destruct Hx|]. destruct Hx as [->|Hin]; cbn [total fold_right]; fold (total l).
  - pose proof (total_nonneg l (fun z Hz => H z (or_intror Hz))). lra.
  - pose proof (H y (or_introl eq_refl)). specialize (IH (fun z Hz => H z (or_intror Hz)) Hin). lra.
Qed.

Lemma upd_length i f l : length (upd i f l) = length l.
Proof. revert i. induction l as [|x l IH]; intros [|i]; cbn; auto. Qed.
Lemma upd_nth i f l j : nth_error (upd i f l) j = if Nat.eq_dec j i then option_map f (nth_error l j) else nth_error l j.
Proof.
  revert i j. induction l as [|x l IH]; intros i j.
  - replace (upd i f []) with (@nil Q) by (destruct i; reflexivity).
    destruct (Nat.eq_dec j i); destruct j; reflexivity.
  - destruct i as [|i], j as [|j]; cbn [upd nth_error].
    + destruct (Nat.eq_dec 0 0); [reflexivity|lia].
    + destruct (Nat.eq_dec (S j) 0); [lia|reflexivity].
    + destruct (Nat.eq_dec 0 (S i)); [lia|reflexivity].
    + rewrite IH. destruct (Nat.eq_dec j i), (Nat.eq_dec (S j) (S i)); auto; lia.
Qed.
Lemma upd_total i d l x : nth_error l i = Some x -> (total (upd i (fun x => x + d) l) == total l + d)%Q.
Proof.
  revert i. induction l as [|y l IH]; intros [|i] H; try discriminate H; cbn [upd total fold_right].
  - fold (total l). ring.
  - fold (total l) (total (upd i (fun x => x + d)%Q l)). rewrite (IH i H). ring.
Qed.

(** ** One row *)
Section Row.
  Variables (lam n w l : nat) (row : list Q).
  Hypothesis Hlam : 0 < lam.
  Hypothesis Hlen : length row = n.
  Hypothesis Hsum : (total row == 1)%Q.
  Hypothesis Hpos : forall x, In x row -> (0 <= x)%Q.
  Hypothesis Hw : w < n.
  Hypothesis Hl : l < n.
  Hypothesis Hwl : w <> l.
  Let step : Q := (1 / qnat lam)%Q.
  Let moved := upd l (fun x => x - step)%Q (upd w (fun x => x + step)%Q row).
  Let lifted := map (fun x => qmax x step) moved.

  Lemma step_pos : (0 < step)%Q.
  Proof. unfold step. apply Qlt_shift_div_l; [apply qnat_pos; exact Hlam|]. lra. Qed.
  Lemma moved_total : (total moved == 1)%Q.
  Proof.
    unfold moved.
    destruct (nth_error row w) as [x|] eqn:Ex; [|apply nth_error_None in Ex; lia].
    destruct (nth_error (upd w (fun x => x + step)%Q row) l) as [y|] eqn:Ey;
      [|apply nth_error_None in Ey; rewrite upd_length in Ey; lia].
    rewrite (upd_total l (- step)%Q _ y Ey : (total (upd l (fun x => x - step)%Q (upd w (fun x => x + step)%Q row)) == _)%Q), (upd_total w step _ x Ex), Hsum. ring.
  Qed.
  Lemma moved_nth j : nth_error moved j =
    option_map (fun x => if Nat.eq_dec j w then (x + step)%Q else if Nat.eq_dec j l then (x - step)%Q else x) (nth_error row j).
  Proof.
    unfold moved. rewrite !upd_nth. destruct (Nat.eq_dec j l), (Nat.eq_dec j w), (nth_error row j); cbn; auto; lia.
  Qed.
  Lemma lifted_ge x : In x lifted -> (step <= x)%Q.
  Proof. unfold lifted. intros H. apply in_map_iff in H as (y & <- & _). apply qmax_ge_r. Qed.
  Lemma qmax_cases a b : (a < b /\ qmax a b = b \/ b <= a /\ qmax a b = a)%Q.
  Proof. unfold qmax. destruct (qlt a b) eqn:Q; [apply qlt_iff in Q|apply qlt_false in Q]; auto. Qed.
  Lemma total_qmax_ge m : (total m <= total (map (fun x => qmax x step) m))%Q.
  Proof.
    induction m as [|x m IH]; cbn; [apply Qle_refl|]. fold (total m) (total (map (fun x => qmax x step) m)).
    pose proof (qmax_ge_l x step). lra.
  Qed.
  Lemma lifted_total : (1 <= total lifted)%Q.
  Proof. rewrite <- moved_total. apply total_qmax_ge. Qed.
  Lemma moved_length : length moved = n.
  Proof. unfold moved. rewrite !upd_length. exact Hlen. Qed.
  Lemma row_update_eq : row_update lam w l row = map (fun x => x / total lifted)%Q lifted.
  Proof. unfold row_update. rewrite (proj2 (Nat.eqb_neq w l) Hwl). rewrite qtotal_total. reflexivity. Qed.
  Lemma row_update_total : (total (row_update lam w l row) == 1)%Q.
  Proof. rewrite row_update_eq, total_map_div. pose proof lifted_total. field. lra. Qed.
  Lemma row_update_compared : compared step w l row (row_update lam w l row).
  Proof.
    unfold compared. destruct (Nat.eq_dec w l); [contradiction|]. split; [|split].
    - rewrite row_update_eq. unfold lifted. rewrite !map_length, moved_length. auto.
    - apply row_update_total.
    - exists (total lifted). split; [apply lifted_total|]. intros j x Hx.
      pose proof lifted_total as T.
      rewrite row_update_eq. unfold lifted at 2. rewrite map_map.
      pose proof (moved_nth j) as M. rewrite Hx in M. cbn [option_map] in M.
      rewrite (map_nth_error (fun x0 => (qmax x0 step / total lifted)%Q) _ _ M).
      eexists. split; [reflexivity|]. cbv zeta.
      set (m := if Nat.eq_dec j w then (x + step)%Q else if Nat.eq_dec j l then (x - step)%Q else x).
      split; intros Hm.
      + rewrite (qmax_left _ _ Hm). field. lra.
      + assert (E : (qmax m step == step)%Q).
        { unfold qmax. destruct (qlt m step) eqn:Q; [reflexivity|]. apply qlt_false in Q. lra. }
        rewrite E. field. lra.
  Qed.

  (** the sum after lifting is at most 1 + (n + 1) * step *)
  Lemma qmax_add x d : (0 <= x + d)%Q -> (0 <= d)%Q -> (qmax x step <= x + d + step)%Q.
  Proof. pose proof step_pos. destruct (qmax_cases x step) as [[? ->]|[? ->]]; lra. Qed.
  Lemma total_qmax_nonneg m : (forall x, In x m -> (0 <= x)%Q) ->
    (total (map (fun x => qmax x step) m) <= total m + qnat (length m) * step)%Q.
  Proof.
    induction m as [|x m IH]; intros H; [change (0 <= 0 + qnat 0 * step)%Q; rewrite qnat_0; lra|]. cbn [map total fold_right length].
    fold (total m) (total (map (fun x => qmax x step) m)). specialize (IH (fun y Hy => H y (or_intror Hy))).
    pose proof (qmax_add x 0 ltac:(pose proof (H x (or_introl eq_refl)); lra) ltac:(lra)). rewrite qnat_S. lra.
  Qed.
  Lemma total_qmax_loser m j : (forall x, In x m -> (0 <= x)%Q) ->
    (total (map (fun x => qmax x step) (upd j (fun x => x - step) m)) <= total (map (fun x => qmax x step) m) )%Q.
  Proof.
    revert j. induction m as [|x m IH]; intros [|j] H; cbn [upd map total fold_right]; try lra;
      fold (total m) (total (map (fun x => qmax x step) m)); try fold (total (map (fun x => qmax x step) (upd j (fun x => x - step)%Q m))).
    - pose proof step_pos. assert (qmax (x - step) step <= qmax x step)%Q; [|lra].
      destruct (qmax_cases (x - step) step) as [[? ->]|[? ->]], (qmax_cases x step) as [[? ->]|[? ->]]; lra.
    - specialize (IH j (fun y Hy => H y (or_intror Hy))). lra.
  Qed.
  Lemma lifted_total_le : (total lifted <= 1 + (qnat n + 1) * step)%Q.
  Proof.
    pose proof step_pos as P.
    unfold lifted, moved. eapply Qle_trans; [apply total_qmax_loser|].
    - intros x Hx. apply In_nth_error in Hx as (j & Hj). rewrite upd_nth in Hj.
      destruct (Nat.eq_dec j w).
      + destruct (nth_error row j) as [y|] eqn:Ey; cbn in Hj; [|discriminate Hj]. injection Hj as <-.
        pose proof (Hpos y (nth_error_In _ _ Ey)). lra.
      + apply Hpos. eapply nth_error_In; eauto.
    - eapply Qle_trans; [apply total_qmax_nonneg|].
      + intros x Hx. apply In_nth_error in Hx as (j & Hj). rewrite upd_nth in Hj.
        destruct (Nat.eq_dec j w).
        * destruct (nth_error row j) as [y|] eqn:Ey; cbn in Hj; [|discriminate Hj]. injection Hj as <-.
          pose proof (Hpos y (nth_error_In _ _ Ey)). lra.
        * apply Hpos. eapply nth_error_In; eauto.
      + destruct (nth_error row w) as [x|] eqn:Ex; [|apply nth_error_None in Ex; lia].
        rewrite (upd_total w step _ x Ex), upd_length, Hlen, Hsum. lra.
  Qed.

  Lemma row_update_low x : In x (row_update lam w l row) -> (1 / (qnat lam + qnat n + 1) <= x)%Q.
  Proof.
    rewrite row_update_eq. intros H. apply in_map_iff in H as (y & <- & Hy).
    pose proof (lifted_ge y Hy) as G. pose proof lifted_total as T. pose proof lifted_total_le as T2.
    pose proof (qnat_pos lam Hlam) as L. pose proof (qnat_nonneg n) as N.
    apply Qle_shift_div_l; [lra|]. apply Qle_trans with step; [|exact G].
    assert (E : (step * qnat lam == 1)%Q) by (unfold step; field; lra).
    setoid_replace (1 / (qnat lam + qnat n + 1) * total lifted)%Q with (total lifted / (qnat lam + qnat n + 1))%Q by (field; lra).
    apply Qle_shift_div_r; [lra|].
    setoid_replace (step * (qnat lam + qnat n + 1))%Q with (1 + (qnat n + 1) * step)%Q by (rewrite <- E; ring).
    exact T2.
  Qed.

  (** every entry is at least step, so that one entry is at most total - (n - 1) * step *)
  Lemma total_others m y : (forall x, In x m -> (step <= x)%Q) -> In y m -> (y + (qnat (length m) - 1) * step <= total m)%Q.
  Proof.
    induction m as [|z m IH]; intros H Hx; [destruct Hx|]. destruct Hx as [->|Hin]; cbn [total fold_right length]; fold (total m); rewrite qnat_S.
    - assert (qnat (length m) * step <= total m)%Q; [|lra].
      assert (Hm : forall x, In x m -> (step <= x)%Q) by (intros x Hx; apply H; right; exact Hx).
      clear - Hm. induction m as [|x m IH]; [change (qnat 0 * step <= 0)%Q; rewrite qnat_0; lra|]. cbn [total fold_right length]. fold (total m). rewrite qnat_S.
      pose proof (Hm x (or_introl eq_refl)). specialize (IH (fun y Hy => Hm y (or_intror Hy))). lra.
    - specialize (IH (fun x Hx => H x (or_intror Hx)) Hin). pose proof (H z (or_introl eq_refl)). lra.
  Qed.
  Lemma row_update_high M : (0 <= M)%Q -> (forall x, In x row -> (x <= M)%Q) ->
    (M + step <= M * (M + qnat n * step))%Q ->
    forall x, In x (row_update lam w l row) -> (x <= M)%Q.
  Proof.
    intros HM Hrow Hfix x Hx. rewrite row_update_eq in Hx. apply in_map_iff in Hx as (y & <- & Hy).
    pose proof lifted_total as T. pose proof step_pos as P.
    apply Qle_shift_div_r; [lra|].
    assert (Ln : length lifted = n) by (unfold lifted; rewrite map_length; apply moved_length).
    pose proof (total_others lifted y lifted_ge Hy) as O. rewrite Ln in O.
    assert (Y : (y <= M + step)%Q).
    { unfold lifted in Hy. apply in_map_iff in Hy as (z & <- & Hz). apply In_nth_error in Hz as (j & Hj). rewrite moved_nth in Hj.
      destruct (nth_error row j) as [v|] eqn:Ev; cbn in Hj; [|discriminate Hj]. injection Hj as <-.
      pose proof (Hrow v (nth_error_In _ _ Ev)).
      destruct (Nat.eq_dec j w); [|destruct (Nat.eq_dec j l)];
        match goal with |- (qmax ?a ?b <= _)%Q => destruct (qmax_cases a b) as [[? ->]|[? ->]] end; lra. }
    pose proof (qnat_nonneg n) as N.
    (* y <= M * (y + (n-1) step), from y <= M + step *)
    apply Qle_trans with (M * (y + (qnat n - 1) * step))%Q.
    - destruct (Qlt_le_dec M 1) as [M1|M1].
      + assert (0 <= (1 - M) * (M + step - y))%Q by (apply Qmult_le_0_compat; lra).
        lra.
      + assert (0 <= (M - 1) * y)%Q. { apply Qmult_le_0_compat; [lra|]. pose proof (lifted_ge y Hy). lra. }
        assert (0 <= M * ((qnat n - 1) * step))%Q.
        { apply Qmult_le_0_compat; [lra|]. apply Qmult_le_0_compat; [|lra].
          assert (1 <= qnat n)%Q; [|lra]. rewrite <- (qnat_S 0) at 1 || idtac. unfold qnat, Qle; cbn; lia. }
        lra.
    - rewrite Qmult_comm. setoid_replace (M * total lifted)%Q with (total lifted * M)%Q by ring. apply Qmult_le_compat_r; lra.
  Qed.
End Row.

(** ** All the rows *)
Section Rows.
  Variables (lam d n : nat).
  Hypothesis Hlam : 0 < lam.
  Let low : Q := (1 / (qnat lam + qnat n + 1))%Q.
  Let step : Q := (1 / qnat lam)%Q.

  Lemma low_pos : (0 < low)%Q.
  Proof.
    unfold low. pose proof (qnat_pos lam Hlam). pose proof (qnat_nonneg n). apply Qlt_shift_div_l; lra.
  Qed.
  Lemma row_update_same w row : row_update lam w w row = row.
  Proof. unfold row_update. rewrite Nat.eqb_refl. reflexivity. Qed.
  Lemma row_update_distribution w l row : w < n -> l < n -> distribution n low row -> distribution n low (row_update lam w l row).
  Proof.
    intros Hw Hl D. destruct (Nat.eq_dec w l) as [->|N]; [rewrite row_update_same; exact D|].
    destruct D as (L & S & P). pose proof low_pos as LP.
    assert (P0 : forall x, In x row -> (0 <= x)%Q) by (intros x Hx; specialize (P x Hx); lra).
    split; [|split].
    - rewrite row_update_eq by auto. rewrite !map_length, !upd_length. exact L.
    - apply row_update_total with (n := n); auto.
    - intros x Hx. unfold low. eapply row_update_low with (w := w) (l := l) (row := row); eauto.
  Qed.
  Lemma row_compared w l row : w < n -> l < n -> distribution n low row -> compared step w l row (row_update lam w l row).
  Proof.
    intros Hw Hl (L & S & P). destruct (Nat.eq_dec w l) as [->|N].
    - rewrite row_update_same. unfold compared. destruct (Nat.eq_dec l l); [reflexivity|contradiction].
    - unfold step. eapply row_update_compared with (n := n); eauto.
  Qed.

  Definition vals_ok (vs : list nat) : Prop := length vs = d /\ forall v, In v vs -> v < n.
  Definition state_ok (s : cga) : Prop :=
    length (cg_p s) = d /\ (forall row, In row (cg_p s) -> distribution n low row) /\
    match cg_prev s with None => True | Some (_, vs) => vals_ok vs end.

  Lemma rows_update_length ws ls p : length (rows_update lam ws ls p) = length p.
  Proof. revert ls p. induction ws as [|w ws IH]; intros [|l ls] [|row p]; cbn; auto. Qed.
  Lemma rows_update_nth ws ls p i w l row :
    nth_error ws i = Some w -> nth_error ls i = Some l -> nth_error p i = Some row ->
    nth_error (rows_update lam ws ls p) i = Some (row_update lam w l row).
  Proof.
    revert ls p i. induction ws as [|w' ws IH]; intros [|l' ls] [|row' p] [|i] Hw Hl Hr; try discriminate; cbn in *.
    - injection Hw as ->. injection Hl as ->. injection Hr as ->. reflexivity.
    - auto.
  Qed.
  Lemma rows_update_in (P : list Q -> Prop) ws ls p : (forall v, In v ws -> v < n) -> (forall v, In v ls -> v < n) ->
    (forall w l row, w < n -> l < n -> P row -> P (row_update lam w l row)) ->
    (forall row, In row p -> P row) -> forall row, In row (rows_update lam ws ls p) -> P row.
  Proof.
    intros Hws Hls HP. revert ls p Hls. induction ws as [|w ws IH]; intros [|l ls] [|row' p] Hls Hp row; try apply Hp.
    cbn [rows_update]. intros [<-|Hin].
    - apply HP; [apply Hws; left; reflexivity|apply Hls; left; reflexivity|apply Hp; left; reflexivity].
    - eapply IH; [| | |exact Hin].
      + intros v Hv. apply Hws. right. exact Hv.
      + intros v Hv. apply Hls. right. exact Hv.
      + intros r Hr. apply Hp. right. exact Hr.
  Qed.

  Lemma tell_ok s t : state_ok s -> valid_tell d n t -> state_ok (cga_tell lam (fst t) (snd t) s).
  Proof.
    intros (L & R & V) (Ht1 & Ht2). unfold cga_tell. destruct (cg_prev s) as [[pl pv]|].
    - destruct V as (V1 & V2). destruct (qlt (fst t) pl); (split; [|split]; cbn); auto.
      1, 3: rewrite rows_update_length; exact L.
      all: intros row; apply rows_update_in; auto using row_update_distribution.
    - split; [|split]; cbn; auto. split; auto.
  Qed.
  Lemma run_ok ts s : state_ok s -> Forall (valid_tell d n) ts -> state_ok (cga_run lam ts s).
  Proof. revert s. induction ts as [|t ts IH]; intros s H F; cbn; auto. inversion F; subst. apply IH; auto using tell_ok. Qed.
  Lemma init_ok : 0 < n -> state_ok (cga_init d n).
  Proof.
    intros Hn. split; [apply repeat_length|]. split; [|exact I].
    intros row Hr. apply repeat_spec in Hr. subst row. pose proof (qnat_pos n Hn) as N. pose proof (qnat_pos lam Hlam) as L.
    split; [apply repeat_length|]. split.
    - rewrite total_repeat. field. lra.
    - intros x Hx. apply repeat_spec in Hx. subst x. unfold low.
      apply Qle_shift_div_l; [exact N|]. setoid_replace (1 / (qnat lam + qnat n + 1) * qnat n)%Q with (qnat n / (qnat lam + qnat n + 1))%Q by (field; lra).
      apply Qle_shift_div_r; lra.
  Qed.

  Lemma tell_pair s t1 t2 : state_ok s -> valid_tell d n t1 -> valid_tell d n t2 -> cg_prev s = None ->
    let s' := cga_tell lam (fst t2) (snd t2) (cga_tell lam (fst t1) (snd t1) s) in
    cg_prev s' = None /\ all_compared step t1 t2 (cg_p s) (cg_p s').
  Proof.
    intros Hs V1 V2 N s'. pose proof (tell_ok _ _ Hs V1) as Hs1.
    assert (E : s' = let (w, l) := better t1 t2 in Cga (rows_update lam (snd w) (snd l) (cg_p s)) None).
    { unfold s', cga_tell at 2. rewrite N. unfold cga_tell. cbn [cg_prev cg_p]. unfold better.
      destruct (Qlt_le_dec (fst t2) (fst t1)) as [H|H]; [apply qlt_iff in H|apply qlt_false in H]; rewrite H; reflexivity. }
    assert (B : valid_tell d n (fst (better t1 t2)) /\ valid_tell d n (snd (better t1 t2)))
      by (unfold better; destruct (Qlt_le_dec _ _); cbn; auto).
    destruct (better t1 t2) as [w l] eqn:Eb. rewrite E. cbn [cg_prev cg_p fst snd] in *. split; [reflexivity|].
    destruct B as ((_ & Bw) & (_ & Bl)). split; [apply rows_update_length|].
    rewrite Eb. cbn [fst snd]. intros i vw vl row row' Hw Hl Hr Hr'.
    rewrite (rows_update_nth _ _ _ _ _ _ _ Hw Hl Hr) in Hr'. injection Hr' as <-.
    apply row_compared; eauto using nth_error_In. apply Hs. eapply nth_error_In; eauto.
  Qed.

  Lemma run_pairs ts : forall s, state_ok s -> Forall (valid_tell d n) ts -> cg_prev s = None ->
    follows step (pairs ts) (cg_p s) (cg_p (cga_run lam ts s)).
  Proof.
    assert (G : forall k ts s, length ts <= k -> state_ok s -> Forall (valid_tell d n) ts -> cg_prev s = None ->
      follows step (pairs ts) (cg_p s) (cg_p (cga_run lam ts s))).
    { induction k as [|k IH]; intros [|t1 [|t2 l]] s Hk Hs F N; cbn in Hk; try lia; try reflexivity.
      - cbn. unfold cga_tell. rewrite N. reflexivity.
      - inversion F as [|? ? V1 F1]; subst. inversion F1 as [|? ? V2 F2]; subst.
        destruct (tell_pair s t1 t2 Hs V1 V2 N) as (N' & A). cbn [pairs follows].
        exists (cg_p (cga_tell lam (fst t2) (snd t2) (cga_tell lam (fst t1) (snd t1) s))). split; [exact A|].
        change (cga_run lam (t1 :: t2 :: l) s) with (cga_run lam l (cga_tell lam (fst t2) (snd t2) (cga_tell lam (fst t1) (snd t1) s))).
        apply IH; auto; [lia|]. auto using tell_ok. }
    intros s. apply G with (k := length ts). lia.
  Qed.

  Lemma run_prev ts : forall s, cg_prev s = None -> (cg_prev (cga_run lam ts s) = None <-> Nat.even (length ts) = true).
  Proof.
    assert (G : forall k ts s, length ts <= k -> cg_prev s = None -> (cg_prev (cga_run lam ts s) = None <-> Nat.even (length ts) = true)).
    { induction k as [|k IH]; intros [|t1 [|t2 l]] s Hk N; cbn in Hk; try lia; try tauto.
      - cbn. unfold cga_tell. rewrite N. cbn. split; intros H; discriminate H.
      - cbn [cga_run fold_left length Nat.even]. apply IH; [lia|]. unfold cga_tell at 2. rewrite N. unfold cga_tell. cbn.
        destruct (qlt (fst t2) (fst t1)); reflexivity. }
    intros s. apply G with (k := length ts). lia.
  Qed.

  (** ** Many values: the probabilities stay flat *)
  Lemma flat_tell M s t : (0 <= M)%Q -> (M + step <= M * (M + qnat n * step))%Q -> state_ok s -> valid_tell d n t ->
    (forall row x, In row (cg_p s) -> In x row -> (x <= M)%Q) ->
    forall row x, In row (cg_p (cga_tell lam (fst t) (snd t) s)) -> In x row -> (x <= M)%Q.
  Proof.
    intros HM Hfix (L & R & V) (Ht1 & Ht2) H. unfold cga_tell. destruct (cg_prev s) as [[pl pv]|]; [|exact H].
    destruct V as (V1 & V2).
    assert (G : forall w l row, w < n -> l < n -> distribution n low row /\ (forall x, In x row -> (x <= M)%Q) ->
      distribution n low (row_update lam w l row) /\ (forall x, In x (row_update lam w l row) -> (x <= M)%Q)).
    { intros w l row Hw Hl (D & Hx). split; [apply row_update_distribution; auto|].
      destruct (Nat.eq_dec w l) as [->|N]; [rewrite row_update_same; exact Hx|].
      destruct D as (Dl & Ds & Dp). pose proof low_pos.
      eapply row_update_high with (n := n); eauto. }
    assert (H0 : forall row, In row (cg_p s) -> distribution n low row /\ (forall x, In x row -> (x <= M)%Q)) by (intros row Hr; split; [auto|eauto]).
    assert (K : forall ws ls, (forall v, In v ws -> v < n) -> (forall v, In v ls -> v < n) ->
      forall row, In row (rows_update lam ws ls (cg_p s)) -> distribution n low row /\ (forall x, In x row -> (x <= M)%Q)).
    { intros ws ls Hws Hls. apply rows_update_in; auto. }
    destruct (qlt (fst t) pl); cbn [cg_p]; intros row x Hr.
    - apply (K (snd t) pv Ht2 V2 row Hr).
    - apply (K pv (snd t) V2 Ht2 row Hr).
  Qed.
  Lemma flat_run M ts : (0 <= M)%Q -> (M + step <= M * (M + qnat n * step))%Q -> forall s, state_ok s -> Forall (valid_tell d n) ts ->
    (forall row x, In row (cg_p s) -> In x row -> (x <= M)%Q) ->
    forall row x, In row (cg_p (cga_run lam ts s)) -> In x row -> (x <= M)%Q.
  Proof.
    intros HM Hfix. induction ts as [|t ts IH]; intros s Hs F H; [exact H|]. inversion F; subst. cbn [cga_run fold_left].
    apply IH; auto using tell_ok. apply flat_tell; auto.
  Qed.
End Rows.

(** ** Draws *)
Lemma cumsum_nth row : forall acc j, j < length row ->
  exists c, nth_error (cumsum acc row) j = Some c /\ (c == acc + total (firstn (S j) row))%Q.
Proof.
  induction row as [|x row IH]; intros acc j H; [cbn in H; lia|]. destruct j as [|j].
  - cbn. eexists; split; [reflexivity|]. ring.
  - cbn in H. destruct (IH (acc + x)%Q j ltac:(lia)) as (c & E & C). exists c. split; [exact E|].
    rewrite C. cbn [firstn total fold_right]. fold (total (firstn (S j) row)). ring.
Qed.
Lemma cumsum_length row : forall acc, length (cumsum acc row) = length row.
Proof. induction row; intros; cbn; auto. Qed.
(** the sums are increasing, so those below [u] come first *)
Lemma cumsum_filter u row : (forall x, In x row -> (0 <= x)%Q) -> forall acc,
  let v := length (filter (fun c => qlt c u) (cumsum acc row)) in
  v <= length row /\ (forall j, j < v -> (acc + total (firstn (S j) row) < u)%Q) /\
  (v < length row -> (u <= acc + total (firstn (S v) row))%Q).
Proof.
  induction row as [|x row IH]; intros H acc; cbn zeta.
  - cbn. split; [lia|]. split; intros; lia.
  - cbn [cumsum filter]. destruct (qlt (acc + x) u) eqn:E.
    + apply qlt_iff in E. cbn [length]. destruct (IH (fun y Hy => H y (or_intror Hy)) (acc + x)%Q) as (A & B & C). cbn zeta in *.
      split; [lia|]. split.
      * intros [|j] Hj; [cbn; lra|]. specialize (B j ltac:(lia)). cbn [firstn total fold_right] in *.
        fold (total (firstn j (tl row))) in *. change (fold_right Qplus 0%Q (firstn (S j) row)) with (total (firstn (S j) row)). unfold total in *. cbn [firstn] in *. lra.
      * intros Hv. specialize (C ltac:(lia)). change (firstn (S (S (length (filter (fun c => qlt c u) (cumsum (acc + x) row))))) (x :: row))
          with (x :: firstn (S (length (filter (fun c => qlt c u) (cumsum (acc + x) row)))) row).
        unfold total in *. cbn [fold_right]. lra.
    + apply qlt_false in E.
      assert (Z : filter (fun c => qlt c u) (cumsum (acc + x) row) = []).
      { clear IH. assert (G : forall r a, (u <= a)%Q -> (forall y, In y r -> (0 <= y)%Q) -> filter (fun c => qlt c u) (cumsum a r) = []).
        { induction r as [|y r IHr]; intros a Ha Hr; cbn; auto. pose proof (Hr y (or_introl eq_refl)).
          destruct (qlt (a + y) u) eqn:Q; [apply qlt_iff in Q; lra|]. apply IHr; [lra|]. intros z Hz. apply Hr. right. exact Hz. }
        apply G; auto. intros y Hy. apply H. right. exact Hy. }
      rewrite Z. cbn [length]. split; [lia|]. split; [intros; lia|]. intros _. cbn. lra.
Qed.

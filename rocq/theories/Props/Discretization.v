(** C39: softmax sampling returns one of the options; C63: discretization by thresholds. *)
From Coq Require Import Reals ZArith Bool Lra Lia List.
From Verif.Model Require Import Prelude Discretization.
From Verif.Proofs Require Import Discretization.
From Verif.Proofs Require RTransforms.
Import ListNotations.
Open Scope R_scope.

(** The drawn index is that of an option, whatever the weights and the draw. *)
Theorem C39_valid (row : list weight) (deterministic : bool) (rand : R) : row <> [] ->
  exists i, encode row deterministic rand = Ok i /\ (i < length row)%nat.
Proof.
  intros Hne. unfold encode. destruct deterministic.
  - destruct (argmax (map clean row)) as [i|] eqn:E.
    + exists i. split; [reflexivity|]. apply argmax_spec in E as (w & Hw & _). apply nth_error_Some. congruence.
    + destruct row; [congruence|discriminate].
  - destruct row as [|w row]; [congruence|]. cbn [map]. eexists. split; [reflexivity|]. unfold argmin_bool.
    destruct (first_false 0 _) as [i|] eqn:E; [|cbn; lia]. apply first_false_spec in E as (j & -> & Hj & _).
    assert (Hl : (j < length (map (fun c => if Rlt_dec c rand then true else false) (cumsum 0 (probabilities (clean w :: map clean row)))))%nat) by (apply nth_error_Some; congruence).
    rewrite map_length, cumsum_length in Hl. unfold probabilities in Hl. rewrite map_length in Hl. destruct (Req_EM_T _ _); rewrite ?map_length in Hl; unfold exps in Hl; rewrite !map_length in Hl; cbn in *; rewrite ?map_length in Hl; lia.
Qed.
(** Deterministic: the first of the largest weights, nan being lower than any number. *)
Theorem C39_deterministic (row : list weight) (rand : R) (i : nat) : encode row true rand = Ok i ->
  exists w, nth_error row i = Some w /\ (forall k v, nth_error row k = Some v -> ~ less w v) /\
    (forall k v, (k < i)%nat -> nth_error row k = Some v -> less v w).
Proof. apply argmax_spec. Qed.

(** Probabilities: of sum 1; only infinite weights count if there are some, otherwise the finite ones, and all
    options are equally likely if there is none; softmax on the finite ones. *)
Lemma probabilities_spec row : row <> [] -> exists e, probabilities (map clean row) = map (fun x => x / rsum e) e /\
  Forall2 (share row) row e /\ 0 < rsum e /\
  (forall i j x y a b, nth_error row i = Some (WFin x) -> nth_error row j = Some (WFin y) -> ~ In WPInf row ->
     nth_error e i = Some a -> nth_error e j = Some b -> a * exp y = b * exp x).
Proof.
  intros H. destruct (exps_spec row H) as (e & E & H1 & H2 & H3). exists e. split; [|auto]. unfold probabilities. cbn zeta in *. now rewrite E.
Qed.
Lemma Forall2_nth {A B} (P : A -> B -> Prop) l l' : Forall2 P l l' -> forall i a b, nth_error l i = Some a -> nth_error l' i = Some b -> P a b.
Proof.
  induction 1 as [|x y l l' Hxy H IH]; intros i a b Ha Hb; [now destruct i|]. destruct i; cbn in *; [|eauto].
  injection Ha as <-. now injection Hb as <-.
Qed.
Lemma F2_length {A B} (P : A -> B -> Prop) l l' : Forall2 P l l' -> length l = length l'.
Proof. induction 1; cbn; congruence. Qed.
Theorem C39_probabilities (row : list weight) : row <> [] ->
  let p := probabilities (map clean row) in
  length p = length row /\ Forall (fun x => 0 <= x) p /\ rsum p = 1 /\
  (forall i w x, nth_error row i = Some w -> nth_error p i = Some x ->
     (0 < x <-> w = WPInf \/ (is_fin w /\ ~ In WPInf row) \/ (~ In WPInf row /\ forall v, In v row -> ~ is_fin v))) /\
  (forall i j x y a b, nth_error row i = Some (WFin x) -> nth_error row j = Some (WFin y) -> ~ In WPInf row ->
     nth_error p i = Some a -> nth_error p j = Some b -> a * exp y = b * exp x).
Proof.
  intros Hne p. destruct (probabilities_spec row Hne) as (e & E & Hs & Hp & Hx). unfold p. rewrite E. clear p E.
  assert (Hl := F2_length _ _ _ Hs). assert (Hd : forall x, 0 < x / rsum e <-> 0 < x).
  { intros x. split; intros H.
    - destruct (Rlt_dec 0 x) as [|N]; [assumption|]. exfalso. assert (0 < / rsum e) by now apply Rinv_0_lt_compat. unfold Rdiv in H. nra.
    - now apply Rdiv_lt_0_compat. }
  split; [now rewrite map_length|]. split.
  { apply Forall_forall. intros y Hy. apply in_map_iff in Hy as (x & <- & Hy). assert (0 <= x).
    { clear - Hs Hy. induction Hs as [|w z l l' (Hz & _) H IH]; [destruct Hy|]. destruct Hy as [<-|Hy]; auto. }
    apply Rmult_le_pos; [assumption|]. left. now apply Rinv_0_lt_compat. }
  split; [rewrite rsum_div; field; lra|]. split.
  - intros i w x Hw Hi. rewrite nth_error_map in Hi. destruct (nth_error e i) as [y|] eqn:Ey; [|discriminate]. injection Hi as <-.
    rewrite Hd. destruct (Forall2_nth _ _ _ Hs i w y Hw Ey) as (_ & H). exact H.
  - intros i j x y a b Hi Hj Hno Ha Hb. rewrite nth_error_map in Ha, Hb. destruct (nth_error e i) as [a'|] eqn:Ea; [|discriminate].
    destruct (nth_error e j) as [b'|] eqn:Eb; [|discriminate]. injection Ha as <-. injection Hb as <-.
    specialize (Hx i j x y a' b' Hi Hj Hno Ea Eb). unfold Rdiv. replace (a' * / rsum e * exp y) with (a' * exp y * / rsum e) by ring. rewrite Hx. ring.
Qed.
Lemma encode_random row rand : row <> [] ->
  encode row false rand = Ok (argmin_bool (map (fun c => if Rlt_dec c rand then true else false) (cumsum 0 (probabilities (map clean row))))).
Proof. intros H. unfold encode. destruct row as [|w row]; [congruence|reflexivity]. Qed.
(** Sampling: the option [i] is drawn exactly for the draws of an interval whose length is its probability. *)
Theorem C39_sample (row : list weight) (rand : R) (i : nat) : row <> [] -> 0 < rand < 1 -> (i < length row)%nat ->
  let p := probabilities (map clean row) in
  encode row false rand = Ok i <-> rsum (firstn i p) < rand <= rsum (firstn (S i) p).
Proof.
  intros Hne Hr Hi p. destruct (C39_probabilities row Hne) as (Hl & Hnn & Hsum & _). fold p in Hl, Hnn, Hsum.
  assert (Hmono : forall a b, (a <= b)%nat -> rsum (firstn a p) <= rsum (firstn b p)).
  { intros a b Hab. replace (firstn b p) with (firstn a p ++ firstn (b - a) (skipn a p)).
    - rewrite rsum_app. assert (0 <= rsum (firstn (b - a) (skipn a p))); [|lra]. apply rsum_nonneg. apply Forall_forall. intros x Hx.
      rewrite Forall_forall in Hnn. apply Hnn. rewrite <- (firstn_skipn a p). apply in_or_app. right. rewrite <- (firstn_skipn (b - a) (skipn a p)). apply in_or_app. now left.
    - rewrite <- (firstn_skipn a (firstn b p)). rewrite firstn_firstn, Nat.min_l by lia. f_equal. now rewrite skipn_firstn_comm. }
  rewrite encode_random by exact Hne. fold p.
  assert (Hcum : forall j, (j < length p)%nat -> nth_error (map (fun c => if Rlt_dec c rand then true else false) (cumsum 0 p)) j =
    Some (if Rlt_dec (rsum (firstn (S j) p)) rand then true else false)).
  { intros j Hj. rewrite nth_error_map, cumsum_nth by exact Hj. cbn [option_map]. now rewrite Rplus_0_l. }
  assert (Hsome : exists j, first_false 0 (map (fun c => if Rlt_dec c rand then true else false) (cumsum 0 p)) = Some j).
  { destruct (first_false 0 _) as [j|] eqn:E; [eauto|]. exfalso. assert (Hl0 : (0 < length row)%nat) by (destruct row; cbn; [congruence|lia]).
    assert (Hc : nth_error (map (fun c => if Rlt_dec c rand then true else false) (cumsum 0 p)) (pred (length row)) = Some (if Rlt_dec (rsum (firstn (S (pred (length row))) p)) rand then true else false)) by (apply Hcum; lia).
    pose proof (first_false_none _ _ E _ _ Hc) as Hb. replace (S (pred (length row))) with (length p) in Hb by lia. rewrite firstn_all, Hsum in Hb. destruct (Rlt_dec 1 rand); [lra|discriminate]. }
  destruct Hsome as (j & Ej). pose proof (first_false_spec _ _ _ Ej) as (j' & Ejj & Hj & Hbefore). cbn in Ejj. subst j'.
  assert (Hjl : (j < length p)%nat). { assert (nth_error (map (fun c => if Rlt_dec c rand then true else false) (cumsum 0 p)) j <> None) by congruence. apply nth_error_Some in H. now rewrite map_length, cumsum_length in H. }
  rewrite (Hcum j Hjl) in Hj. destruct (Rlt_dec (rsum (firstn (S j) p)) rand) as [|Hge]; [discriminate|].
  assert (Hlt : rsum (firstn j p) < rand).
  { destruct j as [|j]; [cbn; lra|]. specialize (Hbefore j ltac:(lia)). rewrite Hcum in Hbefore by lia. destruct (Rlt_dec (rsum (firstn (S j) p)) rand); [assumption|discriminate]. }
  unfold argmin_bool. rewrite Ej. split.
  - intros E. injection E as <-. lra.
  - intros (H1 & H2). f_equal. destruct (Nat.lt_trichotomy j i) as [H|[H|H]]; [|exact H|]; exfalso.
    + pose proof (Hmono (S j) i ltac:(lia)). lra.
    + pose proof (Hmono (S i) j ltac:(lia)). lra.
Qed.
(** Options of probability zero are never drawn, but by the draw 0 (of probability about 2^-53). *)
Theorem C39_positive (row : list weight) (rand : R) (i : nat) (x : R) : row <> [] -> 0 < rand < 1 ->
  encode row false rand = Ok i -> nth_error (probabilities (map clean row)) i = Some x -> 0 < x.
Proof.
  intros Hne Hr E Hx. destruct (C39_valid row false rand Hne) as (j & Ej & Hj). rewrite E in Ej. injection Ej as <-.
  apply C39_sample in E; auto. cbn zeta in E.
  assert (Ef : rsum (firstn (S i) (probabilities (map clean row))) = rsum (firstn i (probabilities (map clean row))) + x).
  { revert Hx. generalize (probabilities (map clean row)). clear. intros l. revert i. induction l as [|y l IH]; intros i Hx; [now destruct i|].
    destruct i as [|i]; cbn in Hx; [injection Hx as ->; cbn; ring|]. change (y + rsum (firstn (S i) l) = y + rsum (firstn i l) + x). rewrite (IH i Hx). ring. }
  lra.
Qed.
Theorem C39_zero_draw_refuted : encode [WMInf; WFin 0] false 0 = Ok 0%nat /\ nth_error (probabilities [WMInf; WFin 0]) 0 = Some 0.
Proof.
  assert (Ep : probabilities [WMInf; WFin 0] = [0; 1]).
  { unfold probabilities. cbn. replace (0 - 0) with 0 by ring. rewrite exp_0. destruct (Req_EM_T _ 0); [lra|]. cbn. f_equal; [|f_equal]; field; lra. }
  split; [|now rewrite Ep]. rewrite encode_random by discriminate. cbn [map clean]. rewrite Ep. unfold argmin_bool. cbn.
  destruct (Rlt_dec (0 + 0) 0); [lra|reflexivity].
Qed.
(** Setting an index: reading deterministically gives it back, and it is drawn with probability 1.5 / arity. *)
Lemma reset_weight n : (2 <= n)%nat -> weight_for_reset n = WFin (ln (3 / 2 * (INR n - 1) / (INR n - 3 / 2))) /\ 1 < 3 / 2 * (INR n - 1) / (INR n - 3 / 2).
Proof.
  intros Hn. apply le_INR in Hn. change (INR 2) with 2 in Hn. unfold weight_for_reset.
  replace (1 / INR n * (3 / 2) * (INR n - 1) / (1 - 1 / INR n * (3 / 2))) with (3 / 2 * (INR n - 1) / (INR n - 3 / 2)) by (field; repeat split; lra).
  assert (H1 : 1 < 3 / 2 * (INR n - 1) / (INR n - 3 / 2)).
  { apply (Rmult_lt_reg_r (INR n - 3 / 2)); [lra|]. unfold Rdiv at 2. rewrite Rmult_assoc, Rinv_l by lra. lra. }
  destruct (Rlt_dec 0 _); [auto|lra].
Qed.
Lemma reset_nth arity index i : (i < arity)%nat -> nth_error (reset_row arity index) i = Some (if Nat.eqb i index then weight_for_reset arity else WFin 0).
Proof.
  intros H. unfold reset_row. rewrite nth_error_map. rewrite (nth_error_nth' (seq 0 arity) 0%nat) by now rewrite seq_length. rewrite seq_nth by exact H. reflexivity.
Qed.
Theorem C39_reset (arity index : nat) (rand : R) : (index < arity)%nat -> encode (reset_row arity index) true rand = Ok index.
Proof.
  intros H. destruct (C39_valid (reset_row arity index) true rand) as (i & E & Hi). { intros E. apply (f_equal (@length weight)) in E. unfold reset_row in E. rewrite map_length, seq_length in E. cbn in E. lia. }
  rewrite E. f_equal. unfold reset_row in Hi. rewrite map_length, seq_length in Hi. destruct (Nat.eq_dec arity 1) as [->|Hne]; [lia|].
  apply C39_deterministic in E as (w & Hw & Hmax & _). rewrite reset_nth in Hw by exact Hi. destruct (Nat.eqb i index) eqn:Ei; [now apply Nat.eqb_eq|].
  exfalso. injection Hw as <-. apply (Hmax index (weight_for_reset arity)); [rewrite reset_nth by exact H; now rewrite Nat.eqb_refl|].
  destruct (reset_weight arity ltac:(lia)) as (-> & H1). cbn. rewrite <- ln_1. apply ln_increasing; lra.
Qed.
Theorem C39_reset_probability (arity index : nat) : (index < arity)%nat -> (2 <= arity)%nat ->
  nth_error (probabilities (map clean (reset_row arity index))) index = Some (3 / 2 / INR arity).
Proof.
  intros Hi Hn. assert (Hlen : length (reset_row arity index) = arity) by (unfold reset_row; now rewrite map_length, seq_length).
  assert (Hne : reset_row arity index <> []) by (intros E; rewrite E in Hlen; cbn in Hlen; lia).
  destruct (C39_probabilities _ Hne) as (Hl & _ & Hsum & _ & Hsm). cbn zeta in *. set (p := probabilities (map clean (reset_row arity index))) in *.
  destruct (reset_weight arity Hn) as (Ew & Hw). set (q := 3 / 2 * (INR arity - 1) / (INR arity - 3 / 2)) in *.
  assert (Hno : ~ In WPInf (reset_row arity index)). { unfold reset_row. rewrite in_map_iff. intros (j & E & _). destruct (Nat.eqb j index); [rewrite Ew in E|]; discriminate. }
  destruct (nth_error p index) as [a|] eqn:Ea. 2:{ apply nth_error_None in Ea. lia. }
  assert (Hothers : forall j b, (j < arity)%nat -> j <> index -> nth_error p j = Some b -> b = a / q).
  { intros j b Hj Hji Hb. assert (Ej : nth_error (reset_row arity index) j = Some (WFin 0)).
    { rewrite reset_nth by exact Hj. now destruct (Nat.eqb_spec j index). }
    assert (Ei : nth_error (reset_row arity index) index = Some (WFin (ln q))) by (rewrite reset_nth by exact Hi; now rewrite Nat.eqb_refl, Ew).
    specialize (Hsm _ _ _ _ _ _ Ei Ej Hno Ea Hb). rewrite exp_0, exp_ln in Hsm by lra. rewrite Rmult_1_r in Hsm. rewrite Hsm. field. lra. }
  assert (Es : rsum p = a + INR (arity - 1) * (a / q)).
  { assert (Hg : forall l k, (forall j b, nth_error l j = Some b -> b = if Nat.eqb (k + j) index then a else a / q) ->
       rsum l = (if andb (Nat.leb k index) (Nat.ltb index (k + length l)) then a + INR (length l - 1) * (a / q) else INR (length l) * (a / q))).
    { induction l as [|x l IH]; intros k Hall.
      - cbn [rsum length]. destruct (Nat.leb_spec k index); destruct (Nat.ltb_spec index (k + 0)); cbn [andb]; try lia; cbn; ring.
      - cbn [rsum length]. rewrite (IH (S k)).
        2:{ intros j b Hb. rewrite (Hall (S j) b Hb). now replace (k + S j)%nat with (S k + j)%nat by lia. }
        rewrite (Hall 0%nat x eq_refl). rewrite Nat.add_0_r. destruct (Nat.eqb_spec k index) as [->|Hk].
        + destruct (Nat.leb_spec (S index) index); [lia|]. destruct (Nat.leb_spec index index); [|lia]. destruct (Nat.ltb_spec index (index + S (length l))); [|lia].
          cbn [andb]. replace (S (length l) - 1)%nat with (length l) by lia. reflexivity.
        + destruct (Nat.leb_spec (S k) index); destruct (Nat.leb_spec k index); try lia; cbn [andb].
          * destruct (Nat.ltb_spec index (S k + length l)); destruct (Nat.ltb_spec index (k + S (length l))); try lia.
            -- replace (S (length l) - 1)%nat with (S (length l - 1)) by lia. rewrite S_INR. ring.
            -- rewrite S_INR. ring.
          * rewrite S_INR. ring. }
    rewrite (Hg p 0%nat).
    - rewrite Hl, Hlen. cbn [Nat.leb andb]. destruct (Nat.ltb_spec index (0 + arity)); [reflexivity|lia].
    - intros j b Hb. cbn. assert (Hj : (j < arity)%nat) by (rewrite <- Hlen, <- Hl; apply nth_error_Some; congruence).
      destruct (Nat.eqb_spec j index) as [->|Hji]; [congruence|]. eauto. }
  rewrite Hsum in Es. f_equal. assert (Hn' := le_INR _ _ Hn). change (INR 2) with 2 in Hn'. rewrite minus_INR in Es by lia. change (INR 1) with 1 in Es.
  assert (Hq : / q = (INR arity - 3 / 2) / (3 / 2 * (INR arity - 1))) by (unfold q; field; repeat split; lra).
  unfold Rdiv in Es at 1. rewrite Hq in Es.
  assert (E2 : a * (1 + (INR arity - 3 / 2) / (3 / 2)) = 1).
  { transitivity (a + (INR arity - 1) * (a * ((INR arity - 3 / 2) / (3 / 2 * (INR arity - 1))))); [field; lra|symmetry; exact Es]. }
  apply (Rmult_eq_reg_r (INR arity)); [|lra]. replace (3 / 2 / INR arity * INR arity) with (3 / 2) by (field; lra).
  replace (a * INR arity) with (3 / 2 * (a * (1 + (INR arity - 3 / 2) / (3 / 2)))) by field. rewrite E2. ring.
Qed.
Example C39_ex : less WNan (WFin (-3)) /\ encode [WNan; WFin 2; WPInf; WPInf] true 0 = Ok 2%nat.
Proof. split; [exact I|]. unfold encode. reflexivity. Qed.

(** ** C63 *)
Section C63.
Variables cdf ppf : R -> R.
Hypothesis Hd : RTransforms.density cdf ppf.
(** The index is in range, whatever the number. *)
Theorem C63_range (arity : nat) (x : weight) : (1 <= arity)%nat -> (0 <= threshold cdf arity x < Z.of_nat arity)%Z.
Proof.
  intros Hn. assert (Hf : forall y, (0 <= floor (Rmin (Rmax (INR arity * y) 0) (INR arity - 1)) < Z.of_nat arity)%Z).
  { intros y. set (z := Rmin (Rmax (INR arity * y) 0) (INR arity - 1)). apply le_INR in Hn. change (INR 1) with 1 in Hn.
    assert (Hz : 0 <= z <= INR arity - 1). { unfold z. split; [apply Rmin_glb; [apply Rmax_r|lra]|apply Rmin_r]. }
    destruct (base_Int_part z) as (H1 & H2). unfold floor. rewrite INR_IZR_INZ in Hz. split.
    - assert (-1 < Int_part z)%Z; [apply lt_IZR; lra|lia].
    - apply lt_IZR. lra. }
  unfold threshold. destruct arity as [|[|[|n]]]; try apply Hf. destruct x as [x| | |]; try lia. destruct (Rlt_dec 0 x); lia.
Qed.
Lemma threshold_unit arity k q : (3 <= arity \/ arity = 1)%nat -> (0 <= k < Z.of_nat arity)%Z -> IZR k <= INR arity * q < IZR k + 1 -> 0 < q < 1 ->
  threshold cdf arity (WFin (ppf q)) = k.
Proof.
  intros Hn Hk Hq H01. destruct Hd as (_ & _ & _ & Hcp). assert (E : threshold cdf arity (WFin (ppf q)) = floor (Rmin (Rmax (INR arity * cdf (ppf q)) 0) (INR arity - 1))).
  { destruct arity as [|[|[|n]]]; try reflexivity. lia. }
  rewrite E, Hcp by exact H01. assert (Hkr : 0 <= IZR k <= INR arity - 1).
  { rewrite INR_IZR_INZ. split; [apply IZR_le; lia|]. rewrite <- minus_IZR. apply IZR_le. lia. }
  rewrite Rmax_left by lra. unfold floor. symmetry. unfold Rmin. destruct (Rle_dec (INR arity * q) (INR arity - 1)) as [L|L].
  - destruct (base_Int_part (INR arity * q)) as (H1 & H2). assert (Int_part (INR arity * q) - 1 < k)%Z by (apply lt_IZR; rewrite minus_IZR; lra).
    assert (k < Int_part (INR arity * q) + 1)%Z by (apply lt_IZR; rewrite plus_IZR; lra). lia.
  - assert (Ek : k = (Z.of_nat arity - 1)%Z).
    { assert (IZR (Z.of_nat arity - 1) < IZR k + 1) by (rewrite minus_IZR, <- INR_IZR_INZ; lra). assert (Z.of_nat arity - 1 < k + 1)%Z by (apply lt_IZR; rewrite plus_IZR; exact H). lia. }
    rewrite INR_IZR_INZ, <- minus_IZR, <- Ek. destruct (base_Int_part (IZR k)) as (H1 & H2).
    assert (Int_part (IZR k) <= k)%Z by (apply le_IZR; exact H1). assert (k < Int_part (IZR k) + 1)%Z by (apply lt_IZR; rewrite plus_IZR; lra). lia.
Qed.
(** The inverse is the center of the bin: discretizing it gives the index back (for arity 2 the median is 0). *)
Theorem C63_inverse (arity : nat) (k : Z) : (1 <= arity)%nat -> (0 <= k < Z.of_nat arity)%Z -> cdf 0 = 1 / 2 ->
  threshold cdf arity (inverse_threshold ppf arity k) = k.
Proof.
  intros Hn Hk H0. assert (Hn' := le_INR _ _ Hn). change (INR 1) with 1 in Hn'.
  assert (Hkr : 0 <= IZR k <= INR arity - 1). { rewrite INR_IZR_INZ. split; [apply IZR_le; lia|]. rewrite <- minus_IZR. apply IZR_le. lia. }
  unfold inverse_threshold. set (q := IZR k * (1 / INR arity) + 1 / INR arity / 2). assert (Eq : INR arity * q = IZR k + 1 / 2) by (unfold q; field; lra).
  assert (Hq : 0 < q < 1). { split; nra. }
  destruct (Rlt_dec 0 q); [|lra]. destruct (Rlt_dec q 1); [|lra].
  destruct (Nat.eq_dec arity 2) as [->|Hne]; [|apply threshold_unit; auto; [lia|lra]].
  destruct Hd as (_ & Hinc & Hpc & Hcp). change (INR 2) with 2 in *.
  assert (Hp0 : ppf (1 / 2) = 0) by (rewrite <- H0; apply Hpc).
  assert (Hmono : forall a b, 0 < a < 1 -> 0 < b < 1 -> a < b -> ppf a < ppf b).
  { intros a b Ha Hb Hab. destruct (Rtotal_order (ppf a) (ppf b)) as [L|[E|G]]; [exact L| |].
    - apply (f_equal cdf) in E. rewrite !Hcp in E by assumption. lra.
    - apply Hinc in G. rewrite !Hcp in G by assumption. lra. }
  cbn. destruct (Z.eq_dec k 0) as [->|Hk0].
  - destruct (Rlt_dec 0 (ppf q)) as [C|]; [|reflexivity]. exfalso. assert (ppf q < ppf (1 / 2)) by (apply Hmono; lra). lra.
  - replace k with 1%Z in * by lia. destruct (Rlt_dec 0 (ppf q)) as [|C]; [reflexivity|]. exfalso. assert (ppf (1 / 2) < ppf q) by (apply Hmono; lra). lra.
Qed.
(** A random point of the bin as well, for a draw other than 0. *)
Theorem C63_noisy_inverse (arity : nat) (k : Z) (rand : R) : (3 <= arity)%nat -> (0 <= k < Z.of_nat arity)%Z -> 0 <= rand < 1 ->
  threshold cdf arity (noisy_inverse ppf arity k rand) = k.
Proof.
  intros Hn Hk Hr. assert (Hn' := le_INR _ _ Hn). change (INR 3) with 3 in Hn' || (replace (INR 3) with 3 in Hn' by (cbn; ring)).
  assert (Hkr : 0 <= IZR k <= INR arity - 1). { rewrite INR_IZR_INZ. split; [apply IZR_le; lia|]. rewrite <- minus_IZR. apply IZR_le. lia. }
  unfold noisy_inverse. set (q := IZR k * (1 / INR arity) + rand * (1 / INR arity)). assert (Eq : INR arity * q = IZR k + rand) by (unfold q; field; lra).
  destruct (Rlt_dec 0 q) as [Hq0|Hq0].
  - destruct (Rlt_dec q 1) as [Hq1|Hq1]; [|exfalso; nra]. apply threshold_unit; auto; lra.
  - assert (Hq : q = 0) by nra. destruct (Req_EM_T q 0); [|lra]. assert (Ek : k = 0%Z) by (apply eq_IZR; nra). subst k.
    assert (E : threshold cdf arity WMInf = floor (Rmin (Rmax (INR arity * 0) 0) (INR arity - 1))) by (destruct arity as [|[|[|n]]]; try reflexivity; lia).
    rewrite E. rewrite Rmult_0_r, Rmax_left, Rmin_left by lra. unfold floor. destruct (base_Int_part 0) as (H1 & H2).
    assert (Int_part 0 <= 0)%Z by (apply le_IZR; exact H1). assert (-1 < Int_part 0)%Z by (apply lt_IZR; lra). lia.
Qed.
(** With the default arity instead of that of the index, the inverse is not an inverse. *)
Theorem C63_default_arity_refuted : threshold cdf 5 (inverse_threshold ppf 2 1) = 3%Z.
Proof.
  unfold inverse_threshold. change (INR 2) with 2. replace (1 * (1 / 2) + 1 / 2 / 2) with (3 / 4) by field.
  destruct (Rlt_dec 0 (3 / 4)); [|lra]. destruct (Rlt_dec (3 / 4) 1); [|lra]. apply threshold_unit; [lia|lia| |lra]. replace (INR 5) with 5 by (cbn; ring). lra.
Qed.
End C63.
Example C63_ex : RTransforms.density Verif.Model.RTransforms.cauchy_cdf Verif.Model.RTransforms.cauchy_ppf /\ Verif.Model.RTransforms.cauchy_cdf 0 = 1 / 2.
Proof. split; [apply RTransforms.cauchy_density|]. unfold Verif.Model.RTransforms.cauchy_cdf. rewrite atan_0. unfold Rdiv. ring. Qed.

Print Assumptions C39_valid.
Print Assumptions C39_deterministic.
Print Assumptions C39_probabilities.
Print Assumptions C39_sample.
Print Assumptions C39_positive.
Print Assumptions C39_zero_draw_refuted.
Print Assumptions C39_reset.
Print Assumptions C39_reset_probability.
Print Assumptions C63_range.
Print Assumptions C63_inverse.
Print Assumptions C63_noisy_inverse.
Print Assumptions C63_default_arity_refuted.

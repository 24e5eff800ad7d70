(** Proofs for the anti-reflective coating. *)
From Coq Require Import Reals List Arith Bool Lia Lra Psatz.
From Verif.Model Require Import Prelude ARCoating.
Import ListNotations.
Open Scope R_scope.

Lemma rltb_iff x y : rltb x y = true <-> x < y.
Proof. unfold rltb. destruct (Rlt_dec x y); split; intros; auto; congruence. Qed.
Lemma cdiv_ok u v : cabs2 v <> 0 -> cdiv u v = Ok ((fst u * fst v + snd u * snd v) / cabs2 v, (snd u * fst v - fst u * snd v) / cabs2 v).
Proof. intros H. unfold cdiv, reqb. destruct (Req_EM_T (cabs2 v) 0); [contradiction|reflexivity]. Qed.
Lemma rdiv_ok x y : y <> 0 -> rdiv x y = Ok (x / y).
Proof. intros H. unfold rdiv, reqb. destruct (Req_EM_T y 0); [contradiction|reflexivity]. Qed.

(** What a slab does, with [t] the tangent: the denominator's square *)
Definition den2 (e t : R) (Z : cx) : R := (e - snd Z * t) * (e - snd Z * t) + fst Z * t * (fst Z * t).
Lemma den2_pos e t Z : 0 < e -> 0 < fst Z -> 0 < den2 e t Z.
Proof.
  intros He Ha. unfold den2. destruct (Req_EM_T t 0) as [->|Ht].
  - replace ((e - snd Z * 0) * (e - snd Z * 0) + fst Z * 0 * (fst Z * 0)) with (e * e) by ring. now apply Rmult_lt_0_compat.
  - assert (0 <= (e - snd Z * t) * (e - snd Z * t)) by apply Rle_0_sqr.
    assert (fst Z * t <> 0) by (apply Rmult_integral_contrapositive; split; [lra|auto]).
    assert (0 < fst Z * t * (fst Z * t)) by (apply Rsqr_pos_lt; auto). lra.
Qed.
Lemma slab_ok tangent k Z n : 0 < n -> 0 < fst Z ->
  let e := 1 / n in let t := tangent (k * n) in
  slab tangent k Z n = Ok (e * e * fst Z * (1 + t * t) / den2 e t Z,
                           e * ((snd Z + e * t) * (e - snd Z * t) - fst Z * (fst Z * t)) / den2 e t Z).
Proof.
  intros Hn Ha e t. unfold slab. rewrite rdiv_ok by lra. cbn [bind]. fold e t.
  assert (He : 0 < e) by (unfold e; apply Rdiv_lt_0_compat; lra).
  assert (D : cabs2 (cadd (real e) (cmul (imag 1) (cmul Z (real t)))) = den2 e t Z) by (unfold cabs2, cadd, cmul, imag, real, den2; cbn; ring).
  assert (P := den2_pos e t Z He Ha).
  rewrite cdiv_ok by (rewrite D; lra). rewrite D. f_equal. f_equal; unfold cabs2, cadd, cmul, imag, real; cbn; f_equal; ring.
Qed.
Lemma slab_pos tangent k Z n : 0 < n -> 0 < fst Z -> exists Z', slab tangent k Z n = Ok Z' /\ 0 < fst Z'.
Proof.
  intros Hn Ha. pose proof (slab_ok tangent k Z n Hn Ha) as E. cbn zeta in E.
  assert (He : 0 < 1 / n) by (apply Rdiv_lt_0_compat; lra). set (e := 1 / n) in *. clearbody e.
  eexists. split; [exact E|]. cbn [fst].
  apply Rdiv_lt_0_compat; [|now apply den2_pos].
  apply Rmult_lt_0_compat; [repeat apply Rmult_lt_0_compat; auto|]. assert (0 <= tangent (k * n) * tangent (k * n)) by apply Rle_0_sqr. lra.
Qed.
Lemma slabs_pos tangent k ns : Forall (fun n => 0 < n) ns -> forall Z, 0 < fst Z ->
  exists Z', slabs tangent k Z ns = Ok Z' /\ 0 < fst Z'.
Proof.
  induction 1 as [|n ns Hn H IH]; intros Z HZ; cbn; [eauto|].
  destruct (slab_pos tangent k Z n Hn HZ) as [Z1 [-> H1]]. cbn. auto.
Qed.
Lemma slabs_app tangent k l1 l2 Z : slabs tangent k Z (l1 ++ l2) = bind (slabs tangent k Z l1) (fun Z' => slabs tangent k Z' l2).
Proof. revert Z. induction l1 as [|n l1 IH]; intros Z; cbn; [reflexivity|]. destruct (slab tangent k Z n); cbn; auto. Qed.

(** the reflection of an impedance *)
Definition refl2 (z : R) (Z : cx) : R := cabs2 (csub Z (real z)) / cabs2 (cadd Z (real z)).
Lemma plus_pos z Z : 0 < z -> 0 < fst Z -> 0 < cabs2 (cadd Z (real z)).
Proof.
  intros Hz Ha. unfold cabs2, cadd, real; cbn. assert (0 < (fst Z + z) * (fst Z + z)) by (apply Rmult_lt_0_compat; lra).
  assert (0 <= (snd Z + 0) * (snd Z + 0)) by apply Rle_0_sqr. lra.
Qed.
Lemma reflect z Z : 0 < z -> 0 < fst Z ->
  bind (cdiv (csub Z (real z)) (cadd Z (real z))) (fun r => Ok (cabs2 r * 100)) = Ok (refl2 z Z * 100).
Proof.
  intros Hz Ha. assert (P := plus_pos z Z Hz Ha). rewrite cdiv_ok by lra. cbn [bind]. f_equal. f_equal.
  unfold refl2. set (u := csub Z (real z)). set (v := cadd Z (real z)) in *. unfold cabs2 in *. cbn [fst snd]. field. lra.
Qed.
Lemma refl2_range z Z : 0 < z -> 0 < fst Z -> 0 <= refl2 z Z < 1.
Proof.
  intros Hz Ha. assert (P := plus_pos z Z Hz Ha). unfold refl2. split.
  - apply Rmult_le_pos; [|left; now apply Rinv_0_lt_compat]. unfold cabs2. assert (A := Rle_0_sqr (fst (csub Z (real z)))). assert (B := Rle_0_sqr (snd (csub Z (real z)))). unfold Rsqr in *. lra.
  - apply (Rmult_lt_reg_r (cabs2 (cadd Z (real z)))); [auto|]. unfold Rdiv. rewrite Rmult_assoc, Rinv_l by lra.
    assert (0 < fst Z * z) by (apply Rmult_lt_0_compat; auto).
    unfold cabs2, csub, cadd, real; cbn. nra.
Qed.
Lemma sqrt_pos' x : Forall (fun v => 0 < v) x -> Forall (fun n => 0 < n) (rev (map sqrt x)).
Proof. intros H. apply Forall_rev. induction H; cbn; constructor; auto. now apply sqrt_lt_R0. Qed.
Lemma impedance_spec tangent x dpix lam ep0 epf : 0 < lam -> 0 < ep0 -> 0 < epf -> Forall (fun v => 0 < v) x ->
  exists Z, slabs tangent (2 * PI * dpix / lam) (real (1 / sqrt epf)) (rev (map sqrt x)) = Ok Z /\ 0 < fst Z /\
            impedance_pix tangent x dpix lam ep0 epf = Ok (refl2 (1 / sqrt ep0) Z * 100).
Proof.
  intros Hl H0 Hf Hx. assert (S0 := sqrt_lt_R0 ep0 H0). assert (Sf := sqrt_lt_R0 epf Hf).
  destruct (slabs_pos tangent (2 * PI * dpix / lam) _ (sqrt_pos' x Hx) (real (1 / sqrt epf))) as [Z [E P]].
  { cbn. apply Rdiv_lt_0_compat; lra. }
  exists Z. split; [auto|]. split; [auto|]. unfold impedance_pix. rewrite !rdiv_ok by lra. cbn [bind]. rewrite E. cbn [bind].
  apply reflect; [apply Rdiv_lt_0_compat; lra|auto].
Qed.

(** a slab of the same medium as what is behind it changes nothing *)
Lemma slab_behind tangent k n : 0 < n -> slab tangent k (real (1 / n)) n = Ok (real (1 / n)).
Proof.
  intros Hn. assert (He : 0 < 1 / n) by (apply Rdiv_lt_0_compat; lra).
  rewrite slab_ok by (auto; cbn; auto). cbn zeta. set (e := 1 / n) in *. set (t := tangent (k * n)). apply (f_equal (@Ok cx)).
  assert (P : 0 < den2 e t (real e)) by (apply den2_pos; auto).
  assert (D : den2 e t (real e) = e * e * (1 + t * t)) by (unfold den2, real; cbn; ring). rewrite D in *.
  assert (1 + t * t <> 0) by (assert (0 <= t * t) by apply Rle_0_sqr; lra).
  unfold real. cbn [fst snd]. clearbody e t. f_equal; field; repeat split; lra.
Qed.
(** a slab of the same medium as what is in front of it does not change the reflection *)
Lemma slab_front tangent k n Z Z' : 0 < n -> 0 < fst Z -> slab tangent k Z n = Ok Z' -> refl2 (1 / n) Z' = refl2 (1 / n) Z.
Proof.
  intros Hn Ha. rewrite slab_ok by auto. cbn zeta. set (e := 1 / n) in *. set (t := tangent (k * n)).
  assert (He : 0 < e) by (unfold e; apply Rdiv_lt_0_compat; lra).
  clearbody e t. intros H. injection H as <-. assert (P := den2_pos e t Z He Ha). assert (P1 := plus_pos e Z He Ha).
  set (Z' := (_, _)).
  assert (T : 0 < 1 + t * t) by (assert (0 <= t * t) by apply Rle_0_sqr; lra).
  assert (A : cabs2 (csub Z' (real e)) * den2 e t Z = cabs2 (csub Z (real e)) * (e * e * (1 + t * t))).
  { set (D := den2 e t Z) in *.
    replace (csub Z' (real e)) with (((e * e * fst Z * (1 + t * t) - e * D) / D, e * ((snd Z + e * t) * (e - snd Z * t) - fst Z * (fst Z * t)) / D) : cx).
    - unfold cabs2 at 1. cbn [fst snd].
      match goal with |- (?a / D * (?a / D) + ?b / D * (?b / D)) * D = _ => replace ((a / D * (a / D) + b / D * (b / D)) * D) with ((a * a + b * b) / D) by (field; lra) end.
      apply (Rmult_eq_reg_r D); [|lra]. unfold Rdiv. rewrite Rmult_assoc, Rinv_l, Rmult_1_r by lra.
      unfold D, den2, cabs2, csub, real. cbn [fst snd]. ring.
    - unfold Z', csub, real. cbn [fst snd]. f_equal; field; lra. }
  assert (B : cabs2 (cadd Z' (real e)) * den2 e t Z = cabs2 (cadd Z (real e)) * (e * e * (1 + t * t))).
  { set (D := den2 e t Z) in *.
    replace (cadd Z' (real e)) with (((e * e * fst Z * (1 + t * t) + e * D) / D, e * ((snd Z + e * t) * (e - snd Z * t) - fst Z * (fst Z * t)) / D) : cx).
    - unfold cabs2 at 1. cbn [fst snd].
      match goal with |- (?a / D * (?a / D) + ?b / D * (?b / D)) * D = _ => replace ((a / D * (a / D) + b / D * (b / D)) * D) with ((a * a + b * b) / D) by (field; lra) end.
      apply (Rmult_eq_reg_r D); [|lra]. unfold Rdiv. rewrite Rmult_assoc, Rinv_l, Rmult_1_r by lra.
      unfold D, den2, cabs2, cadd, real. cbn [fst snd]. ring.
    - unfold Z', cadd, real. cbn [fst snd]. f_equal; field; lra. }
  unfold refl2. set (D := den2 e t Z) in *. set (c := e * e * (1 + t * t)) in *.
  assert (Hc : 0 < c) by (unfold c; repeat apply Rmult_lt_0_compat; auto).
  assert (A' : cabs2 (csub Z' (real e)) = cabs2 (csub Z (real e)) * c / D) by (apply (Rmult_eq_reg_r D); [rewrite A; field; lra|lra]).
  assert (B' : cabs2 (cadd Z' (real e)) = cabs2 (cadd Z (real e)) * c / D) by (apply (Rmult_eq_reg_r D); [rewrite B; field; lra|lra]).
  rewrite A', B'. field. repeat split; lra.
Qed.

(** the average *)
Lemma average_range f ls : (forall l, In l ls -> exists v, f l = Ok v /\ 0 <= v < 100) -> forall a,
  exists v, average f ls a = Ok v /\ a <= v /\ v <= a + INR (length ls) /\ (ls <> [] -> v < a + INR (length ls)).
Proof.
  intros H. induction ls as [|l ls IH]; intros a.
  - exists a. cbn. split; [auto|]. split; [lra|]. split; [lra|]. intros X; contradiction.
  - destruct (H l) as [v [E V]]; [now left|]. cbn [average]. rewrite E. cbn [bind].
    destruct (IH ltac:(intros; apply H; now right) (a + v / INR (length lambdas))) as [w [Ew [W1 [W2 _]]]].
    exists w. split; [exact Ew|].
    assert (L : INR (length lambdas) = 100) by (unfold lambdas; rewrite map_length, seq_length; rewrite INR_IZR_INZ; reflexivity).
    rewrite L in *. change (length (l :: ls)) with (S (length ls)). rewrite S_INR.
    assert (0 <= v / 100 < 1) by lra. split; [lra|]. split; [lra|]. intros _. lra.
Qed.
Lemma average_const f ls c : (forall l, In l ls -> f l = Ok c) -> forall a, average f ls a = Ok (a + INR (length ls) * (c / 100)).
Proof.
  intros H. induction ls as [|l ls IH]; intros a; cbn [average].
  - cbn. f_equal. ring.
  - rewrite H by now left. cbn [bind]. rewrite IH by (intros; apply H; now right).
    assert (L : INR (length lambdas) = 100) by (unfold lambdas; rewrite map_length, seq_length; rewrite INR_IZR_INZ; reflexivity).
    rewrite L. change (length (l :: ls)) with (S (length ls)). rewrite S_INR. f_equal. field.
Qed.
Lemma lambdas_pos l : In l lambdas -> 0 < l.
Proof. intros H. apply in_map_iff in H as [k [<- _]]. assert (X := pos_INR k). lra. Qed.

(** C115: anti-reflective coatings. *)
From Coq Require Import Reals List Arith Bool Lia Lra.
From Verif.Model Require Import Prelude ARCoating.
From Verif.Spec Require Import ARCoating.
From Verif.Proofs Require Import ARCoating.
Import ListNotations.
Open Scope R_scope.

(** A coating reflects between 0 and 100 percent of the light, 100 excluded, without ever
    dividing by zero, whatever the tangents. *)
Theorem C115_range : forall tangent x dpix lam ep0 epf, 0 < lam -> 0 < ep0 -> 0 < epf -> Forall (fun v => 0 < v) x ->
  exists r, impedance_pix tangent x dpix lam ep0 epf = Ok r /\ 0 <= r < 100.
Proof.
  intros tangent x dpix lam ep0 epf Hl H0 Hf Hx.
  destruct (impedance_spec tangent x dpix lam ep0 epf Hl H0 Hf Hx) as [Z [_ [P E]]]. eexists. split; [exact E|].
  assert (S0 := sqrt_lt_R0 ep0 H0). assert (D : 0 < 1 / sqrt ep0) by (apply Rdiv_lt_0_compat; lra).
  assert (X := refl2_range _ _ D P). lra.
Qed.
Print Assumptions C115_range.

(** A last slab made of what is behind the coating changes nothing. *)
Theorem C115_behind : forall tangent x dpix lam ep0 epf, 0 < lam -> 0 < ep0 -> 0 < epf -> Forall (fun v => 0 < v) x ->
  impedance_pix tangent (x ++ [epf]) dpix lam ep0 epf = impedance_pix tangent x dpix lam ep0 epf.
Proof.
  intros tangent x dpix lam ep0 epf Hl H0 Hf Hx. assert (Sf := sqrt_lt_R0 epf Hf).
  unfold impedance_pix. rewrite !rdiv_ok by (assert (X := sqrt_lt_R0 ep0 H0); lra). cbn [bind].
  rewrite map_app, rev_app_distr. cbn [map rev app slabs]. rewrite slab_behind by auto. reflexivity.
Qed.
Print Assumptions C115_behind.

(** A first slab made of what is in front of the coating does not change the reflection. *)
Theorem C115_front : forall tangent x dpix lam ep0 epf, 0 < lam -> 0 < ep0 -> 0 < epf -> Forall (fun v => 0 < v) x ->
  impedance_pix tangent (ep0 :: x) dpix lam ep0 epf = impedance_pix tangent x dpix lam ep0 epf.
Proof.
  intros tangent x dpix lam ep0 epf Hl H0 Hf Hx. assert (S0 := sqrt_lt_R0 ep0 H0).
  destruct (impedance_spec tangent x dpix lam ep0 epf Hl H0 Hf Hx) as [Z [A [P E]]].
  destruct (impedance_spec tangent (ep0 :: x) dpix lam ep0 epf Hl H0 Hf) as [Z' [A' [P' E']]]; [constructor; auto|].
  rewrite E, E'. cbn [map rev] in A'. rewrite slabs_app, A in A'. cbn [bind slabs] in A'.
  destruct (slab tangent (2 * PI * dpix / lam) Z (sqrt ep0)) as [Z2|e] eqn:Es; [|discriminate]. cbn in A'.
  assert (Z2 = Z') as -> by congruence. now rewrite (slab_front _ _ _ _ _ S0 P Es).
Qed.
Print Assumptions C115_front.

(** Slabs of the front medium followed by slabs of the back one reflect as the bare boundary. *)
Theorem C115_bare : forall tangent a b dpix lam ep0 epf, 0 < lam -> 0 < ep0 -> 0 < epf ->
  impedance_pix tangent (repeat ep0 a ++ repeat epf b) dpix lam ep0 epf = Ok (bare_reflection ep0 epf).
Proof.
  intros tangent a b dpix lam ep0 epf Hl H0 Hf.
  assert (S0 := sqrt_lt_R0 ep0 H0). assert (Sf := sqrt_lt_R0 epf Hf).
  assert (Hr : forall v n, 0 < v -> Forall (fun v => 0 < v) (repeat v n)) by (intros v n Hv; induction n; cbn; constructor; auto).
  induction a as [|a IH]; cbn [repeat app].
  - induction b as [|b IHb].
    + cbn. unfold impedance_pix. rewrite !rdiv_ok by lra. cbn [bind map rev slabs].
      rewrite reflect by (cbn; apply Rdiv_lt_0_compat; lra). f_equal. unfold refl2, bare_reflection, cabs2, csub, cadd, real. cbn [fst snd].
      field. repeat split; try lra.
    + replace (repeat epf (S b)) with (repeat epf b ++ [epf]) by (symmetry; apply repeat_cons). rewrite C115_behind by auto. exact IHb.
  - rewrite C115_front; auto. apply Forall_app. split; auto.
Qed.
Print Assumptions C115_bare.

(** The loss of a design: refused with the wrong number of slabs, infinite when a permittivity is
    outside [1, 9], otherwise a percentage below 100. *)
Theorem C115_loss : forall tangent nbslab dpix x,
  (length x <> nbslab -> reflexion tangent nbslab dpix x = Err AssertionError) /\
  (length x = nbslab -> (exists v, In v x /\ (v < 1 \/ 9 < v)) -> reflexion tangent nbslab dpix x = Ok None) /\
  (length x = nbslab -> Forall (fun v => 1 <= v <= 9) x -> exists r, reflexion tangent nbslab dpix x = Ok (Some r) /\ 0 <= r < 100).
Proof.
  intros tangent nbslab dpix x. unfold reflexion. destruct (Nat.eqb_spec (length x) nbslab) as [E|E]; cbn [negb].
  - split; [contradiction|]. split.
    + intros _ [v [Hv [L|L]]].
      * replace (existsb (fun v => rltb v 1) x) with true; [reflexivity|]. symmetry. apply existsb_exists. exists v. split; [auto|]. now apply rltb_iff.
      * replace (existsb (fun v => rltb 9 v) x) with true; [rewrite orb_true_r; reflexivity|]. symmetry. apply existsb_exists. exists v. split; [auto|]. now apply rltb_iff.
    + intros _ H. assert (H' := proj1 (Forall_forall _ _) H).
      replace (existsb (fun v => rltb v 1) x || existsb (fun v => rltb 9 v) x) with false.
      2:{ symmetry. apply orb_false_iff. split; apply not_true_is_false; intros X; apply existsb_exists in X as [v [Hv L]]; apply rltb_iff in L; assert (Y := H' v Hv); cbn in Y; lra. }
      assert (P : Forall (fun v => 0 < v) x) by (eapply Forall_impl; [|exact H]; cbn; intros; lra).
      destruct (average_range (fun lam => impedance_pix tangent x dpix lam 1 9) lambdas) with (a := 0) as [v [Ev [V1 [V2 V3]]]].
      { intros l Hl. apply C115_range; try lra; auto. now apply lambdas_pos. }
      rewrite Ev. cbn [bind]. exists v. split; [reflexivity|]. split; [auto|].
      assert (L : INR (length lambdas) = 100) by (unfold lambdas; rewrite map_length, seq_length; rewrite INR_IZR_INZ; reflexivity).
      rewrite L in V3. assert (v < 0 + 100) by (apply V3; unfold lambdas; discriminate). lra.
  - split; [auto|]. split; contradiction.
Qed.
Print Assumptions C115_loss.

(** A design whose slabs are all air or all glass has the loss of no coating at all: 25 percent. *)
Theorem C115_uniform : forall tangent nbslab dpix v, v = 1 \/ v = 9 ->
  reflexion tangent nbslab dpix (repeat v nbslab) = Ok (Some 25).
Proof.
  intros tangent nbslab dpix v Hv. unfold reflexion. rewrite repeat_length, Nat.eqb_refl. cbn [negb].
  replace (existsb (fun v => rltb v 1) (repeat v nbslab) || existsb (fun v => rltb 9 v) (repeat v nbslab)) with false.
  2:{ symmetry. apply orb_false_iff. split; apply not_true_is_false; intros X; apply existsb_exists in X as [w [Hw L]]; apply rltb_iff in L; apply repeat_spec in Hw; lra. }
  assert (B : bare_reflection 1 9 = 25).
  { unfold bare_reflection. rewrite sqrt_1. replace 9 with (3 * 3) by lra. rewrite sqrt_square by lra. field. }
  rewrite (average_const _ _ 25).
  - cbn [bind]. unfold lambdas. rewrite map_length, seq_length, INR_IZR_INZ. do 2 f_equal. change (IZR (Z.of_nat 100)) with 100. field.
  - intros l Hl. apply lambdas_pos in Hl. rewrite <- B. destruct Hv as [->| ->].
    + rewrite <- (C115_bare tangent nbslab 0 dpix l 1 9) by lra. cbn [repeat]. now rewrite app_nil_r.
    + rewrite <- (C115_bare tangent 0 nbslab dpix l 1 9) by lra. reflexivity.
Qed.
Print Assumptions C115_uniform.

(** Slabs thinner than 10 nanometers are refused. *)
Theorem C115_thin : forall nbslab d_ar, (0 < nbslab)%nat ->
  (forall w, coating nbslab d_ar = Ok w -> 10 <= w /\ w * INR nbslab = INR d_ar) /\
  (coating nbslab d_ar = Err AssertionError <-> (d_ar < 10 * nbslab)%nat).
Proof.
  intros n d Hn. unfold coating. destruct (Nat.eqb_spec n 0) as [|_]; [lia|]. assert (P : 0 < INR n) by now apply lt_0_INR.
  destruct (Nat.leb_spec (10 * n) d) as [L|L].
  - split; [|split; [discriminate|lia]]. intros w H. injection H as <-. split; [|field; lra].
    apply le_INR in L. rewrite mult_INR in L. assert (T : INR 10 = 10) by (rewrite INR_IZR_INZ; reflexivity). rewrite T in L.
    apply (Rmult_le_reg_r (INR n)); [auto|]. unfold Rdiv. rewrite Rmult_assoc, Rinv_l by lra. lra.
  - split; [discriminate|]. split; auto.
Qed.
Print Assumptions C115_thin.

(** A design from air to glass, one outside the bounds, and two sizes of slabs. *)
Example C115_demo : forall tangent,
  (exists r, reflexion tangent 4 40 [1; 3; 5; 9] = Ok (Some r) /\ 0 <= r < 100) /\
  reflexion tangent 2 200 [1; 10] = Ok None /\ coating 10 400 = Ok 40 /\ coating 35 200 = Err AssertionError.
Proof.
  intros tangent. split; [apply C115_loss; [reflexivity|repeat constructor; lra]|].
  split; [apply C115_loss; [reflexivity|exists 10; split; [cbn; auto|right; lra]]|].
  split; [|reflexivity]. unfold coating. cbn [Nat.eqb Nat.leb]. change ((10 * 10 <=? 400)%nat) with true. cbv iota. f_equal.
  rewrite !INR_IZR_INZ. cbn. field.
Qed.

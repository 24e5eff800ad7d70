(** C55: symmetries of test functions. *)
From Coq Require Import Arith ZArith QArith Bool Lia Lqa List Znumtheory.
From Verif.Model Require Import Prelude Symmetry.
Import ListNotations.
Open Scope Z_scope.

Lemma coefficients_zero d middle : coefficients d 0 middle = repeat (0%Q, 1%Q) d.
Proof. induction d as [|d IH]; [reflexivity|]. cbn [coefficients repeat]. change (0 mod 2 =? 1) with false. change (0 / 2) with 0. now rewrite IH. Qed.
Lemma coefficients_nth d s middle i : (i < d)%nat -> 0 <= s ->
  nth_error (coefficients d s middle) i = Some (if Z.testbit s (Z.of_nat i) then ((2 * middle)%Q, (-1)%Q) else (0%Q, 1%Q)).
Proof.
  revert s i. induction d as [|d IH]; intros s i Hi Hs; [lia|]. cbn [coefficients]. destruct i as [|i]; cbn [nth_error].
  - cbn [Z.of_nat]. rewrite Z.bit0_odd, Zmod_odd. destruct (Z.odd s); reflexivity.
  - rewrite IH; [|lia|apply Z.div_pos; lia]. rewrite Nat2Z.inj_succ, Z.div2_bits by lia. reflexivity.
Qed.
Lemma coefficients_length d s middle : length (coefficients d s middle) = d.
Proof. revert s. induction d as [|d IH]; intros s; cbn; [reflexivity|]. now rewrite IH. Qed.
Definition scrambled (d : nat) (symmetry : Z) : Z := (symmetry * prime) mod (2 ^ Z.of_nat d).
Definition middle_of (bounds : option (Q * Q)) : Q := match bounds with Some (lo, hi) => ((lo + hi) / 2)%Q | None => 0%Q end.
Lemma symmetry_ok d symmetry bounds : 0 <= symmetry < 2 ^ Z.of_nat d ->
  symmetry_coefficients d symmetry bounds = Ok (coefficients d (scrambled d symmetry) (middle_of bounds)).
Proof.
  intros H. unfold symmetry_coefficients. destruct (Z.leb_spec 0 symmetry); [|lia]. destruct (Z.ltb_spec symmetry (2 ^ Z.of_nat d)); [|lia].
  cbn [andb]. fold (scrambled d symmetry). destruct (Z.eqb_spec (scrambled d symmetry) 0) as [E|E]; [|reflexivity].
  rewrite E, coefficients_zero. reflexivity.
Qed.
Lemma scrambled_range d symmetry : 0 <= scrambled d symmetry < 2 ^ Z.of_nat d.
Proof. apply Z.mod_pos_bound. apply Z.pow_pos_nonneg; lia. Qed.
Lemma prime_odd d : rel_prime (2 ^ Z.of_nat d) prime.
Proof.
  induction d as [|d IH]; [cbn; apply rel_prime_1|]. rewrite Nat2Z.inj_succ, Z.pow_succ_r by lia.
  apply rel_prime_sym, rel_prime_mult; [|apply rel_prime_sym; exact IH].
  apply rel_prime_sym. apply bezout_rel_prime. apply (Bezout_intro _ _ _ (-(prime / 2)) 1). reflexivity.
Qed.
Lemma scrambled_inj d a b : 0 <= a < 2 ^ Z.of_nat d -> 0 <= b < 2 ^ Z.of_nat d -> scrambled d a = scrambled d b -> a = b.
Proof.
  intros Ha Hb E. unfold scrambled in E. assert (Hp : 2 ^ Z.of_nat d > 0) by lia.
  assert (D : (2 ^ Z.of_nat d | prime * (a - b))).
  { exists ((a * prime) / (2 ^ Z.of_nat d) - (b * prime) / (2 ^ Z.of_nat d)).
    pose proof (Z.div_mod (a * prime) (2 ^ Z.of_nat d)). pose proof (Z.div_mod (b * prime) (2 ^ Z.of_nat d)). lia. }
  apply Gauss in D; [|apply prime_odd]. destruct D as [k D]. assert (k = 0) by nia. lia.
Qed.
Lemma scrambled_surj d s : 0 <= s < 2 ^ Z.of_nat d -> exists a, 0 <= a < 2 ^ Z.of_nat d /\ scrambled d a = s.
Proof.
  intros Hs. destruct (rel_prime_bezout _ _ (prime_odd d)) as [u v E].
  exists ((s * v) mod (2 ^ Z.of_nat d)). split; [apply Z.mod_pos_bound; lia|]. unfold scrambled.
  rewrite Z.mul_mod_idemp_l by lia. replace (s * v * prime) with (s + (- (s * u)) * 2 ^ Z.of_nat d) by nia.
  rewrite Z.mod_add by lia. now apply Z.mod_small.
Qed.

(** what a symmetry does to one coordinate: nothing, or a reflection around the middle *)
Definition reflects (middle x y : Q) : Prop := (y == 2 * middle - x)%Q.
Lemma symmetrized_nth coefs x i c v : nth_error coefs i = Some c -> nth_error x i = Some v ->
  nth_error (symmetrized coefs x) i = Some (fst c + snd c * v)%Q.
Proof.
  unfold symmetrized. revert coefs x. induction i as [|i IH]; intros [|c0 coefs] [|v0 x] Hc Hx; try discriminate; cbn in *.
  - congruence.
  - now apply IH.
Qed.

(** Each index gives a pattern of reflections; every pattern is given by an index, and
    different indices give different patterns. *)
Theorem C55_pattern d symmetry bounds : 0 <= symmetry < 2 ^ Z.of_nat d ->
  exists coefs (pattern : nat -> bool), symmetry_coefficients d symmetry bounds = Ok coefs /\
    forall x, length x = d -> length (symmetrized coefs x) = d /\
      forall i v, nth_error x i = Some v -> exists w, nth_error (symmetrized coefs x) i = Some w /\
        if pattern i then reflects (middle_of bounds) v w else (w == v)%Q.
Proof.
  intros H. rewrite symmetry_ok by exact H. eexists. exists (fun i => Z.testbit (scrambled d symmetry) (Z.of_nat i)).
  split; [reflexivity|]. intros x Hx. split.
  - unfold symmetrized. rewrite map_length, combine_length, coefficients_length. lia.
  - intros i v Hv. assert (Hi : (i < d)%nat) by (rewrite <- Hx; apply nth_error_Some; congruence).
    eexists. split; [apply symmetrized_nth; [apply coefficients_nth; [exact Hi|apply scrambled_range]|exact Hv]|].
    destruct (Z.testbit _ _); cbn [fst snd]; unfold reflects; ring.
Qed.
Theorem C55_distinct d a b bounds ca cb : a <> b ->
  symmetry_coefficients d a bounds = Ok ca -> symmetry_coefficients d b bounds = Ok cb ->
  exists i ta sa tb sb, (i < d)%nat /\ nth_error ca i = Some (ta, sa) /\ nth_error cb i = Some (tb, sb) /\ ~ (sa == sb)%Q.
Proof.
  intros Hne Ha Hb.
  assert (Hr : forall s c, symmetry_coefficients d s bounds = Ok c -> 0 <= s < 2 ^ Z.of_nat d).
  { intros s c E. unfold symmetry_coefficients in E. destruct (Z.leb_spec 0 s), (Z.ltb_spec s (2 ^ Z.of_nat d)); try discriminate. lia. }
  pose proof (Hr _ _ Ha) as Ra. pose proof (Hr _ _ Hb) as Rb. rewrite symmetry_ok in Ha, Hb by assumption.
  injection Ha as <-. injection Hb as <-.
  assert (Hex : exists i, (i < d)%nat /\ Z.testbit (scrambled d a) (Z.of_nat i) <> Z.testbit (scrambled d b) (Z.of_nat i)).
  { destruct (forallb (fun i => Bool.eqb (Z.testbit (scrambled d a) (Z.of_nat i)) (Z.testbit (scrambled d b) (Z.of_nat i))) (seq 0 d)) eqn:F.
    - exfalso. apply Hne. apply (scrambled_inj d); [assumption|assumption|]. apply Z.bits_inj'. intros n Hn.
      destruct (Z_lt_le_dec n (Z.of_nat d)) as [L|L].
      + rewrite forallb_forall in F. specialize (F (Z.to_nat n)). rewrite Z2Nat.id in F by exact Hn. apply Bool.eqb_prop, F, in_seq. lia.
      + pose proof (scrambled_range d a) as R1. pose proof (scrambled_range d b) as R2.
        assert (Hb0 : forall s, 0 <= s < 2 ^ Z.of_nat d -> Z.testbit s n = false).
        { intros s [S1 S2]. destruct (Z.eq_dec s 0) as [->|]; [apply Z.bits_0|]. apply Z.bits_above_log2; [exact S1|].
          assert (Z.log2 s < Z.of_nat d); [|lia]. apply Z.log2_lt_pow2; lia. }
        rewrite !Hb0 by assumption. reflexivity.
    - assert (Hf : existsb (fun i => negb (Bool.eqb (Z.testbit (scrambled d a) (Z.of_nat i)) (Z.testbit (scrambled d b) (Z.of_nat i)))) (seq 0 d) = true).
      { clear -F. induction (seq 0 d) as [|x l IH]; cbn in *; [discriminate|].
        destruct (Bool.eqb _ _); cbn in *; [now apply IH|reflexivity]. }
      apply existsb_exists in Hf as (i & Hi & E). exists i. apply in_seq in Hi. split; [lia|].
      intros E'. rewrite E' in E. rewrite Bool.eqb_reflx in E. discriminate. }
  destruct Hex as (i & Hi & Hd). pose proof (scrambled_range d a). pose proof (scrambled_range d b).
  pose proof (coefficients_nth d (scrambled d a) (middle_of bounds) i Hi ltac:(lia)) as Ea.
  pose proof (coefficients_nth d (scrambled d b) (middle_of bounds) i Hi ltac:(lia)) as Eb.
  destruct (Z.testbit (scrambled d a) (Z.of_nat i)), (Z.testbit (scrambled d b) (Z.of_nat i)); try congruence;
    exists i; do 4 eexists; (split; [exact Hi|split; [exact Ea|split; [exact Eb|intros E; vm_compute in E; discriminate]]]).
Qed.
Theorem C55_all_patterns d (pattern : nat -> bool) bounds : exists symmetry coefs,
  symmetry_coefficients d symmetry bounds = Ok coefs /\
  forall i, (i < d)%nat -> exists t s, nth_error coefs i = Some (t, s) /\ (s == if pattern i then -1 else 1)%Q.
Proof.
  assert (Hs : exists s, 0 <= s < 2 ^ Z.of_nat d /\ forall i, (i < d)%nat -> Z.testbit s (Z.of_nat i) = pattern i).
  { clear bounds. revert pattern. induction d as [|d IH]; intros pattern; [exists 0; split; [cbn; lia|intros; lia]|].
    destruct (IH (fun i => pattern (S i))) as (s & Hr & Hb). exists (2 * s + Z.b2z (pattern O)).
    rewrite Nat2Z.inj_succ, Z.pow_succ_r by lia. split; [destruct (pattern O); cbn [Z.b2z]; lia|].
    intros [|i] Hi; [apply Z.testbit_0_r|]. rewrite Nat2Z.inj_succ, Z.testbit_succ_r by lia. apply Hb. lia. }
  destruct Hs as (s & Hr & Hb). destruct (scrambled_surj d s Hr) as (a & Ha & Es).
  exists a. eexists. split; [apply symmetry_ok; exact Ha|]. rewrite Es. intros i Hi.
  rewrite coefficients_nth by lia. rewrite Hb by exact Hi. destruct (pattern i); do 2 eexists; (split; reflexivity).
Qed.

(** Applied twice, a symmetry is the identity. *)
Theorem C55_involution d symmetry bounds coefs x : symmetry_coefficients d symmetry bounds = Ok coefs -> length x = d ->
  Forall2 Qeq (symmetrized coefs (symmetrized coefs x)) x.
Proof.
  intros H Hx. assert (Hr : 0 <= symmetry < 2 ^ Z.of_nat d).
  { unfold symmetry_coefficients in H. destruct (Z.leb_spec 0 symmetry), (Z.ltb_spec symmetry (2 ^ Z.of_nat d)); try discriminate. lia. }
  rewrite symmetry_ok in H by exact Hr. injection H as <-. generalize (scrambled d symmetry) as s. clear Hr symmetry.
  subst d. unfold symmetrized. induction x as [|v x IH]; intros s; cbn; constructor; [|apply IH].
  destruct (s mod 2 =? 1); cbn [fst snd]; ring.
Qed.
(** With the same bounds on all coordinates, a point within the bounds stays within. *)
Theorem C55_domain d symmetry lo hi coefs x : symmetry_coefficients d symmetry (Some (lo, hi)) = Ok coefs -> length x = d ->
  Forall (fun v => lo <= v <= hi)%Q x -> Forall (fun v => lo <= v <= hi)%Q (symmetrized coefs x).
Proof.
  intros H Hx Hf. assert (Hr : 0 <= symmetry < 2 ^ Z.of_nat d).
  { unfold symmetry_coefficients in H. destruct (Z.leb_spec 0 symmetry), (Z.ltb_spec symmetry (2 ^ Z.of_nat d)); try discriminate. lia. }
  rewrite symmetry_ok in H by exact Hr. injection H as <-. generalize (scrambled d symmetry) as s. clear Hr symmetry.
  subst d. unfold symmetrized. induction Hf as [|v x [H1 H2] Hf IH]; intros s; cbn; constructor; [|apply IH].
  assert (E : (2 * ((lo + hi) / 2) == lo + hi)%Q) by field.
  destruct (s mod 2 =? 1); cbn [fst snd]; [rewrite E|]; lra.
Qed.
(** Only the bounds of the first coordinate are used: with other bounds on the second one the
    point given to the function may be out of the domain. *)
Theorem C55_other_bounds_refuted : exists symmetry coefs,
  symmetry_coefficients 2 symmetry (Some (0%Q, 1%Q)) = Ok coefs /\
  exists y, nth_error (symmetrized coefs [0%Q; 15%Q]) 1 = Some y /\ ~ (10 <= y <= 20)%Q.
Proof.
  exists 2. eexists. split; [vm_compute; reflexivity|]. eexists. split; [vm_compute; reflexivity|].
  intros [H _]. vm_compute in H. now apply H.
Qed.
(** An index out of range is refused. *)
Theorem C55_range d symmetry bounds : ~ (0 <= symmetry < 2 ^ Z.of_nat d) -> symmetry_coefficients d symmetry bounds = Err AssertionError.
Proof.
  intros H. unfold symmetry_coefficients. destruct (Z.leb_spec 0 symmetry), (Z.ltb_spec symmetry (2 ^ Z.of_nat d)); try reflexivity. lia.
Qed.
Example C55_ex : exists coefs, symmetry_coefficients 3 5 (Some (0%Q, 1%Q)) = Ok coefs /\
  map Qred (symmetrized coefs [(1#4)%Q; (1#3)%Q; (1#5)%Q]) = [(3#4)%Q; (2#3)%Q; (1#5)%Q].
Proof. eexists. split; vm_compute; reflexivity. Qed.

Print Assumptions C55_pattern.
Print Assumptions C55_distinct.
Print Assumptions C55_all_patterns.
Print Assumptions C55_involution.
Print Assumptions C55_domain.
Print Assumptions C55_other_bounds_refuted.
Print Assumptions C55_range.

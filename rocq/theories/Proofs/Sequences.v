(** Lemmas on samplers. *)
From Coq Require Import Arith ZArith QArith Bool Lia Lqa Znumtheory Permutation Sorted List.
From Verif.Model Require Import Prelude MultiValue Sequences.
From Verif.Spec Require Import Sequences.
From Verif.Proofs Require Import MultiValue.
Import ListNotations.
Open Scope Q_scope.

Lemma qnat_S n : qnat (S n) == qnat n + 1.
Proof. unfold qnat. rewrite Nat2Z.inj_succ, <- Z.add_1_r, inject_Z_plus. reflexivity. Qed.
Lemma qnat_plus a b : qnat (a + b) == qnat a + qnat b.
Proof. unfold qnat. rewrite Nat2Z.inj_add, inject_Z_plus. reflexivity. Qed.
Lemma qnat_mult a b : qnat (a * b) == qnat a * qnat b.
Proof. unfold qnat. rewrite Nat2Z.inj_mul, inject_Z_mult. reflexivity. Qed.
Lemma qnat_le a b : (a <= b)%nat <-> qnat a <= qnat b.
Proof. unfold qnat. rewrite <- Zle_Qle. lia. Qed.
Lemma qnat_lt a b : (a < b)%nat <-> qnat a < qnat b.
Proof. unfold qnat. rewrite <- Zlt_Qlt. lia. Qed.
Lemma qnat_0 : qnat 0 == 0.
Proof. reflexivity. Qed.
Lemma in_cell_alt n j x : (0 < n)%nat -> (in_cell n j x <-> qnat j <= x * qnat n /\ x * qnat n < qnat (S j)).
Proof.
  intros Hn. apply qnat_lt in Hn. rewrite qnat_0 in Hn. unfold in_cell. split; intros (H1 & H2); split.
  - apply (Qmult_le_r _ _ (qnat n) Hn) in H1. setoid_replace (qnat j / qnat n * qnat n) with (qnat j) in H1 by (field; lra). exact H1.
  - apply (Qmult_lt_r _ _ (qnat n) Hn) in H2. setoid_replace (qnat (S j) / qnat n * qnat n) with (qnat (S j)) in H2 by (field; lra). exact H2.
  - apply (Qmult_le_r _ _ (qnat n) Hn). setoid_replace (qnat j / qnat n * qnat n) with (qnat j) by (field; lra). exact H1.
  - apply (Qmult_lt_r _ _ (qnat n) Hn). setoid_replace (qnat (S j) / qnat n * qnat n) with (qnat (S j)) by (field; lra). exact H2.
Qed.
Lemma in_cell_unique n j j' x : (0 < n)%nat -> in_cell n j x -> in_cell n j' x -> j = j'.
Proof.
  intros Hn H H'. rewrite in_cell_alt in H, H' by exact Hn. rewrite !qnat_S in *.
  destruct (Nat.lt_trichotomy j j') as [L|[E|L]]; [|exact E|]; exfalso; apply qnat_le in L; rewrite qnat_S in L; lra.
Qed.

(** Van der Corput *)
Section Vdc.
Variable permut : list nat.
Let b := length permut.
Hypothesis Hb : (2 <= b)%nat.
Hypothesis Hperm : Permutation permut (seq 0 b).
Hypothesis H0 : nth 0 permut 0%nat = 0%nat.

Lemma digit_lt r : (r < b)%nat -> (nth r permut 0 < b)%nat.
Proof. intros H. assert (Hin : In (nth r permut 0%nat) (seq 0 b)) by (rewrite <- Hperm; now apply nth_In). apply in_seq in Hin. lia. Qed.
Lemma digit_inj r r' : (r < b)%nat -> (r' < b)%nat -> nth r permut 0%nat = nth r' permut 0%nat -> r = r'.
Proof. intros H H' E. assert (Hnd : NoDup permut) by (rewrite Hperm; apply seq_NoDup). apply (proj1 (NoDup_nth permut 0%nat) Hnd); assumption. Qed.
Lemma digit_surj q : (q < b)%nat -> exists r, (r < b)%nat /\ nth r permut 0%nat = q.
Proof. intros H. assert (Hin : In q permut) by (rewrite Hperm; apply in_seq; lia). apply (In_nth _ _ 0%nat) in Hin as (r & Hr & E). eauto. Qed.

Fixpoint radinv_fuel (fuel n : nat) : Q :=
  match fuel with
  | O => 0
  | S f => match n with O => 0 | _ => (qnat (nth (n mod b) permut 0%nat) + radinv_fuel f (n / b)) / qnat b end
  end.
Definition radinv (n : nat) : Q := radinv_fuel n n.
Lemma bpos : 0 < qnat b.
Proof. apply (qnat_lt 0). lia. Qed.
Lemma div_lt n : (0 < n)%nat -> (n / b < n)%nat.
Proof. intros H. apply Nat.div_lt; lia. Qed.
Lemma radinv_fuel_irrel n : forall f f', (n <= f)%nat -> (n <= f')%nat -> radinv_fuel f n = radinv_fuel f' n.
Proof.
  induction n as [n IH] using lt_wf_ind. intros f f' Hf Hf'. destruct n as [|n]; [destruct f, f'; reflexivity|].
  destruct f as [|f]; [lia|]. destruct f' as [|f']; [lia|]. cbn [radinv_fuel]. pose proof (div_lt (S n) ltac:(lia)). rewrite (IH (S n / b)%nat) with (f' := f'); [reflexivity|lia|lia|lia].
Qed.
Lemma radinv_step n : radinv n == (qnat (nth (n mod b) permut 0%nat) + radinv (n / b)) / qnat b.
Proof.
  pose proof bpos. destruct n as [|n].
  - rewrite Nat.mod_0_l, Nat.div_0_l by lia. rewrite H0. change (radinv 0) with 0. rewrite qnat_0. field. lra.
  - unfold radinv at 1. cbn [radinv_fuel]. pose proof (div_lt (S n) ltac:(lia)). unfold radinv. rewrite (radinv_fuel_irrel (S n / b) n (S n / b)) by lia. reflexivity.
Qed.
Lemma loop_radinv n : forall fuel denom acc, (n <= fuel)%nat -> (0 < denom)%nat ->
  exists y, vdc_loop fuel permut n denom acc = Ok y /\ y == acc + radinv n / qnat denom.
Proof.
  pose proof bpos as Hbp. induction n as [n IH] using lt_wf_ind. intros fuel denom acc Hf Hd. destruct n as [|n].
  - destruct fuel; exists acc; (split; [reflexivity|]); change (radinv 0) with 0; apply (qnat_lt 0) in Hd; change (qnat 0) with 0 in Hd; field; lra.
  - destruct fuel as [|fuel]; [lia|]. cbn [vdc_loop]. fold b. pose proof (div_lt (S n) ltac:(lia)) as Hlt. assert (Hmod : (S n mod b < b)%nat) by (apply Nat.mod_upper_bound; lia).
    rewrite (nth_error_nth' permut 0%nat Hmod). destruct (IH (S n / b)%nat Hlt fuel (denom * b)%nat (acc + qnat (nth (S n mod b) permut 0%nat) / qnat (denom * b))) as (y & E & Hy); [lia|nia|].
    exists y. split; [exact E|]. rewrite Hy, (radinv_step (S n)), qnat_mult. apply (qnat_lt 0) in Hd. change (qnat 0) with 0 in Hd. field. split; lra.
Qed.
Lemma vdc_radinv i : exists y, vdc i permut = Ok y /\ y == radinv (S i).
Proof. destruct (loop_radinv (S i) (S i) 1 0) as (y & E & Hy); [lia|lia|]. exists y. split; [exact E|]. rewrite Hy. change (qnat 1) with 1. field. Qed.
Lemma radinv_range n : 0 <= radinv n /\ radinv n < 1.
Proof.
  pose proof bpos as Hbp. induction n as [n IH] using lt_wf_ind. destruct n as [|n]; [change (radinv 0) with 0; lra|].
  destruct (IH (S n / b)%nat (div_lt (S n) ltac:(lia))) as (I1 & I2). rewrite radinv_step.
  assert (Hmod : (S n mod b < b)%nat) by (apply Nat.mod_upper_bound; lia). pose proof (digit_lt _ Hmod) as Hd. apply qnat_le in Hd. rewrite qnat_S in Hd.
  assert (Hd0 : 0 <= qnat (nth (S n mod b) permut 0%nat)) by (apply (qnat_le 0); lia). split.
  - apply Qle_shift_div_l; [exact Hbp|]. lra.
  - apply Qlt_shift_div_r; [exact Hbp|]. lra.
Qed.
(** a cell at level [k] is a residue modulo [b ^ k] *)
Lemma cell_residue k : forall j, (j < b ^ k)%nat -> exists r, (r < b ^ k)%nat /\ forall n, in_cell (b ^ k) j (radinv n) <-> (n mod b ^ k = r)%nat.
Proof.
  pose proof bpos as Hbp. induction k as [|k IH]; intros j Hj.
  - cbn in Hj. assert (j = 0)%nat as -> by lia. exists 0%nat. split; [cbn; lia|]. intros n. cbn [Nat.pow]. rewrite Nat.mod_1_r. split; [auto|]. intros _.
    rewrite in_cell_alt by lia. destruct (radinv_range n). change (qnat 1) with 1. change (qnat 0) with 0. lra.
  - rewrite Nat.pow_succ_r' in *. set (N := (b ^ k)%nat) in *. assert (HN : (0 < N)%nat) by (unfold N; pose proof (Nat.pow_nonzero b k); lia).
    assert (Hq : (j / N < b)%nat) by (apply Nat.div_lt_upper_bound; lia). destruct (digit_surj _ Hq) as (r0 & Hr0 & E0).
    assert (Hj' : (j mod N < N)%nat) by (apply Nat.mod_upper_bound; lia). destruct (IH (j mod N)%nat Hj') as (r' & Hr' & Hiff).
    exists (r0 + b * r')%nat. split; [nia|]. intros n. rewrite Nat.mod_mul_r by lia.
    assert (Hmod : (n mod b < b)%nat) by (apply Nat.mod_upper_bound; lia). assert (HmodN : ((n / b) mod N < N)%nat) by (apply Nat.mod_upper_bound; lia).
    assert (Hcell : in_cell (b * N) j (radinv n) <-> nth (n mod b) permut 0%nat = (j / N)%nat /\ in_cell N (j mod N) (radinv (n / b))).
    { rewrite !in_cell_alt by nia. rewrite (radinv_step n). destruct (radinv_range (n / b)) as (V0 & V1). set (y := radinv (n / b)) in *. set (p := nth (n mod b) permut 0%nat).
      assert (Ex : (qnat p + y) / qnat b * qnat (b * N) == qnat p * qnat N + y * qnat N) by (rewrite qnat_mult; field; lra). rewrite Ex.
      assert (Ej : qnat j == qnat (j / N) * qnat N + qnat (j mod N)). { rewrite <- qnat_mult, <- qnat_plus. rewrite (Nat.div_mod j N) at 1 by lia. now rewrite (Nat.mul_comm N). }
      rewrite !qnat_S, Ej. set (q := (j / N)%nat) in *. set (m := (j mod N)%nat) in *.
      assert (HNq : 0 < qnat N) by (apply (qnat_lt 0); lia). assert (Hm0 : 0 <= qnat m) by (apply (qnat_le 0); lia). apply qnat_le in Hj'. rewrite qnat_S in Hj'.
      assert (Hy0 : 0 <= y * qnat N) by nra. assert (Hy1 : y * qnat N < qnat N) by nra. split.
      - intros (H1 & H2). assert (Epq : p = q).
        { destruct (Nat.lt_trichotomy p q) as [L|[E|L]]; [|exact E|]; exfalso; apply qnat_le in L; rewrite qnat_S in L; nra. }
        split; [exact Epq|]. rewrite Epq in *. split; lra.
      - intros (-> & H1 & H2). split; lra. }
    rewrite Hcell, Hiff. split.
    + intros (H1 & H2). rewrite H2. f_equal. apply digit_inj; [assumption|assumption|congruence].
    + intros H. assert (n mod b = r0)%nat as ->. { apply (f_equal (fun x => x mod b)%nat) in H. rewrite !(Nat.mul_comm b), !Nat.mod_add in H by lia. rewrite Nat.mod_mod in H by lia. rewrite (Nat.mod_small r0) in H by lia. exact H. }
      split; [exact E0|]. nia.
Qed.
Lemma radinv_inj n : forall n', radinv n == radinv n' -> n = n'.
Proof.
  pose proof bpos as Hbp. assert (Hboth : forall n n', radinv n == radinv n' -> (n mod b = n' mod b)%nat /\ radinv (n / b) == radinv (n' / b)).
  { clear n. intros n n' E. rewrite (radinv_step n), (radinv_step n') in E. destruct (radinv_range (n / b)), (radinv_range (n' / b)).
    assert (E' : qnat (nth (n mod b) permut 0%nat) + radinv (n / b) == qnat (nth (n' mod b) permut 0%nat) + radinv (n' / b)).
    { apply (Qmult_inj_r _ _ (/ qnat b)); [|exact E]. pose proof (Qinv_lt_0_compat _ Hbp). lra. }
    assert (Hd : nth (n mod b) permut 0%nat = nth (n' mod b) permut 0%nat).
    { destruct (Nat.lt_trichotomy (nth (n mod b) permut 0%nat) (nth (n' mod b) permut 0%nat)) as [L|[E2|L]]; [|exact E2|]; exfalso; apply qnat_le in L; rewrite qnat_S in L; lra. }
    split; [apply digit_inj; [apply Nat.mod_upper_bound; lia|apply Nat.mod_upper_bound; lia|exact Hd]|]. rewrite Hd in E'. lra. }
  induction n as [n IH] using lt_wf_ind. intros n' E. destruct (Hboth n n' E) as (H1 & H2). destruct n as [|n].
  - clear IH.
    change (radinv 0) with 0 in E. clear H1 H2. induction n' as [n' IH] using lt_wf_ind. destruct n' as [|n']; [reflexivity|]. exfalso.
    destruct (Hboth 0%nat (S n') E) as (H1 & H2). rewrite Nat.div_0_l in H2 by lia. rewrite Nat.mod_0_l in H1 by lia.
    specialize (IH (S n' / b)%nat (div_lt (S n') ltac:(lia)) H2). pose proof (Nat.div_mod (S n') b). lia.
  - specialize (IH (S n / b)%nat (div_lt (S n) ltac:(lia)) (n' / b)%nat H2). pose proof (Nat.div_mod (S n) b). pose proof (Nat.div_mod n' b). lia.
Qed.
End Vdc.

(** Chinese remainders *)
Lemma crt2 m M r R : (0 < m)%nat -> (0 < M)%nat -> Nat.gcd m M = 1%nat -> (r < m)%nat -> (R < M)%nat ->
  exists x, (x < m * M)%nat /\ forall n, (n mod m = r /\ n mod M = R <-> n mod (m * M) = x)%nat.
Proof.
  intros Hm HM Hg Hr HR.
  assert (Hex : exists x0, (x0 < m * M /\ x0 mod m = r /\ x0 mod M = R)%nat).
  { destruct (Nat.gcd_bezout_pos m M Hm) as (u & v & Huv). rewrite Hg in Huv. (* u m = 1 + v M *)
    (* x0 = r + m * u * (R - r) adjusted *)
    set (w := (r + u * m * (R + (M - r mod M)))%nat). exists (w mod (m * M))%nat. split; [apply Nat.mod_upper_bound; nia|].
    rewrite Nat.mod_mul_r by lia. split.
    - rewrite (Nat.mul_comm m), Nat.mod_add, Nat.mod_mod by lia. unfold w. rewrite <- (Nat.mul_assoc u m), (Nat.mul_comm m (R + (M - r mod M))), Nat.mul_assoc. rewrite Nat.mod_add by lia. now apply Nat.mod_small.
    - rewrite <- Nat.mod_mul_r, Nat.mul_comm, Nat.mod_mul_r by lia. rewrite (Nat.mul_comm M), Nat.mod_add, Nat.mod_mod by lia. unfold w. rewrite Huv.
      assert (Hrm : (r mod M < M)%nat) by (apply Nat.mod_upper_bound; lia).
      replace (r + (1 + v * M) * (R + (M - r mod M)))%nat with (R + (1 + r / M + v * (R + (M - r mod M))) * M)%nat.
      + rewrite Nat.mod_add by lia. now apply Nat.mod_small.
      + pose proof (Nat.div_mod r M). nia. }
  destruct Hex as (x0 & Hx & E1 & E2). exists x0. split; [exact Hx|]. intros n. split.
  - intros (F1 & F2). assert (Hn : (n mod (m * M) < m * M)%nat) by (apply Nat.mod_upper_bound; nia).
    assert (G1 : ((n mod (m * M)) mod m = r)%nat) by (rewrite Nat.mod_mul_r by lia; rewrite (Nat.mul_comm m), Nat.mod_add, Nat.mod_mod by lia; exact F1).
    assert (G2 : ((n mod (m * M)) mod M = R)%nat) by (rewrite (Nat.mul_comm m), Nat.mod_mul_r by lia; rewrite (Nat.mul_comm M), Nat.mod_add, Nat.mod_mod by lia; exact F2).
    set (y := (n mod (m * M))%nat) in *. clearbody y. clear F1 F2 n.
    assert (Hdiv : forall a c, (a <= c)%nat -> (a mod m = c mod m)%nat -> (a mod M = c mod M)%nat -> Nat.divide (m * M) (c - a)).
    { intros a c Hac H1 H2. assert (D1 : Nat.divide m (c - a)). { exists (c / m - a / m)%nat. pose proof (Nat.div_mod a m). pose proof (Nat.div_mod c m). rewrite Nat.mul_sub_distr_r. lia. }
      assert (D2 : Nat.divide M (c - a)). { exists (c / M - a / M)%nat. pose proof (Nat.div_mod a M). pose proof (Nat.div_mod c M). rewrite Nat.mul_sub_distr_r. lia. }
      destruct D1 as (t & Ht). rewrite Ht in D2. rewrite Nat.mul_comm in D2. apply Nat.gauss in D2 as (s & Hs); [|now rewrite Nat.gcd_comm]. exists s. rewrite Ht, Hs. ring. }
    destruct (le_ge_dec y x0) as [L|L].
    + destruct (Hdiv y x0 L) as (t & Ht); [congruence|congruence|]. destruct t; [lia|]. nia.
    + destruct (Hdiv x0 y L) as (t & Ht); [congruence|congruence|]. destruct t; [lia|]. nia.
  - intros E. split.
    + rewrite <- E1, <- E. rewrite Nat.mod_mul_r by lia. rewrite (Nat.mul_comm m), Nat.mod_add, Nat.mod_mod by lia. reflexivity.
    + rewrite <- E2, <- E. rewrite (Nat.mul_comm m), Nat.mod_mul_r by lia. rewrite (Nat.mul_comm M), Nat.mod_add, Nat.mod_mod by lia. reflexivity.
Qed.
Lemma coprime_prod m l : Forall (fun x => Nat.gcd m x = 1%nat) l -> Nat.gcd m (product l) = 1%nat.
Proof.
  induction 1 as [|x l Hx H IH]; [apply Nat.gcd_1_r|]. cbn [product]. apply Nat.divide_1_r. 
  set (g := Nat.gcd m (x * product l)). assert (G1 : Nat.divide g m) by apply Nat.gcd_divide_l. assert (G2 : Nat.divide g (x * product l)) by apply Nat.gcd_divide_r.
  apply Nat.gauss in G2. { rewrite <- IH. now apply Nat.gcd_greatest. }
  apply Nat.divide_1_r. rewrite <- Hx. apply Nat.gcd_greatest; [etransitivity; [apply Nat.gcd_divide_l|exact G1]|apply Nat.gcd_divide_r].
Qed.
Lemma block_one M r a : (0 < M)%nat -> (r < M)%nat -> exactly_one a M (fun n => n mod M = r)%nat.
Proof.
  intros HM Hr. unfold exactly_one.
  assert (Hex : exists i, (a <= i < a + M /\ i mod M = r)%nat).
  { pose proof (Nat.div_mod a M ltac:(lia)) as Ha. pose proof (Nat.mod_upper_bound a M ltac:(lia)) as Hlt. destruct (le_lt_dec (a mod M) r) as [L|L].
    - exists (r + a / M * M)%nat. split; [nia|]. rewrite Nat.mod_add by lia. now apply Nat.mod_small.
    - exists (r + (1 + a / M) * M)%nat. split; [nia|]. rewrite Nat.mod_add by lia. now apply Nat.mod_small. }
  destruct Hex as (i & Hi & E). exists i. split; [auto|]. intros i' Hi' E'. pose proof (Nat.div_mod i M ltac:(lia)). pose proof (Nat.div_mod i' M ltac:(lia)).
  assert (i / M = i' / M)%nat; [|lia]. destruct (Nat.lt_trichotomy (i / M) (i' / M)) as [L|[E2|L]]; [|exact E2|]; nia.
Qed.

(** Sieve *)
Lemma nth_combine_seq (t : list bool) i : nth_error (combine (seq 0 (length t)) t) i = option_map (fun b => (i, b)) (nth_error t i).
Proof.
  assert (H : forall s, nth_error (combine (seq s (length t)) t) i = option_map (fun b => (s + i, b)%nat) (nth_error t i)).
  { revert i. induction t as [|x t IH]; intros [|i] s; cbn; try reflexivity; [now rewrite Nat.add_0_r|]. rewrite IH. now rewrite Nat.add_succ_r. }
  apply H.
Qed.
Lemma divides_dec d n : {Nat.divide d n} + {~ Nat.divide d n}.
Proof.
  destruct d as [|d].
  - destruct (Nat.eq_dec n 0) as [->|H]; [left; now exists 0%nat|right]. intros (x & E). lia.
  - destruct (Nat.eq_dec (n mod S d) 0) as [H|H].
    + left. apply Nat.mod_divide; [lia|exact H].
    + right. intros E. apply H. now apply Nat.mod_divide.
Qed.
Lemma prime_divisor n : (2 <= n)%nat -> exists p, prime p /\ Nat.divide p n.
Proof.
  induction n as [n IH] using lt_wf_ind. intros Hn.
  destruct (Exists_dec (fun d => Nat.divide d n) (seq 2 (n - 2)) (fun d => divides_dec d n)) as [H|H].
  - apply Exists_exists in H as (d & Hd & Hdiv). apply in_seq in Hd. destruct (IH d) as (p & Hp & Hpd); [lia|lia|]. exists p. split; [exact Hp|]. now transitivity d.
  - exists n. split; [|reflexivity]. split; [exact Hn|]. intros d Hd. destruct (Nat.eq_dec d 1) as [->|H1]; [now left|]. right.
    assert (d <= n)%nat by (apply Nat.divide_pos_le; [lia|exact Hd]). destruct (Nat.eq_dec d n); [assumption|]. exfalso. apply H. apply Exists_exists. exists d. split; [|exact Hd].
    apply in_seq. destruct d; [destruct Hd; lia|]. lia.
Qed.
Lemma composite_small n : (2 <= n)%nat -> ~ prime n -> exists p, prime p /\ Nat.divide p n /\ (p * p <= n)%nat.
Proof.
  intros Hn Hc. destruct (prime_divisor n Hn) as (p & Hp & (q & Eq)). assert (Hp2 : (2 <= p)%nat) by apply Hp.
  destruct (Nat.eq_dec q 1) as [->|Hq]. { exfalso. apply Hc. rewrite Nat.mul_1_l in Eq. congruence. }
  destruct (le_lt_dec p q) as [L|L]. { exists p. split; [exact Hp|]. split; [now exists q|nia]. }
  destruct (prime_divisor q) as (p' & Hp' & (q' & Eq')); [nia|]. exists p'. split; [exact Hp'|]. assert ((2 <= p')%nat) by apply Hp'. split; [exists (q' * p)%nat; rewrite Eq, Eq'; ring|]. assert (p' <= q)%nat by (destruct q'; nia). nia.
Qed.
(** after the indices below [m]: what is left is at least 2 and not a proper multiple of a prime below [m] *)
Definition sieved (N m : nat) (t : list bool) : Prop :=
  length t = N /\ forall i b, nth_error t i = Some b -> (b = true <-> (2 <= i)%nat /\ forall p, prime p -> (p < m)%nat -> Nat.divide p i -> p = i).
Lemma clear_nth p t i : (0 < p)%nat -> nth_error (clear_multiples p t) i =
  option_map (fun b => if Nat.leb (2 * p) i && Nat.eqb ((i - 2 * p) mod p) 0 then false else b) (nth_error t i).
Proof. intros _. unfold clear_multiples. rewrite nth_error_map, nth_combine_seq. now destruct (nth_error t i). Qed.
Lemma clear_cond p i : (0 < p)%nat -> (Nat.leb (2 * p) i && Nat.eqb ((i - 2 * p) mod p) 0 = true <-> Nat.divide p i /\ (0 < i)%nat /\ i <> p).
Proof.
  intros Hp. rewrite andb_true_iff, Nat.leb_le, Nat.eqb_eq. rewrite <- (Nat.mod_divide i p) by lia. split.
  - intros (H1 & H2). assert (E : i = (i - 2 * p + 2 * p)%nat) by lia. split; [|lia]. rewrite E, Nat.mod_add by lia. exact H2.
  - intros (H1 & H2 & H3). assert (H4 : (2 * p <= i)%nat). { pose proof (Nat.div_mod i p). destruct (i / p)%nat as [|[|q]]; nia. } split; [exact H4|].
    assert (E : i = (i - 2 * p + 2 * p)%nat) by lia. rewrite E, Nat.mod_add in H1 by lia. exact H1.
Qed.
Lemma sieve_step_ok N m t : (m < N)%nat -> sieved N m t -> exists t', sieve_step (Ok t) m = Ok t' /\ sieved N (S m) t'.
Proof.
  intros Hm (Hl & Hs). unfold sieve_step. cbn [bind]. destruct (nth_error t m) as [b|] eqn:Eb; [|apply nth_error_None in Eb; lia].
  pose proof (Hs m b Eb) as Hb. assert (Hprime : b = true <-> prime m).
  { rewrite Hb. split.
    - intros (H2 & H). destruct (prime_divisor m H2) as (p & Hp & Hd). destruct (Nat.eq_dec p m) as [->|Hne]; [exact Hp|]. exfalso. apply Hne, H; [exact Hp| |exact Hd].
      assert (p <= m)%nat by (apply Nat.divide_pos_le; [lia|exact Hd]). lia.
    - intros Hp. split; [apply Hp|]. intros p Hp' Hlt Hd. destruct Hp as (_ & Hp). destruct (Hp p Hd) as [->|E]; [destruct Hp'; lia|exact E]. }
  destruct b.
  - assert (Hp : prime m) by now apply Hprime. assert (Hm2 : (2 <= m)%nat) by apply Hp. eexists. split; [reflexivity|]. split.
    { unfold clear_multiples. rewrite map_length, combine_length, seq_length. lia. }
    intros i b Hi. rewrite clear_nth in Hi by lia. destruct (nth_error t i) as [b0|] eqn:E0; cbn [option_map] in Hi; [|discriminate]. injection Hi as <-. specialize (Hs i b0 E0).
    destruct (_ && _) eqn:Ec.
    + apply clear_cond in Ec as (C1 & C2 & C3); [|lia]. split; [discriminate|]. intros (_ & H). exfalso. apply C3. symmetry. apply H; [exact Hp|lia|exact C1].
    + assert (Hnc : ~ (Nat.divide m i /\ (0 < i)%nat /\ i <> m)) by (intros H; apply clear_cond in H; [|lia]; assert (false = true) by (rewrite <- Ec; exact H); discriminate). rewrite Hs. split.
      * intros (H2 & H). split; [exact H2|]. intros p Hp' Hlt Hd. destruct (Nat.eq_dec p m) as [->|Hne]; [|apply H; [exact Hp'|lia|exact Hd]]. destruct (Nat.eq_dec m i); [assumption|]. exfalso. apply Hnc. repeat split; [exact Hd|lia|congruence].
      * intros (H2 & H). split; [exact H2|]. intros p Hp' Hlt Hd. apply H; [exact Hp'|lia|exact Hd].
  - assert (Hp : ~ prime m) by (intros H; apply Hprime in H; discriminate). eexists. split; [reflexivity|]. split; [exact Hl|]. intros i b Hi. rewrite (Hs i b Hi). split.
    + intros (H2 & H). split; [exact H2|]. intros p Hp' Hlt Hd. apply H; [exact Hp'| |exact Hd]. destruct (Nat.eq_dec p m) as [->|]; [contradiction|lia].
    + intros (H2 & H). split; [exact H2|]. intros p Hp' Hlt Hd. apply H; [exact Hp'|lia|exact Hd].
Qed.
Lemma sieve_spec N : (4 <= N)%nat -> exists t, sieve N = Ok t /\ length t = N /\ forall i b, nth_error t i = Some b -> (b = true <-> prime i).
Proof.
  intros HN. unfold sieve. destruct (Nat.ltb_spec N 2); [lia|].
  assert (Hsq : (1 + Nat.sqrt N <= N)%nat). { pose proof (Nat.sqrt_spec N). pose proof (Nat.sqrt_lt_lin N). lia. }
  assert (Hinit : sieved N 0 (map (fun i => negb (Nat.ltb i 2)) (seq 0 N))).
  { split; [now rewrite map_length, seq_length|]. intros i b Hi. rewrite nth_error_map in Hi. destruct (nth_error (seq 0 N) i) as [j|] eqn:Ej; cbn [option_map] in Hi; [|discriminate]. injection Hi as <-.
    assert (Hj : j = i). { assert (i < N)%nat by (rewrite <- (seq_length N 0); apply nth_error_Some; congruence). rewrite (nth_error_nth' _ 0%nat) in Ej by now rewrite seq_length. rewrite seq_nth in Ej by assumption. injection Ej. lia. }
    subst j. rewrite negb_true_iff. assert (Hge : (i <? 2)%nat = false <-> (2 <= i)%nat) by apply Nat.ltb_ge. rewrite Hge. split; [intros H1; split; [exact H1|intros; lia]|tauto]. }
  assert (Hloop : forall k m t, (m + k <= N)%nat -> sieved N m t -> exists t', fold_left sieve_step (seq m k) (Ok t) = Ok t' /\ sieved N (m + k) t').
  { induction k as [|k IH]; intros m t Hk Hs; cbn [seq fold_left]; [exists t; rewrite Nat.add_0_r; auto|].
    destruct (sieve_step_ok N m t) as (t1 & E1 & Hs1); [lia|exact Hs|]. rewrite E1. destruct (IH (S m) t1) as (t2 & E2 & Hs2); [lia|exact Hs1|]. exists t2. split; [exact E2|]. now rewrite Nat.add_succ_r. }
  destruct (Hloop (1 + Nat.sqrt N)%nat 0%nat _ Hsq Hinit) as (t & E & Hl & Hs). exists t. split; [exact E|]. split; [exact Hl|]. intros i b Hi. rewrite (Hs i b Hi).
  assert (HiN : (i < N)%nat) by (rewrite <- Hl; apply nth_error_Some; congruence). split.
  - intros (H2 & Hall). destruct (Exists_dec (fun p => Nat.divide p i) (seq 2 (i - 2)) (fun d => divides_dec d i)) as [Hex|Hno].
    + exfalso. assert (Hc : ~ prime i). { intros (_ & Hp). apply Exists_exists in Hex as (d & Hd & Hdiv). apply in_seq in Hd. destruct (Hp d Hdiv); lia. }
      destruct (composite_small i H2 Hc) as (p & Hp & Hd & Hpp). assert (p = i); [|subst; now apply Hc]. apply Hall; [exact Hp| |exact Hd].
      apply Nat.lt_succ_r. change (p <= Nat.sqrt N)%nat. apply Nat.sqrt_le_square. lia.
    + split; [exact H2|]. intros d Hd. destruct (Nat.eq_dec d 1); [now left|]. right. assert (d <= i)%nat by (apply Nat.divide_pos_le; [lia|exact Hd]). destruct (Nat.eq_dec d i); [assumption|]. exfalso. apply Hno, Exists_exists. exists d. split; [|exact Hd].
      apply in_seq. destruct d; [destruct Hd; lia|]. lia.
  - intros Hp. split; [apply Hp|]. intros p Hp' _ Hd. destruct Hp as (_ & Hp). destruct (Hp p Hd) as [->|]; [destruct Hp'; lia|assumption].
Qed.
Lemma where_true_spec t : forall s, let l := map fst (filter snd (combine (seq s (length t)) t)) in
  StronglySorted lt l /\ (forall x, In x l <-> (s <= x)%nat /\ nth_error t (x - s) = Some true).
Proof.
  induction t as [|b t IH]; intros s; cbn [length seq combine filter]; cbn zeta.
  - split; [constructor|]. intros x. cbn. split; [tauto|]. intros (_ & H). destruct (x - s)%nat; discriminate.
  - destruct (IH (S s)) as (H1 & H2). cbn zeta in *. set (l := map fst (filter snd (combine (seq (S s) (length t)) t))) in *. destruct b; cbn [snd map fst].
    + fold l. split.
      * constructor; [exact H1|]. apply Forall_forall. intros x Hx. apply H2 in Hx. lia.
      * intros x. cbn [In]. rewrite H2. split.
        -- intros [<-|(H3 & H4)]; [split; [lia|]; now rewrite Nat.sub_diag|]. split; [lia|]. replace (x - s)%nat with (S (x - S s)) by lia. exact H4.
        -- intros (H3 & H4). destruct (Nat.eq_dec s x) as [|Hne]; [now left|]. right. split; [lia|]. replace (x - s)%nat with (S (x - S s)) in H4 by lia. exact H4.
    + fold l. split; [exact H1|]. intros x. rewrite H2. split.
      * intros (H3 & H4). split; [lia|]. replace (x - s)%nat with (S (x - S s)) by lia. exact H4.
      * intros (H3 & H4). destruct (Nat.eq_dec s x) as [->|Hne]; [rewrite Nat.sub_diag in H4; discriminate|]. split; [lia|]. replace (x - s)%nat with (S (x - S s)) in H4 by lia. exact H4.
Qed.

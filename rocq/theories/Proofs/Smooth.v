(** Proofs for smoothing. *)
From Coq Require Import List Arith ZArith QArith Bool Lia Lqa.
From Verif.Model Require Import Prelude MultiValue Planning Smooth.
From Verif.Spec Require Import Smooth.
From Verif.Proofs Require Import MultiValue Planning.
Import ListNotations.
Open Scope nat_scope.

Lemma reflect_lt n i : 0 < n -> reflect n i < n.
Proof.
  intros H. unfold reflect. assert (M := Z.mod_pos_bound i (2 * Z.of_nat n) ltac:(lia)).
  destruct (Nat.ltb_spec (Z.to_nat (i mod (2 * Z.of_nat n))) n); lia.
Qed.
Lemma window_length n r i : length (window n r i) = r.
Proof. unfold window. now rewrite map_length, seq_length. Qed.
Lemma window_lt n r i a : 0 < n -> In a (window n r i) -> a < n.
Proof. intros H K. apply in_map_iff in K as [k [<- _]]. now apply reflect_lt. Qed.
Lemma flat_map_length_const {A B} (f : A -> list B) l c : (forall a, In a l -> length (f a) = c) -> length (flat_map f l) = length l * c.
Proof. intros H. induction l as [|a l IH]; cbn; [reflexivity|]. rewrite app_length, IH, H by (intros; try apply H; cbn; auto). lia. Qed.

Lemma neighbours_spec shape : forall radii i, Forall (lt 0) shape -> length radii = length shape -> cell shape i ->
  length (neighbours shape radii i) = prod radii /\ Forall (cell shape) (neighbours shape radii i).
Proof.
  induction shape as [|n shape IH]; intros radii i Hs Hl Hi.
  - destruct radii; [|discriminate]. inversion Hi; subst. cbn. split; [reflexivity|]. repeat constructor.
  - destruct radii as [|r radii]; [discriminate|]. inversion Hi as [|x ? i' ? Hx Hi' E1 E2]; subst. inversion Hs as [|? ? H0 Hs']; subst.
    destruct (IH radii i' Hs' ltac:(cbn in Hl; lia) Hi') as [A B]. cbn [neighbours]. split.
    + rewrite (flat_map_length_const _ _ (prod radii)); [rewrite window_length; reflexivity|]. intros. now rewrite map_length.
    + apply Forall_forall. intros j Hj. apply in_flat_map in Hj as [a [Ha Hj]]. apply in_map_iff in Hj as [j' [<- Hj']].
      constructor; [now apply (window_lt n r x)|]. apply (proj1 (Forall_forall _ _) B j' Hj').
Qed.
Lemma qnat_prod_pos radii : Forall (lt 0) radii -> (0 < qnat (prod radii))%Q.
Proof.
  intros H. apply qnat_pos. induction H as [|r radii Hr H IH]; cbn; [lia|]. apply Nat.mul_pos_pos; auto.
Qed.
Lemma qsum_bounds l a b : Forall (fun x => a <= x <= b)%Q l -> (qnat (length l) * a <= qsum l <= qnat (length l) * b)%Q.
Proof.
  induction 1 as [|x l Hx H IH]; cbn [length qsum fold_right].
  - rewrite !qnat_0. lra.
  - change (fold_right Qplus 0%Q l) with (qsum l). rewrite !qnat_S. lra.
Qed.
Lemma convolved_between shape radii value i a b :
  Forall (lt 0) shape -> Forall (lt 0) radii -> length radii = length shape -> cell shape i ->
  (forall j, cell shape j -> a <= value j <= b)%Q -> (a <= convolved shape radii value i <= b)%Q.
Proof.
  intros Hs Hr Hl Hi Hv. destruct (neighbours_spec shape radii i Hs Hl Hi) as [L C].
  assert (F : Forall (fun x => a <= x <= b)%Q (map value (neighbours shape radii i))).
  { apply Forall_forall. intros x Hx. apply in_map_iff in Hx as [j [<- Hj]]. apply Hv, (proj1 (Forall_forall _ _) C j Hj). }
  apply qsum_bounds in F. unfold index in *. rewrite map_length, L in F. assert (P := qnat_prod_pos radii Hr). unfold convolved, index in *.
  split; [apply Qle_shift_div_l; [auto|]; lra|apply Qle_shift_div_r; [auto|]; lra].
Qed.

(** ** One axis: the mean is kept *)
Definition ext (n : nat) (f : nat -> Q) (i : Z) : Q := f (reflect n i).
Fixpoint zsum_from (g : Z -> Q) (s : Z) (n : nat) : Q := match n with O => 0%Q | S n' => (zsum_from g s n' + g (s + Z.of_nat n')%Z)%Q end.
Lemma zsum_ext g h s t n : (forall k, (k < n)%nat -> g (s + Z.of_nat k)%Z == h (t + Z.of_nat k)%Z)%Q -> (zsum_from g s n == zsum_from h t n)%Q.
Proof. induction n as [|n IH]; intros H; cbn; [reflexivity|]. rewrite IH, (H n) by (intros; try apply H; lia). reflexivity. Qed.
Lemma zsum_app g s n m : (zsum_from g s (n + m) == zsum_from g s n + zsum_from g (s + Z.of_nat n) m)%Q.
Proof.
  induction m as [|m IH]; [rewrite Nat.add_0_r; cbn; ring|]. rewrite Nat.add_succ_r. cbn [zsum_from]. rewrite IH.
  replace (s + Z.of_nat (n + m))%Z with (s + Z.of_nat n + Z.of_nat m)%Z by lia. ring.
Qed.
Lemma zsum_cons g s n : (zsum_from g s (S n) == g s + zsum_from g (s + 1) n)%Q.
Proof. rewrite (zsum_app g s 1 n). cbn [zsum_from]. rewrite Z.add_0_r. change (Z.of_nat 1) with 1%Z. ring. Qed.
Lemma zsum_period g p s t : (0 < p)%nat -> (forall i, g (i + Z.of_nat p)%Z = g i) -> (zsum_from g s p == zsum_from g t p)%Q.
Proof.
  intros Hp H.
  assert (St : forall s, (zsum_from g s p == zsum_from g (s + 1) p)%Q).
  { intros u. assert (A := zsum_cons g u p). cbn [zsum_from] in A. rewrite H in A.
    rewrite Qplus_comm in A. apply Qplus_inj_l in A. exact A. }
  assert (Up : forall k u, (zsum_from g u p == zsum_from g (u + Z.of_nat k) p)%Q).
  { induction k as [|k IHk]; intros u; [rewrite Z.add_0_r; reflexivity|]. rewrite (IHk u), St.
    replace (u + Z.of_nat k + 1)%Z with (u + Z.of_nat (S k))%Z by lia. reflexivity. }
  destruct (Z.le_ge_cases s t).
  - rewrite (Up (Z.to_nat (t - s)) s). replace (s + Z.of_nat (Z.to_nat (t - s)))%Z with t by lia. reflexivity.
  - rewrite (Up (Z.to_nat (s - t)) t). replace (t + Z.of_nat (Z.to_nat (s - t)))%Z with s by lia. reflexivity.
Qed.
Lemma zsum_rev g s n : (zsum_from g s n == zsum_from (fun i => g (- i)%Z) (1 - s - Z.of_nat n) n)%Q.
Proof.
  revert s. induction n as [|n IH]; intros s; [reflexivity|]. rewrite zsum_cons. cbn [zsum_from].
  rewrite (IH (s + 1)%Z). rewrite (zsum_ext _ (fun i => g (- i)%Z) (1 - (s + 1) - Z.of_nat n) (1 - s - Z.of_nat (S n)) n).
  - replace (- (1 - s - Z.of_nat (S n) + Z.of_nat n))%Z with s by lia. ring.
  - intros k Hk. replace (1 - (s + 1) - Z.of_nat n + Z.of_nat k)%Z with (1 - s - Z.of_nat (S n) + Z.of_nat k)%Z by lia. reflexivity.
Qed.
Lemma ext_period n f i : ext n f (i + Z.of_nat (2 * n)) = ext n f i.
Proof.
  unfold ext, reflect. replace (Z.of_nat (2 * n)) with (1 * (2 * Z.of_nat n))%Z by lia. now rewrite Z_mod_plus_full.
Qed.
Lemma reflect_opp n i : 0 < n -> reflect n (-1 - i) = reflect n i.
Proof.
  intros H. unfold reflect. set (p := (2 * Z.of_nat n)%Z).
  assert (M := Z.mod_pos_bound i p ltac:(lia)).
  assert (E : ((-1 - i) mod p = p - 1 - i mod p)%Z).
  { symmetry. apply (Z.mod_unique_pos _ _ (- 1 - i / p)); [lia|]. assert (D := Z.div_mod i p ltac:(lia)). lia. }
  rewrite E. destruct (Nat.ltb_spec (Z.to_nat (p - 1 - i mod p)) n), (Nat.ltb_spec (Z.to_nat (i mod p)) n); lia.
Qed.
Lemma reflect_id n i : i < n -> reflect n (Z.of_nat i) = i.
Proof.
  intros H. unfold reflect. rewrite Z.mod_small by lia. rewrite Nat2Z.id. destruct (Nat.ltb_spec i n); lia.
Qed.
Lemma ext_base n f : (zsum_from (ext n f) 0 n == sum_below f n)%Q.
Proof.
  assert (H : forall m, m <= n -> (zsum_from (ext n f) 0 m == sum_below f m)%Q).
  { induction m as [|m IH]; intros Hm; cbn; [reflexivity|]. rewrite IH by lia. unfold ext. rewrite reflect_id by lia. reflexivity. }
  apply H. lia.
Qed.
(** shifts by [k] and [-k] together see every cell twice *)
Lemma shifted_pair n f k : 0 < n -> (zsum_from (ext n f) k n + zsum_from (ext n f) (- k) n == 2 * sum_below f n)%Q.
Proof.
  intros H.
  assert (A : (zsum_from (ext n f) (- k) n == zsum_from (ext n f) (k - Z.of_nat n) n)%Q).
  { rewrite zsum_rev. apply zsum_ext. intros j Hj. unfold ext. rewrite <- (reflect_opp n) by auto.
    replace (-1 - - (1 - - k - Z.of_nat n + Z.of_nat j))%Z with (k - Z.of_nat n + Z.of_nat j)%Z by lia. reflexivity. }
  rewrite A, Qplus_comm. replace k with (k - Z.of_nat n + Z.of_nat n)%Z at 2 by lia. rewrite <- zsum_app.
  replace (n + n) with (2 * n) by lia. rewrite (zsum_period (ext n f) (2 * n) _ (- Z.of_nat n)%Z ltac:(lia) (ext_period n f)).
  replace (2 * n) with (n + n) by lia. rewrite zsum_app. replace (- Z.of_nat n + Z.of_nat n)%Z with 0%Z by lia. rewrite ext_base.
  rewrite zsum_rev. rewrite (zsum_ext _ (ext n f) _ 0 n).
  - rewrite ext_base. ring.
  - intros j Hj. unfold ext. rewrite <- (reflect_opp n) by auto.
    replace (-1 - - (1 - - Z.of_nat n - Z.of_nat n + Z.of_nat j))%Z with (0 + Z.of_nat j)%Z by lia. reflexivity.
Qed.
Lemma sum_below_ext f g n : (forall i, (i < n)%nat -> f i == g i)%Q -> (sum_below f n == sum_below g n)%Q.
Proof. intros H. induction n as [|n IH]; cbn; [reflexivity|]. rewrite IH, H by (intros; try apply H; lia). reflexivity. Qed.
Lemma sum_below_div f c n : (sum_below (fun i => f i / c) n == sum_below f n / c)%Q.
Proof. induction n as [|n IH]; cbn; [unfold Qdiv; ring|]. rewrite IH. unfold Qdiv. ring. Qed.
Lemma sum_below_zsum g s n : (sum_below (fun i => g (s + Z.of_nat i)%Z) n == zsum_from g s n)%Q.
Proof. induction n as [|n IH]; cbn; [reflexivity|]. rewrite IH. reflexivity. Qed.
(** the sum over the window of radius 2h+1 *)
Fixpoint window_sum (g : Z -> Q) (i : Z) (h : nat) : Q :=
  match h with O => g i | S h' => (window_sum g i h' + (g (i + Z.of_nat h)%Z + g (i - Z.of_nat h)%Z))%Q end.
Lemma qsum_app' l l' : (qsum (l ++ l') == qsum l + qsum l')%Q.
Proof.
  induction l as [|x l IH]; [symmetry; apply Qplus_0_l|]. change ((x :: l) ++ l') with (x :: (l ++ l')). change (qsum (x :: l)) with (x + qsum l)%Q.
  change (qsum (x :: l ++ l')) with (x + qsum (l ++ l'))%Q. rewrite IH. ring.
Qed.
Lemma window_sum_spec (g : Z -> Q) i h : (qsum (map (fun k => g (i + Z.of_nat k - Z.of_nat h)%Z) (seq 0 (2 * h + 1))) == window_sum g i h)%Q.
Proof.
  induction h as [|h IH].
  - cbn. replace (i + 0 - 0)%Z with i by lia. ring.
  - replace (2 * S h + 1) with (S (2 * h + 1) + 1) by lia. rewrite seq_app, map_app, qsum_app'. cbn [seq map plus window_sum]. rewrite <- seq_shift, map_map.
    change (qsum (?x :: ?l)) with (x + qsum l)%Q. rewrite <- IH.
    rewrite (map_ext (fun k => g (i + Z.of_nat (S k) - Z.of_nat (S h))%Z) (fun k => g (i + Z.of_nat k - Z.of_nat h)%Z)) by (intros k; f_equal; lia).
    replace (i + Z.of_nat 0 - Z.of_nat (S h))%Z with (i - Z.of_nat (S h))%Z by lia.
    replace (i + Z.of_nat (S (2 * h + 1)) - Z.of_nat (S h))%Z with (i + Z.of_nat (S h))%Z by lia. cbn. change (fold_right Qplus 0%Q) with qsum. ring.
Qed.
Lemma sum_window_sum n f h : 0 < n -> (sum_below (fun i => window_sum (ext n f) (Z.of_nat i) h) n == qnat (2 * h + 1) * sum_below f n)%Q.
Proof.
  intros H. induction h as [|h IH].
  - cbn [window_sum]. rewrite (sum_below_ext _ (fun i => ext n f (0 + Z.of_nat i)%Z)) by (intros; reflexivity).
    rewrite sum_below_zsum, ext_base. change (2 * 0 + 1) with 1. rewrite qnat_S, qnat_0. ring.
  - cbn [window_sum].
    assert (E : forall F G m, (sum_below (fun i => F i + G i)%Q m == sum_below F m + sum_below G m)%Q) by (intros F G; induction m as [|m IHm]; cbn; [ring|rewrite IHm; ring]).
    rewrite E, E, IH.
    rewrite (sum_below_ext (fun i => ext n f (Z.of_nat i + Z.of_nat (S h))) (fun i => ext n f (Z.of_nat (S h) + Z.of_nat i)%Z)) by (intros; rewrite Z.add_comm; reflexivity).
    rewrite (sum_below_ext (fun i => ext n f (Z.of_nat i - Z.of_nat (S h))) (fun i => ext n f (- Z.of_nat (S h) + Z.of_nat i)%Z)) by (intros; rewrite Z.add_comm; reflexivity).
    rewrite !sum_below_zsum, (shifted_pair n f) by auto. replace (2 * S h + 1) with (S (S (2 * h + 1))) by lia. rewrite !qnat_S. ring.
Qed.
Lemma convolved_axis n h f i :
  (convolved [n] [(2 * h + 1)%nat] (fun j => f (hd 0%nat j)) [i] == window_sum (ext n f) (Z.of_nat i) h / qnat (2 * h + 1))%Q.
Proof.
  unfold convolved. cbn [neighbours prod fold_right]. rewrite Nat.mul_1_r.
  assert (L : forall l, map (fun j => f (hd 0 j)) (flat_map (fun a => map (cons a) [[]]) l) = map f l).
  { induction l as [|a l IH]; cbn; [reflexivity|]. f_equal. exact IH. }
  rewrite L. unfold window. rewrite map_map. replace ((2 * h + 1 - 1) / 2) with h by (replace (2 * h + 1 - 1) with (h * 2) by lia; now rewrite Nat.div_mul).
  rewrite (window_sum_spec (ext n f) (Z.of_nat i) h). reflexivity.
Qed.

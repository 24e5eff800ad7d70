(** C121: stratified points. *)
From Coq Require Import Arith Bool Lia List Permutation.
From Verif.Model Require Import Prelude Jittered.
From Verif.Spec Require Import Jittered.
From Verif.Proofs Require Import Jittered.
Import ListNotations.
Open Scope nat_scope.

(** ** What is returned is balanced: if the stratified draw returns points, they are [n] points out of some first
    draws, and each of the [K] classes met in these draws contributes [n / K] points, or one more for exactly [n mod K] of
    the classes. *)
Theorem C121_balanced : forall A (draw : nat -> A) class_of huge blocks fuel n x,
  jittered draw class_of huge blocks fuel n = Ok x ->
  exists k, let points := map draw (seq 0 k) in let classes := nodup Nat.eq_dec (map class_of points) in
    length x = n /\ (forall p, In p x -> In p points) /\ classes <> [] /\
    (forall c, In c classes -> number class_of c x = n / length classes \/ number class_of c x = S (n / length classes)) /\
    length (filter (fun c => number class_of c x =? S (n / length classes)) classes) = n mod length classes.
Proof.
  intros A draw class_of huge blocks fuel n x H. unfold jittered in H.
  destruct (negb blocks && (0 <? Nat.sqrt n * n)); [discriminate|].
  set (first := Nat.sqrt n * n) in *.
  destruct (balance draw class_of fuel n huge first (fill draw class_of first 0 [])) as [h|] eqn:E; [|discriminate]. cbn [bind] in H.
  apply (balance_inv draw class_of) in E as (k & Hi & Hne & Hs); [|replace first with (0 + first) by lia; apply fill_inv, inv_nil].
  apply (collect_mono fuel (2 + fuel)) in H; [|lia].
  destruct (collect_ok (2 + fuel) n h ltac:(lia) Hne Hs) as [Hc Hl]. rewrite Hc in H. injection H as <-.
  exists k. cbn zeta. set (points := map draw (seq 0 k)) in *. set (classes := nodup Nat.eq_dec (map class_of points)).
  pose proof Hi as (Hn & _ & Hk).
  assert (P : Permutation classes (map fst h)).
  { apply NoDup_Permutation; [apply NoDup_nodup|exact Hn|]. intros c. unfold classes. rewrite nodup_In, Hk. reflexivity. }
  assert (El : length classes = length h) by (rewrite (Permutation_length P), map_length; reflexivity). rewrite El.
  split; [exact Hl|]. split; [intros p Hp; eapply balanced_incl; eassumption|]. split; [intros Hc0; apply Hne; apply length_zero_iff_nil; rewrite <- El, Hc0; reflexivity|].
  split.
  - intros c Hin. rewrite (number_balanced class_of n h points c Hi Hne Hs). apply (Permutation_in _ P) in Hin.
    destruct (in_dec Nat.eq_dec c (map fst h)); [|contradiction]. destruct (in_dec Nat.eq_dec c (firstn _ _)); lia.
  - assert (Q : Permutation (filter (fun c => number class_of c (balanced_take n h) =? S (n / length h)) classes) (firstn (n mod length h) (map fst h))).
    { apply NoDup_Permutation; [apply NoDup_filter, NoDup_nodup|apply nodup_firstn, Hn|]. intros c. rewrite filter_In, (number_balanced class_of n h points c Hi Hne Hs).
      split.
      - intros [Hin Hc1]. apply (Permutation_in _ P) in Hin. apply Nat.eqb_eq in Hc1. destruct (in_dec Nat.eq_dec c (map fst h)); [|contradiction].
        destruct (in_dec Nat.eq_dec c (firstn _ _)); [assumption|lia].
      - intros Hin. pose proof (firstn_incl _ _ _ Hin) as Hin'. split; [apply (Permutation_in _ (Permutation_sym P)); exact Hin'|]. apply Nat.eqb_eq.
        destruct (in_dec Nat.eq_dec c (map fst h)); [|contradiction]. destruct (in_dec Nat.eq_dec c (firstn _ _)); [lia|contradiction]. }
    rewrite (Permutation_length Q), firstn_length_le; [reflexivity|]. rewrite map_length. apply Nat.lt_le_incl, Nat.mod_upper_bound. destruct h; [congruence|cbn; lia].
Qed.
Print Assumptions C121_balanced.

(** ** It succeeds at once when the first draws, as many as [n] times the integer square root of [n], already hold enough
    points of each class they meet. *)
Theorem C121_enough : forall A (draw : nat -> A) class_of huge fuel n,
  let points := map draw (seq 0 (Nat.sqrt n * n)) in let classes := nodup Nat.eq_dec (map class_of points) in
  2 <= fuel -> 1 <= n <= huge -> (forall c, In c classes -> n <= number class_of c points * length classes) ->
  exists x, jittered draw class_of huge true fuel n = Ok x /\ length x = n /\ forall p, In p x -> In p points.
Proof.
  intros A draw class_of huge fuel n points classes Hf Hn He. unfold jittered. cbn [negb andb]. set (first := Nat.sqrt n * n) in *.
  assert (Hi : inv class_of (fill draw class_of first 0 []) points) by (unfold points; replace first with (0 + first) by lia; apply fill_inv, inv_nil).
  set (h := fill draw class_of first 0 []) in *. pose proof Hi as (Hd & Hp & Hk).
  assert (P : Permutation classes (map fst h)).
  { apply NoDup_Permutation; [apply NoDup_nodup|exact Hd|]. intros c. unfold classes. rewrite nodup_In, Hk. reflexivity. }
  assert (El : length classes = length h) by (rewrite (Permutation_length P), map_length; reflexivity).
  assert (Hs : forall c s, In (c, s) h -> n <= length s * length h).
  { intros c s Hs. rewrite (Hp c s Hs), <- El. apply He. apply (Permutation_in _ (Permutation_sym P)). apply (in_map fst) in Hs. exact Hs. }
  assert (Hne : h <> []).
  { intros E. assert (F : 1 <= Nat.sqrt n) by (apply Nat.sqrt_le_square; lia). assert (F1 : 1 <= first) by (unfold first; nia).
    assert (In (class_of (draw 0)) (map fst h)) by (apply Hk; unfold points; rewrite map_map; apply in_map_iff; exists 0; split; [reflexivity|apply in_seq; lia]). rewrite E in H. destruct H. }
  destruct fuel as [|fuel]; [lia|]. cbn [balance]. destruct h as [|y h0] eqn:Eh; [congruence|]. rewrite <- Eh in *.
  assert (E : (smallest_stratum huge h * length h <? n) = false).
  { apply Nat.ltb_ge. assert (0 < length h) by (rewrite Eh; cbn; lia).
    assert (Hc := proj2 (proj2 (smallest_le h huge)) ((n + length h - 1) / length h)).
    assert (Hd1 := Nat.div_mod (n + length h - 1) (length h) ltac:(lia)). assert (Hd2 := Nat.mod_upper_bound (n + length h - 1) (length h) ltac:(lia)).
    assert ((n + length h - 1) / length h <= smallest_stratum huge h); [|nia]. apply Hc.
    - apply Nat.div_le_upper_bound; [lia|]. nia.
    - intros c s Hcs. specialize (Hs c s Hcs). apply Nat.lt_succ_r. apply Nat.div_lt_upper_bound; [lia|]. nia. }
  rewrite E. cbn [bind]. destruct (collect_ok (S fuel) n h Hf Hne Hs) as [Hc Hl]. rewrite Hc. eexists. split; [reflexivity|]. split; [exact Hl|].
  intros p Hx. eapply balanced_incl; eassumption.
Qed.
Print Assumptions C121_enough.

(** ** But it does not end otherwise: the least number of points of a class is kept from one draw to the next, and never
    grows. With at most [K] classes, if a class which is met by the first draws holds less than [n / K] of them, the loop
    runs forever, whatever is drawn afterwards, even when all the classes get more and more points. *)
Theorem C121_endless_refuted : forall A (draw : nat -> A) class_of huge n K c,
  (forall i, class_of (draw i) < K) -> let points := map draw (seq 0 (Nat.sqrt n * n)) in
  In c (map class_of points) -> number class_of c points * K < n ->
  forall fuel, jittered draw class_of huge true fuel n = Err OutOfFuel.
Proof.
  intros A draw class_of huge n K c HK points Hc Hs fuel. unfold jittered. cbn [negb andb]. set (first := Nat.sqrt n * n) in *.
  assert (Hi : inv class_of (fill draw class_of first 0 []) points) by (unfold points; replace first with (0 + first) by lia; apply fill_inv, inv_nil).
  set (h := fill draw class_of first 0 []) in *. pose proof Hi as (Hd & Hp & Hk).
  apply Hk in Hc. apply in_map_iff in Hc as [[c' s] [E Hin]]. cbn in E. subst c'.
  rewrite (balance_stuck draw class_of fuel n huge first h K HK Hd); [reflexivity| | |].
  - intros ->. destruct Hin.
  - intros k Hkk. apply Hk in Hkk. unfold points in Hkk. rewrite map_map in Hkk. apply in_map_iff in Hkk as [i [<- _]]. apply HK.
  - destruct (smallest_le h huge) as [_ [Hsm _]]. specialize (Hsm c s Hin). rewrite (Hp c s Hin) in Hsm. unfold number in Hs. unfold of_class in Hsm. nia.
Qed.
Print Assumptions C121_endless_refuted.

(** ** And the default number of blocks is lost: it is bound to a misspelt name, so that asking for stratified points without
    blocks raises, whatever the number of points; so does asking for none. *)
Theorem C121_default_refuted : forall A (draw : nat -> A) class_of huge fuel n,
  (1 <= n -> jittered draw class_of huge false fuel n = Err TypeError) /\
  (forall blocks, 1 <= fuel -> jittered draw class_of huge blocks fuel 0 = Err ZeroDivisionError).
Proof.
  intros A draw class_of huge fuel n. split.
  - intros Hn. unfold jittered. cbn [negb andb]. assert (F : 1 <= Nat.sqrt n) by (apply Nat.sqrt_le_square; lia).
    assert (E : (0 <? Nat.sqrt n * n) = true) by (apply Nat.ltb_lt; nia). rewrite E. reflexivity.
  - intros blocks Hf. destruct fuel as [|fuel]; [lia|]. destruct blocks; reflexivity.
Qed.
Print Assumptions C121_default_refuted.

(** draws which meet three classes in turn: seven points out of the first 14 *)
Example C121_case : jittered (fun i => i) (fun x => x mod 3) 1000 true 5 7 = Ok [0; 3; 1; 4; 2; 5; 6].
Proof. reflexivity. Qed.
(** the third class holds a single point among the first 14, and every point afterwards *)
Definition late (i : nat) : nat := if i =? 0 then 2 else if 14 <=? i then 2 else i mod 2.
Example C121_late_case : forall fuel, jittered late (fun x => x) 1000 true fuel 7 = Err OutOfFuel.
Proof.
  apply (C121_endless_refuted nat late (fun x => x) 1000 7 3 2).
  - intros i. unfold late. destruct (i =? 0); [lia|]. destruct (14 <=? i); [lia|]. assert (H := Nat.mod_upper_bound i 2). lia.
  - cbn. auto.
  - cbn. lia.
Qed.

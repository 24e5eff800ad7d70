From Coq Require Import List Arith ZArith QArith Bool Lqa Lia Permutation Sorted.
From Verif.Model Require Import Prelude MultiValue Pruning.
From Verif.Spec Require Import Pruning.
From Verif.Proofs Require Import MultiValue.
Import ListNotations.

Lemma qinsert_perm x l : Permutation (qinsert x l) (x :: l).
Proof.
  induction l as [|y l IH]; cbn; [easy|]. destruct (qle x y); [easy|].
  rewrite IH. apply perm_swap.
Qed.
Lemma qsort_perm l : Permutation (qsort l) l.
Proof. induction l as [|y l IH]; cbn; [easy|]. now rewrite qinsert_perm, IH. Qed.

Definition qsorted := StronglySorted Qle.

Lemma qinsert_sorted x l : qsorted l -> qsorted (qinsert x l).
Proof.
  induction 1 as [|y l Hs IH Hall]; cbn; [repeat constructor|].
  destruct (qle_spec x y) as [H|H].
  - constructor; [now constructor|]. constructor; [easy|].
    eapply Forall_impl; [|exact Hall]. cbn. intros; lra.
  - constructor; [easy|]. rewrite Forall_forall in *. intros z Hz.
    apply (Permutation_in z (qinsert_perm x l)) in Hz as [<-|Hz]; [lra|auto].
Qed.
Lemma qsort_sorted l : qsorted (qsort l).
Proof. induction l; cbn; [constructor|now apply qinsert_sorted]. Qed.

Lemma count_perm {A} (p : A -> bool) l l' : Permutation l l' -> count p l = count p l'.
Proof.
  unfold count. induction 1; cbn; try destruct (p x); try destruct (p y); cbn; lia.
Qed.
Lemma count_map {A B} (f : A -> B) p l : count p (map f l) = count (fun x => p (f x)) l.
Proof.
  unfold count. induction l; cbn; [easy|]. destruct (p (f a)); cbn; lia.
Qed.
Lemma count_le {A} (p : A -> bool) l : (count p l <= length l)%nat.
Proof. unfold count. induction l; cbn; [lia|]. destruct (p a); cbn; lia. Qed.

(** in a sorted list, the element of index [m] is above [v] iff at most [m] are <= v *)
Lemma sorted_nth l m t v : qsorted l -> nth_error l m = Some t ->
  (v < t <-> (count (fun w => qle w v) l <= m)%nat)%Q.
Proof.
  intros Hs. revert m. induction Hs as [|y l Hs IH Hall]; intros m Hm; [now destruct m|].
  destruct m as [|m]; cbn in Hm.
  - injection Hm as ->. unfold count; cbn. destruct (qle_spec t v) as [H|H].
    + cbn. split; [lra|lia].
    + split; [|lra]. intros _.
      assert (E : filter (fun w => qle w v) l = []).
      { rewrite Forall_forall in Hall. clear - Hall H. induction l as [|z l IHl]; cbn; [easy|].
        destruct (qle_spec z v) as [Hz|Hz].
        - specialize (Hall z (or_introl eq_refl)). lra.
        - apply IHl. intros; apply Hall; now right. }
      rewrite E. cbn. lia.
  - unfold count; cbn. destruct (qle_spec y v) as [H|H].
    + cbn. rewrite IH by exact Hm. unfold count. lia.
    + assert (v < t)%Q.
      { rewrite Forall_forall in Hall. apply nth_error_In in Hm. specialize (Hall t Hm). lra. }
      split; [|easy]. intros _. rewrite IH in H0 by exact Hm. unfold count in H0. lia.
Qed.

Lemma sorted_count_lt l m t : qsorted l -> nth_error l m = Some t ->
  (count (fun w => qlt w t) l <= m)%nat.
Proof.
  intros Hs. revert m. induction Hs as [|y l Hs IH Hall]; intros m Hm; [now destruct m|].
  destruct m as [|m]; cbn in Hm.
  - injection Hm as ->. unfold count; cbn. destruct (qlt_spec t t) as [H|H]; [lra|].
    assert (E : filter (fun w => qlt w t) l = []).
    { rewrite Forall_forall in Hall. clear - Hall. induction l as [|z l IHl]; cbn; [easy|].
      destruct (qlt_spec z t) as [Hz|Hz].
      - specialize (Hall z (or_introl eq_refl)). lra.
      - apply IHl. intros; apply Hall; now right. }
    rewrite E. cbn. lia.
  - specialize (IH m Hm). unfold count in *; cbn. destruct (qlt y t); cbn; lia.
Qed.

Lemma quantile_index m n : (m + 1 <= n)%nat -> ((m + 1) * (n - 1) / n = m)%nat.
Proof.
  intros H. symmetry. apply Nat.div_unique with (r := (n - (m + 1))%nat); nia.
Qed.

Lemma quantile_ok {A} (e : A -> Q) (l : list A) m : (m + 1 <= length l)%nat ->
  exists t, quantile_lower (map e l) (m + 1) (length l) = Ok t /\
    (forall v, In v l -> (e v < t <-> (rank e l v <= m)%nat)%Q) /\
    (count (fun v => qlt (e v) t) l <= m)%nat.
Proof.
  intros H. unfold quantile_lower.
  destruct (Nat.eqb_spec (length l) 0); [lia|].
  destruct (Nat.ltb_spec (length l) (m + 1)); [lia|].
  rewrite map_length, quantile_index by exact H.
  assert (Hlen : length (qsort (map e l)) = length l)
    by (rewrite (Permutation_length (qsort_perm _)), map_length; easy).
  destruct (nth_error (qsort (map e l)) m) as [t|] eqn:Ht.
  - exists t. split; [easy|]. split.
    + intros v Hv. rewrite (sorted_nth _ _ _ _ (qsort_sorted _) Ht).
      rewrite (count_perm _ _ _ (qsort_perm _)), count_map. reflexivity.
    + pose proof (sorted_count_lt _ _ _ (qsort_sorted _) Ht) as Hc.
      rewrite (count_perm _ _ _ (qsort_perm _)), count_map in Hc. exact Hc.
  - apply nth_error_None in Ht. lia.
Qed.

Lemma quantiles_ok {A} (ests : list (A -> Q)) (l : list A) m : (m + 1 <= length l)%nat ->
  exists qs, quantiles ests (m + 1) l = Ok qs /\
    (forall v, In v l -> existsb (fun p => qlt (fst p v) (snd p)) qs = true <->
                          exists e, In e ests /\ (rank e l v <= m)%nat) /\
    (count (fun v => existsb (fun p => qlt (fst p v) (snd p)) qs) l <= length ests * m)%nat.
Proof.
  intros H. induction ests as [|e ests IH]; cbn.
  - exists []. cbn. split; [easy|]. split.
    + intros v _. split; [easy|]. intros (e & [] & _).
    + unfold count. clear H. induction l; cbn; [lia|easy].
  - destruct (quantile_ok e l m H) as (t & Ht & Hiff & Hc). rewrite Ht. cbn.
    destruct IH as (qs & Hqs & Hiff2 & Hc2). rewrite Hqs. cbn.
    exists ((e, t) :: qs). split; [easy|]. split.
    + intros v Hv. cbn. rewrite orb_true_iff, qlt_iff, (Hiff v Hv), (Hiff2 v Hv). split.
      * intros [Hr|(e' & He & Hr)]; [exists e; auto|exists e'; auto].
      * intros (e' & [<-|He] & Hr); [now left|right; eauto].
    + cbn. unfold count in *. clear - Hc Hc2.
      assert (length (filter (fun v => qlt (e v) t || existsb (fun p => qlt (fst p v) (snd p)) qs) l)
              <= length (filter (fun v => qlt (e v) t) l)
                 + length (filter (fun v => existsb (fun p => qlt (fst p v) (snd p)) qs) l))%nat.
      { clear. induction l as [|a l IH]; cbn; [lia|].
        destruct (qlt (e a) t), (existsb (fun p => qlt (fst p a) (snd p)) qs); cbn; lia. }
      lia.
Qed.

Lemma prune_below {A} m M (ests : list (A -> Q)) l : (length l < M)%nat ->
  prune m M ests l = Ok l.
Proof. intros H. unfold prune. destruct (Nat.ltb_spec (length l) M); [easy|lia]. Qed.

Lemma prune_above {A} m M (ests : list (A -> Q)) l : (M <= length l)%nat -> (m + 1 <= length l)%nat ->
  exists f, prune m M ests l = Ok (filter f l) /\
    (forall v, In v l -> f v = true <-> exists e, In e ests /\ (rank e l v <= m)%nat) /\
    (length (filter f l) <= length ests * m)%nat.
Proof.
  intros HM Hm. unfold prune. destruct (Nat.ltb_spec (length l) M); [lia|].
  unfold prune_now. destruct (quantiles_ok ests l m Hm) as (qs & Hqs & Hiff & Hc). rewrite Hqs. cbn.
  eexists. split; [reflexivity|]. split; [exact Hiff|exact Hc].
Qed.

Lemma filter_sublist {A} (f : A -> bool) l : sublist (filter f l) l.
Proof. induction l; cbn; [constructor|]. destruct (f a); now constructor. Qed.

Lemma sublist_refl {A} (l : list A) : sublist l l.
Proof. induction l; now constructor. Qed.

Lemma sublist_in {A} (a b : list A) x : sublist a b -> In x a -> In x b.
Proof. induction 1; cbn; [easy| |]; intuition. Qed.

Lemma sublist_length {A} (a b : list A) : sublist a b -> (length a <= length b)%nat.
Proof. induction 1; cbn; lia. Qed.

Lemma sublist_map {A B} (f : A -> B) a b : sublist a b -> sublist (map f a) (map f b).
Proof. induction 1; cbn; now constructor. Qed.

Lemma sublist_nodup {A} (a b : list A) : sublist a b -> NoDup b -> NoDup a.
Proof.
  induction 1 as [|x a b H IH|x a b H IH]; intros Hn; [constructor| |].
  - inversion Hn; subst. constructor; [|auto]. intros Hx. now apply (sublist_in _ _ _ H) in Hx.
  - inversion Hn; subst. auto.
Qed.

Lemma prune_sublist {A} m M (ests : list (A -> Q)) l l' :
  prune m M ests l = Ok l' -> sublist l' l.
Proof.
  unfold prune, prune_now. destruct (_ <? _)%nat.
  - intros [= <-]. apply sublist_refl.
  - destruct (quantiles _ _ _); cbn; [|easy]. intros [= <-]. apply filter_sublist.
Qed.

(** without ties exactly [m] entries have rank at most [m] *)
Lemma sorted_firstn_rank l m : StronglySorted Qlt l -> (m <= length l)%nat ->
  count (fun v => (count (fun w => qle w v) l <=? m)%nat) l = m.
Proof.
  intros Hs. revert m. induction Hs as [|y l Hs IH Hall]; intros m Hm.
  - cbn in Hm. replace m with 0%nat by lia. reflexivity.
  - assert (Hy : count (fun w => qle w y) (y :: l) = 1%nat).
    { unfold count; cbn. destruct (qle_spec y y) as [_|H]; [|lra]. cbn. f_equal.
      rewrite Forall_forall in Hall. clear - Hall. induction l as [|z l IHl]; cbn; [easy|].
      destruct (qle_spec z y) as [Hz|Hz].
      - specialize (Hall z (or_introl eq_refl)). lra.
      - apply IHl. intros; apply Hall; now right. }
    assert (Hin : forall v, In v l ->
              count (fun w => qle w v) (y :: l) = S (count (fun w => qle w v) l)).
    { intros v Hv. unfold count; cbn. rewrite Forall_forall in Hall. specialize (Hall v Hv).
      destruct (qle_spec y v); [easy|lra]. }
    unfold count at 1. cbn [filter].
    destruct m as [|m].
    + destruct (Nat.leb_spec (count (fun w => qle w y) (y :: l)) 0); [lia|].
      assert (Hnil : forall k, incl k l -> filter (fun v => count (fun w => qle w v) (y :: l) <=? 0)%nat k = []).
      { induction k as [|z k IHk]; intros Hi; cbn [filter]; [easy|].
        rewrite Hin by (apply Hi; now left). cbn [Nat.leb]. apply IHk. intros w Hw; apply Hi; now right. }
      rewrite Hnil; [easy|apply incl_refl].
    + destruct (Nat.leb_spec (count (fun w => qle w y) (y :: l)) (S m)); [|lia].
      cbn [length]. f_equal. cbn in Hm. etransitivity; [|exact (IH m ltac:(lia))].
      assert (Hext : forall k, incl k l ->
        filter (fun v => count (fun w => qle w v) (y :: l) <=? S m)%nat k
        = filter (fun v => count (fun w => qle w v) l <=? m)%nat k).
      { induction k as [|z k IHk]; intros Hi; cbn [filter]; [easy|].
        rewrite Hin by (apply Hi; now left).
        change (S (count (fun w => qle w z) l) <=? S m)%nat with (count (fun w => qle w z) l <=? m)%nat.
        rewrite IHk; [easy|]. intros w Hw; apply Hi; now right. }
      exact (f_equal (@length Q) (Hext l (incl_refl l))).
Qed.

Lemma sorted_strict l : qsorted l ->
  (forall i j x y, nth_error l i = Some x -> nth_error l j = Some y -> (x == y)%Q -> i = j) ->
  StronglySorted Qlt l.
Proof.
  induction 1 as [|y l Hs IH Hall]; intros H; constructor.
  - apply IH. intros i j x z Hi Hj E. specialize (H (S i) (S j) x z Hi Hj E). lia.
  - rewrite Forall_forall in *. intros z Hz. specialize (Hall z Hz).
    apply In_nth_error in Hz as [k Hk].
    destruct (Qlt_le_dec y z) as [|Hle]; [easy|].
    assert (E : (y == z)%Q) by lra. specialize (H 0%nat (S k) y z eq_refl Hk E). lia.
Qed.

Lemma no_ties_perm l l' : Permutation l l' ->
  no_ties (fun x => x) l -> no_ties (fun x : Q => x) l'.
Proof.
  assert (Hc : forall l, no_ties (fun x : Q => x) l <-> (ForallOrdPairs (fun x y => ~ (x == y)%Q) l)).
  { clear. intros l. unfold no_ties. split.
    - induction l as [|a l IH]; intros H; constructor.
      + apply Forall_forall. intros y Hy E. apply In_nth_error in Hy as [k Hk].
        specialize (H 0%nat (S k) a y eq_refl Hk E). lia.
      + apply IH. intros i j x y Hi Hj E. specialize (H (S i) (S j) x y Hi Hj E). lia.
    - induction 1 as [|a l Hall Hp IH]; intros i j x y Hi Hj E; [now destruct i|].
      rewrite Forall_forall in Hall.
      destruct i as [|i], j as [|j]; cbn in *; auto.
      + injection Hi as ->. apply nth_error_In in Hj. destruct (Hall _ Hj E).
      + injection Hj as ->. apply nth_error_In in Hi. destruct (Hall _ Hi). now symmetry.
      + f_equal. eauto. }
  intros Hp. rewrite !Hc. clear Hc. induction Hp as [|x l l' Hp IH|x y l|l l' l'' Hp1 IH1 Hp2 IH2];
    intros H; auto.
  - inversion H; subst. constructor; [|auto]. rewrite Forall_forall in *.
    intros z Hz. apply H2. now apply (Permutation_in _ (Permutation_sym Hp)).
  - inversion H as [|? ? Ha Hb]; subst. inversion Hb as [|? ? Hc Hd]; subst.
    inversion Ha; subst. repeat constructor; auto.
    intros E. apply H2. now symmetry.
Qed.

Lemma rank_exact {A} (e : A -> Q) l m : no_ties e l -> (m <= length l)%nat ->
  count (fun v => (rank e l v <=? m)%nat) l = m.
Proof.
  intros Hn Hm.
  assert (Hn' : no_ties (fun x => x) (map e l)).
  { intros i j x y Hi Hj E. rewrite nth_error_map in Hi, Hj.
    destruct (nth_error l i) eqn:Ei; [|easy]. destruct (nth_error l j) eqn:Ej; [|easy].
    cbn in *. injection Hi as <-. injection Hj as <-. exact (Hn _ _ _ _ Ei Ej E). }
  apply (no_ties_perm _ _ (Permutation_sym (qsort_perm _))) in Hn'.
  pose proof (sorted_strict _ (qsort_sorted _) Hn') as Hs.
  pose proof (sorted_firstn_rank _ m Hs) as Hr.
  rewrite (Permutation_length (qsort_perm _)), map_length in Hr. specialize (Hr Hm).
  rewrite (count_perm _ _ _ (qsort_perm _)), count_map in Hr.
  transitivity (count (fun x => (count (fun w => qle w (e x)) (qsort (map e l)) <=? m)%nat) l).
  2: exact Hr.
  refine (f_equal (@length A) _). apply filter_ext. intros v.
  rewrite (count_perm _ _ _ (qsort_perm _)), count_map. reflexivity.
Qed.

Lemma sensible_default_bounds nw d m M : (0 < d)%Z -> sensible_default nw d = (m, M) ->
  (100 <= m /\ 7 * nw <= m /\ 3 * m <= M <= 10 * m)%Z.
Proof.
  unfold sensible_default. intros Hd. generalize (1024 ^ 3 / (d * 8 * 2))%Z. intros z E.
  assert (Em : m = Z.max 100 (7 * nw)) by congruence.
  assert (EM : M = Z.max (3 * m) (Z.min (10 * m) z)) by congruence.
  clear E. lia.
Qed.

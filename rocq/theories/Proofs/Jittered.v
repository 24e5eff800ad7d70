(** Lemmas on stratified points. *)
From Coq Require Import Arith Bool Lia List.
From Verif.Model Require Import Prelude Jittered.
From Verif.Spec Require Import Jittered.
Import ListNotations.
Open Scope nat_scope.

Section P.
Context {A : Type} (draw : nat -> A) (class_of : A -> nat).
Notation strata := (strata A).
Notation number := (number class_of).
Definition of_class (c : nat) (l : list A) : list A := filter (fun x => class_of x =? c) l.

(** the strata of some points *)
Definition inv (h : strata) (l : list A) : Prop :=
  NoDup (map fst h) /\ (forall c s, In (c, s) h -> s = of_class c l) /\ (forall c, In c (map fst h) <-> In c (map class_of l)).

Lemma put_keys c x (h : strata) k : In k (map fst (put c x h)) <-> k = c \/ In k (map fst h).
Proof.
  induction h as [|[c' s] h IH]; cbn; [intuition|]. destruct (c =? c') eqn:E; cbn.
  - apply Nat.eqb_eq in E. subst. intuition.
  - rewrite IH. intuition.
Qed.
Lemma put_nodup c x (h : strata) : NoDup (map fst h) -> NoDup (map fst (put c x h)).
Proof.
  induction h as [|[c' s] h IH]; cbn; intros H; [repeat constructor; intros []|]. apply NoDup_cons_iff in H as [H1 H2].
  destruct (c =? c') eqn:E; cbn; constructor; auto. rewrite put_keys. intros [->|H]; [rewrite Nat.eqb_refl in E; discriminate|auto].
Qed.
Lemma put_in c x (h : strata) k s : NoDup (map fst h) -> In (k, s) (put c x h) ->
  (k <> c /\ In (k, s) h) \/ (k = c /\ ((exists s0, In (c, s0) h /\ s = s0 ++ [x]) \/ (~ In c (map fst h) /\ s = [x]))).
Proof.
  induction h as [|[c' s'] h IH]; cbn; intros Hn H.
  - destruct H as [H|[]]. inversion H. subst. right. split; [reflexivity|]. right. auto.
  - apply NoDup_cons_iff in Hn as [Hn1 Hn2]. destruct (c =? c') eqn:E.
    + apply Nat.eqb_eq in E. subst c'. destruct H as [H|H].
      * inversion H. subst. right. split; [reflexivity|]. left. exists s'. auto.
      * left. split; [|auto]. intros ->. apply Hn1. apply (in_map fst) in H. exact H.
    + apply Nat.eqb_neq in E. destruct H as [H|H].
      * inversion H. subst. left. split; [congruence|auto].
      * destruct (IH Hn2 H) as [[H1 H2]|[H1 [[s0 [H2 H3]]|[H2 H3]]]]; [left; auto|right; split; [exact H1|left; exists s0; auto]|].
        right. split; [exact H1|]. right. split; [intros [H4|H4]; [congruence|auto]|exact H3].
Qed.
Lemma of_class_app c l1 l2 : of_class c (l1 ++ l2) = of_class c l1 ++ of_class c l2.
Proof. apply filter_app. Qed.
Lemma of_class_nil c l : ~ In c (map class_of l) -> of_class c l = [].
Proof.
  induction l as [|x l IH]; cbn; intros H; [reflexivity|]. destruct (class_of x =? c) eqn:E; [apply Nat.eqb_eq in E; exfalso; auto|]. apply IH. auto.
Qed.
Lemma put_inv x (h : strata) l : inv h l -> inv (put (class_of x) x h) (l ++ [x]).
Proof.
  intros (H1 & H2 & H3). split; [apply put_nodup; exact H1|]. split.
  - intros c s Hs. rewrite of_class_app. apply put_in in Hs; [|exact H1].
    destruct Hs as [[Hc Hs]|[-> [[s0 [Hs ->]]|[Hs ->]]]].
    + cbn. destruct (class_of x =? c) eqn:E; [apply Nat.eqb_eq in E; congruence|]. rewrite app_nil_r. auto.
    + cbn. rewrite Nat.eqb_refl. f_equal. auto.
    + cbn. rewrite Nat.eqb_refl, of_class_nil; [reflexivity|]. rewrite <- H3. exact Hs.
  - intros c. rewrite put_keys, H3, map_app, in_app_iff. cbn. intuition.
Qed.
Lemma fill_inv k : forall i (h : strata), inv h (map draw (seq 0 i)) -> inv (fill draw class_of k i h) (map draw (seq 0 (i + k))).
Proof.
  induction k as [|k IH]; intros i h H; cbn; [rewrite Nat.add_0_r; exact H|].
  replace (i + S k) with (S i + k) by lia. apply IH. rewrite seq_S, map_app. apply put_inv. exact H.
Qed.
Lemma inv_nil : inv [] [].
Proof. split; [constructor|]. split; [intros ? ? []|]. intros c. reflexivity. Qed.

Lemma smallest_le (h : strata) : forall m, smallest_stratum m h <= m /\ (forall c s, In (c, s) h -> smallest_stratum m h <= length s) /\
  (forall k, k <= m -> (forall c s, In (c, s) h -> k <= length s) -> k <= smallest_stratum m h).
Proof.
  unfold smallest_stratum. induction h as [|[c s] h IH]; intros m; cbn; [repeat split; auto; intros ? ? []|].
  destruct (IH (Nat.min m (length s))) as [H1 [H2 H3]]. split; [lia|]. split.
  - intros c' s' [H|H]; [inversion H; subst; lia|eapply H2; exact H].
  - intros k Hk Hs. apply H3; [specialize (Hs c s (or_introl eq_refl)); lia|]. intros c' s' H. eapply Hs. right. exact H.
Qed.

Lemma balance_inv fuel : forall n m i (h h' : strata), inv h (map draw (seq 0 i)) -> balance draw class_of fuel n m i h = Ok h' ->
  exists k, inv h' (map draw (seq 0 k)) /\ h' <> [] /\ forall c s, In (c, s) h' -> n <= length s * length h'.
Proof.
  induction fuel as [|fuel IH]; intros n m i h h' Hi H; [discriminate|]. cbn [balance] in H.
  destruct h as [|y h]; [discriminate|]. set (h0 := y :: h) in *.
  destruct (smallest_stratum m h0 * length h0 <? n) eqn:E.
  - eapply IH; [|exact H]. rewrite seq_S, map_app. apply put_inv. exact Hi.
  - inversion H. subst h'. exists i. split; [exact Hi|]. split; [discriminate|]. intros c s Hs. apply Nat.ltb_ge in E.
    destruct (smallest_le h0 m) as [_ [H2 _]]. specialize (H2 c s Hs). nia.
Qed.

(** collecting *)
Definition take (q : nat) (h : strata) : list A := concat (map (fun s => firstn q (snd s)) h).
Definition rest (q : nat) (h : strata) : strata := map (fun s => (fst s, skipn q (snd s))) h.
Lemma take_length q (h : strata) : (forall c s, In (c, s) h -> q <= length s) -> length (take q h) = length h * q.
Proof.
  induction h as [|[c s] h IH]; intros H; [reflexivity|]. unfold take in *. cbn. rewrite app_length, IH by (intros; eapply H; right; eassumption).
  rewrite firstn_length_le; [reflexivity|]. eapply H. left. reflexivity.
Qed.
Lemma pass_all n q : 1 <= q -> forall (h : strata) x, (forall c s, In (c, s) h -> q <= length s) -> length x + length h * q <= n ->
  pass n q h x = (rest q h, x ++ take q h).
Proof.
  intros Hq. induction h as [|[c s] h IH]; intros x Hs Hl; [cbn; rewrite app_nil_r; reflexivity|]. cbn [pass].
  cbn [length] in Hl. assert (E : (length x <? n) = true) by (apply Nat.ltb_lt; lia). rewrite E.
  assert (Hf : length (firstn q s) = q) by (apply firstn_length_le; eapply Hs; left; reflexivity).
  rewrite IH; [|intros; eapply Hs; right; eassumption|rewrite app_length, Hf; lia].
  unfold rest, take. cbn. rewrite app_assoc. reflexivity.
Qed.
Lemma pass_one n : forall (h : strata) x, (forall c s, In (c, s) h -> 1 <= length s) -> length x <= n ->
  exists h', pass n 1 h x = (h', x ++ take 1 (firstn (n - length x) h)).
Proof.
  induction h as [|[c s] h IH]; intros x Hs Hl; [exists []; rewrite firstn_nil; cbn; rewrite app_nil_r; reflexivity|]. cbn [pass].
  assert (Hf : length (firstn 1 s) = 1) by (apply firstn_length_le; eapply Hs; left; reflexivity).
  assert (Hs' : forall c s, In (c, s) h -> 1 <= length s) by (intros; eapply Hs; right; eassumption).
  destruct (length x <? n) eqn:E.
  - apply Nat.ltb_lt in E. destruct (IH (x ++ firstn 1 s) Hs') as [h' Hh]; [rewrite app_length, Hf; lia|]. rewrite Hh.
    exists ((c, skipn 1 s) :: h'). f_equal. rewrite app_length, Hf. replace (n - length x) with (S (n - (length x + 1))) by lia.
    cbn [firstn]. unfold take. cbn [map concat snd]. rewrite <- app_assoc. reflexivity.
  - apply Nat.ltb_ge in E. destruct (IH x Hs' Hl) as [h' Hh]. rewrite Hh. exists ((c, skipn 1 s) :: h'). f_equal.
    replace (n - length x) with 0 by lia. cbn. reflexivity.
Qed.
Definition balanced_take (n : nat) (h : strata) : list A := take (n / length h) h ++ take 1 (firstn (n mod length h) (rest (n / length h) h)).
Lemma rest_zero (h : strata) : rest 0 h = h.
Proof. induction h as [|[c s] h IH]; [reflexivity|]. change (rest 0 ((c, s) :: h)) with ((c, s) :: rest 0 h). rewrite IH. reflexivity. Qed.
Lemma take_zero (h : strata) : take 0 h = [].
Proof. induction h as [|[c s] h IH]; [reflexivity|]. change (take 0 ((c, s) :: h)) with (take 0 h). exact IH. Qed.
Lemma firstn_incl {B} k (l : list B) x : In x (firstn k l) -> In x l.
Proof. revert l. induction k as [|k IH]; intros [|y l] H; cbn in *; auto; [destruct H|]. destruct H as [H|H]; auto. Qed.
Lemma ceil_bound n k a : 0 < k -> n <= a * k -> n / k <= a /\ (0 < n mod k -> S (n / k) <= a).
Proof.
  intros Hk H. assert (E := Nat.div_mod n k ltac:(lia)). assert (L := Nat.mod_upper_bound n k ltac:(lia)). split; [nia|]. intros Hr.
  destruct (le_lt_dec (S (n / k)) a); [assumption|]. nia.
Qed.
Lemma collect_step f n (h : strata) x : collect (S f) n h x =
  if length x <? n then let '(h', x') := pass n (Nat.max 1 ((n - length x) / length h)) h x in collect f n h' x'
  else if length x =? n then Ok x else Err AssertionError.
Proof. reflexivity. Qed.
Lemma collect_ok fuel n (h : strata) : 2 <= fuel -> h <> [] -> (forall c s, In (c, s) h -> n <= length s * length h) ->
  collect fuel n h [] = Ok (balanced_take n h) /\ length (balanced_take n h) = n.
Proof.
  intros Hf Hne Hs. set (k := length h) in *. assert (Hk : 0 < k) by (destruct h; [congruence|unfold k; cbn; lia]).
  assert (E := Nat.div_mod n k ltac:(lia)). assert (L := Nat.mod_upper_bound n k ltac:(lia)).
  assert (Hq : forall c s, In (c, s) h -> n / k <= length s) by (intros c s H; apply (ceil_bound n k (length s) Hk), (Hs c s H)).
  assert (Hq1 : 0 < n mod k -> forall c s, In (c, s) h -> S (n / k) <= length s) by (intros Hr c s H; apply (ceil_bound n k (length s) Hk); [apply (Hs c s H)|exact Hr]).
  assert (Ht : length (take (n / k) h) = k * (n / k)) by (rewrite take_length by exact Hq; reflexivity).
  assert (Hr1 : 0 < n mod k -> forall c s, In (c, s) (rest (n / k) h) -> 1 <= length s).
  { intros Hr c s H. apply in_map_iff in H as [[c' s'] [H1 H2]]. inversion H1. subst. cbn. rewrite skipn_length. specialize (Hq1 Hr c s' H2). lia. }
  assert (Hlen : length (balanced_take n h) = n).
  { unfold balanced_take. fold k. rewrite app_length, Ht. destruct (Nat.eq_dec (n mod k) 0) as [H0|H0].
    - rewrite H0. cbn. lia.
    - rewrite take_length.
      + rewrite firstn_length_le by (unfold rest; rewrite map_length; fold k; lia). lia.
      + intros c s H. apply firstn_incl in H. eapply Hr1; [lia|exact H]. }
  split; [|exact Hlen].
  destruct fuel as [|[|fuel]]; [lia|lia|].
  assert (Hend : forall f h', collect f n h' (balanced_take n h) = Ok (balanced_take n h)).
  { intros f h'. destruct f; cbn [collect]; rewrite Hlen, Nat.ltb_irrefl, Nat.eqb_refl; reflexivity. }
  destruct (Nat.eq_dec n 0) as [H0|H0].
  - assert (E0 : balanced_take n h = []) by (destruct (balanced_take n h); [reflexivity|cbn in Hlen; lia]). rewrite E0 in *. apply Hend.
  - rewrite collect_step. assert (E1 : (length (@nil A) <? n) = true) by (apply Nat.ltb_lt; cbn; lia). rewrite E1. cbn [length]. rewrite Nat.sub_0_r. fold k.
    destruct (Nat.eq_dec (n / k) 0) as [Hd|Hd].
    + rewrite Hd. cbn [Nat.max]. assert (Hr : 0 < n mod k) by lia.
      destruct (pass_one n h []) as [h' Hp]; [intros c s H; specialize (Hq1 Hr c s H); lia|cbn; lia|]. rewrite Hp. cbn [length app]. rewrite Nat.sub_0_r.
      assert (Eb : take 1 (firstn n h) = balanced_take n h).
      { unfold balanced_take. fold k. rewrite Hd, take_zero, rest_zero. cbn [app]. do 2 f_equal. lia. }
      rewrite Eb. apply Hend.
    + replace (Nat.max 1 (n / k)) with (n / k) by lia. rewrite (pass_all n (n / k)); [|lia|exact Hq|cbn; fold k; lia]. cbn [app].
      destruct (Nat.eq_dec (n mod k) 0) as [Hr|Hr].
      * assert (Eb : take (n / k) h = balanced_take n h) by (unfold balanced_take; fold k; rewrite Hr; cbn; rewrite app_nil_r; reflexivity).
        rewrite Eb. apply Hend.
      * assert (E2 : (length (take (n / k) h) <? n) = true) by (apply Nat.ltb_lt; lia). rewrite collect_step, E2, Ht.
        replace (n - k * (n / k)) with (n mod k) by lia.
        assert (Hkr : length (rest (n / k) h) = k) by (unfold rest; rewrite map_length; reflexivity). rewrite Hkr, (Nat.div_small (n mod k) k) by lia. cbn [Nat.max].
        destruct (pass_one n (rest (n / k) h) (take (n / k) h)) as [h' Hp]; [apply Hr1; lia|lia|]. rewrite Hp, Ht.
        replace (n - k * (n / k)) with (n mod k) by lia. apply Hend.
Qed.

(** counting *)
Lemma number_app c l1 l2 : number c (l1 ++ l2) = number c l1 + number c l2.
Proof. unfold number. rewrite filter_app, app_length. reflexivity. Qed.
Lemma number_all c l : (forall x, In x l -> class_of x = c) -> number c l = length l.
Proof.
  unfold number. induction l as [|x l IH]; intros H; [reflexivity|]. cbn. rewrite (H x (or_introl eq_refl)), Nat.eqb_refl. cbn. f_equal. apply IH. intros; apply H; right; assumption.
Qed.
Lemma number_none c l : (forall x, In x l -> class_of x <> c) -> number c l = 0.
Proof.
  unfold number. induction l as [|x l IH]; intros H; [reflexivity|]. cbn. destruct (class_of x =? c) eqn:E; [apply Nat.eqb_eq in E; exfalso; eapply H; [left; reflexivity|exact E]|].
  apply IH. intros; apply H; right; assumption.
Qed.
Lemma number_take c q (h : strata) : NoDup (map fst h) -> (forall k s x, In (k, s) h -> In x s -> class_of x = k) -> (forall k s, In (k, s) h -> q <= length s) ->
  number c (take q h) = if in_dec Nat.eq_dec c (map fst h) then q else 0.
Proof.
  induction h as [|[k s] h IH]; intros Hn Hc Hq; [reflexivity|]. change (take q ((k, s) :: h)) with (firstn q s ++ take q h). rewrite number_app.
  cbn [map fst] in Hn. apply NoDup_cons_iff in Hn as [Hn1 Hn2].
  rewrite IH; [|exact Hn2|intros; eapply Hc; [right; eassumption|assumption]|intros; eapply Hq; right; eassumption].
  assert (Hf : forall x, In x (firstn q s) -> class_of x = k) by (intros x Hx; eapply Hc; [left; reflexivity|apply firstn_incl in Hx; exact Hx]).
  destruct (Nat.eq_dec c k) as [->|Hck].
  - rewrite (number_all k _ Hf), firstn_length_le by (eapply Hq; left; reflexivity).
    destruct (in_dec Nat.eq_dec k (map fst h)) as [Hi|Hi]; [contradiction|].
    destruct (in_dec Nat.eq_dec k (map fst ((k, s) :: h))) as [Hj|Hj]; [lia|exfalso; apply Hj; left; reflexivity].
  - rewrite number_none by (intros x Hx; rewrite (Hf x Hx); auto).
    destruct (in_dec Nat.eq_dec c (map fst h)) as [Hi|Hi], (in_dec Nat.eq_dec c (map fst ((k, s) :: h))) as [Hj|Hj]; try reflexivity.
    + exfalso. apply Hj. right. exact Hi.
    + exfalso. destruct Hj as [Hj|Hj]; [cbn in Hj; congruence|auto].
Qed.
Lemma nodup_firstn {B} k (l : list B) : NoDup l -> NoDup (firstn k l).
Proof.
  intros H. revert k. induction H as [|x l Hx H IH]; intros [|k]; cbn; constructor; auto. intros Hi. apply firstn_incl in Hi. auto.
Qed.
Lemma take_incl q (h : strata) x : In x (take q h) -> exists c s, In (c, s) h /\ In x s.
Proof.
  unfold take. intros H. apply in_concat in H as [l [H1 H2]]. apply in_map_iff in H1 as [[c s] [<- H1]]. exists c, s. split; [exact H1|]. apply firstn_incl in H2. exact H2.
Qed.

Lemma collect_mono f : forall g n (h : strata) x y, f <= g -> collect f n h x = Ok y -> collect g n h x = Ok y.
Proof.
  induction f as [|f IH]; intros g n h x y Hg H.
  - cbn [collect] in H. destruct g; cbn [collect]; destruct (length x <? n); try discriminate; exact H.
  - destruct g as [|g]; [lia|]. rewrite collect_step in *. destruct (length x <? n); [|exact H].
    destruct (pass n _ h x) as [h' x']. apply IH; [lia|exact H].
Qed.
Lemma inv_stratum (h : strata) l c s x : inv h l -> In (c, s) h -> In x s -> class_of x = c /\ In x l.
Proof.
  intros (_ & H2 & _) Hs Hx. rewrite (H2 c s Hs) in Hx. apply filter_In in Hx as [H H']. apply Nat.eqb_eq in H'. auto.
Qed.
Lemma map_fst_rest q (h : strata) : map fst (rest q h) = map fst h.
Proof. unfold rest. rewrite map_map. reflexivity. Qed.
Lemma skipn_incl {B} k (l : list B) x : In x (skipn k l) -> In x l.
Proof. revert l. induction k as [|k IH]; intros [|y l] H; cbn in *; auto. Qed.
Lemma number_balanced n (h : strata) l c : inv h l -> h <> [] -> (forall k s, In (k, s) h -> n <= length s * length h) ->
  number c (balanced_take n h) = (if in_dec Nat.eq_dec c (map fst h) then n / length h else 0) + (if in_dec Nat.eq_dec c (firstn (n mod length h) (map fst h)) then 1 else 0).
Proof.
  intros Hi Hne Hs. assert (Hk : 0 < length h) by (destruct h; [congruence|cbn; lia]). pose proof Hi as (Hn & _ & _).
  unfold balanced_take. rewrite number_app. f_equal.
  - apply number_take; [exact Hn|intros k s x H1 H2; eapply inv_stratum; eassumption|intros k s H; apply (ceil_bound n (length h) (length s) Hk), (Hs k s H)].
  - destruct (Nat.eq_dec (n mod length h) 0) as [H0|H0]; [rewrite H0; reflexivity|].
    rewrite number_take.
    + rewrite <- firstn_map, map_fst_rest. reflexivity.
    + rewrite <- firstn_map, map_fst_rest. apply nodup_firstn. exact Hn.
    + intros k s x H1 H2. apply firstn_incl in H1. apply in_map_iff in H1 as [[k' s'] [H3 H4]]. inversion H3. subst. apply skipn_incl in H2. eapply inv_stratum; eassumption.
    + intros k s H1. apply firstn_incl in H1. apply in_map_iff in H1 as [[k' s'] [H3 H4]]. inversion H3. subst. cbn [snd]. rewrite skipn_length.
      assert (S (n / length h) <= length s') by (apply (ceil_bound n (length h) (length s') Hk); [apply (Hs k s' H4)|lia]). lia.
Qed.
Lemma balanced_incl n (h : strata) l x : inv h l -> In x (balanced_take n h) -> In x l.
Proof.
  intros Hi H. unfold balanced_take in H. apply in_app_iff in H as [H|H]; apply take_incl in H as (c & s & H1 & H2).
  - eapply inv_stratum; eassumption.
  - apply firstn_incl in H1. apply in_map_iff in H1 as [[k' s'] [H3 H4]]. inversion H3. subst. apply skipn_incl in H2. eapply inv_stratum; eassumption.
Qed.

(** the loop which never ends *)
Lemma put_length c x (h : strata) K : NoDup (map fst h) -> (forall k, In k (map fst (put c x h)) -> k < K) -> length (put c x h) <= K.
Proof.
  intros Hn H. rewrite <- (map_length fst). rewrite <- (seq_length K 0). apply NoDup_incl_length; [apply put_nodup; exact Hn|].
  intros k Hk. apply in_seq. specialize (H k Hk). lia.
Qed.
Lemma balance_stuck fuel : forall n m i (h : strata) K, (forall i, class_of (draw i) < K) -> NoDup (map fst h) -> h <> [] -> (forall k, In k (map fst h) -> k < K) ->
  smallest_stratum m h * K < n -> balance draw class_of fuel n m i h = Err OutOfFuel.
Proof.
  induction fuel as [|fuel IH]; intros n m i h K HK Hn Hne Hh Hm; [reflexivity|]. cbn [balance].
  destruct h as [|y h0]; [congruence|]. set (h := y :: h0) in *.
  assert (Hl : length h <= K).
  { rewrite <- (map_length fst). rewrite <- (seq_length K 0). apply NoDup_incl_length; [exact Hn|]. intros k Hk. apply in_seq. specialize (Hh k Hk). lia. }
  assert (E : (smallest_stratum m h * length h <? n) = true) by (apply Nat.ltb_lt; nia). rewrite E.
  apply (IH n _ (S i) _ K); auto.
  - apply put_nodup. exact Hn.
  - intros Hc. assert (Hi : In (class_of (draw i)) (map fst (put (class_of (draw i)) (draw i) h))) by (apply put_keys; left; reflexivity). rewrite Hc in Hi. destruct Hi.
  - intros k Hk. apply put_keys in Hk as [->|Hk]; auto.
  - destruct (smallest_le (put (class_of (draw i)) (draw i) h) (smallest_stratum m h)) as [H1 _]. nia.
Qed.
End P.

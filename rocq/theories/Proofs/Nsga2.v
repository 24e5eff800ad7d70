From Coq Require Import QArith ZArith Bool List Arith Lia Permutation FinFun Sorting Lqa.
From Verif.Model Require Import Prelude MultiValue Nsga2.
From Verif.Spec Require Import Nsga2 Pareto.
From Verif.Proofs Require Import Prelude MultiValue.
Import ListNotations.
Open Scope nat_scope.

Lemma update_length {A} (f : A -> A) (l : list A) : forall i, length (update i f l) = length l.
Proof. induction l as [|x l IH]; intros [|i]; cbn; auto. Qed.
Lemma update_nth {A} (f : A -> A) (l : list A) : forall i j d, nth j (update i f l) d = if (j =? i) && (j <? length l) then f (nth j l d) else nth j l d.
Proof.
  induction l as [|x l IH]; intros i j d; [cbn [update nth length]; rewrite andb_comm; destruct j, i; reflexivity|].
  destruct i as [|i], j as [|j]; cbn [update nth length Nat.eqb]; try reflexivity. rewrite IH. reflexivity.
Qed.
Lemma update_same {A} (f : A -> A) (l : list A) i d : i < length l -> nth i (update i f l) d = f (nth i l d).
Proof. intros H. rewrite update_nth, Nat.eqb_refl. apply Nat.ltb_lt in H. rewrite H. reflexivity. Qed.
Lemma update_other {A} (f : A -> A) (l : list A) i j d : j <> i -> nth j (update i f l) d = nth j l d.
Proof. intros H. rewrite update_nth. apply Nat.eqb_neq in H. rewrite H. reflexivity. Qed.

Lemma pairs_in n a b : In (a, b) (pairs n) <-> a < b < n.
Proof.
  unfold pairs. rewrite in_flat_map. split.
  - intros [c [Hc H]]. apply in_map_iff in H as [d [[= <- <-] Hd]]. apply in_seq in Hd. lia.
  - intros H. exists a. split; [apply in_seq; lia|]. apply in_map, in_seq. lia.
Qed.
Lemma pairs_nodup n : NoDup (pairs n).
Proof.
  unfold pairs. generalize (seq_NoDup (n - 1) 0). generalize (seq 0 (n - 1)). induction l as [|a l IH]; intros H; cbn; [constructor|].
  inversion H as [|? ? Ha Hl]; subst. apply NoDup_app_intro; [|exact (IH Hl)|].
  - apply Injective_map_NoDup; [intros x y [= ->]; reflexivity|apply seq_NoDup].
  - intros [x y] Hx Hy. apply in_map_iff in Hx as [z [[= <- <-] _]]. apply in_flat_map in Hy as [c [Hc Hy]]. apply in_map_iff in Hy as [w [[= -> _] _]]. exact (Ha Hc).
Qed.

Section Ranking.
Variable cmp : nat -> nat -> Z.
Hypothesis cmp_anti : forall i j, cmp j i = (- cmp i j)%Z.
Variable n : nat.
Definition beats (i j : nat) : Prop := cmp i j = (-1)%Z.

(** what a pair adds *)
Definition lost_to (i : nat) (c : nat * nat) : list nat :=
  let '(a, b) := c in if (Z.eqb (cmp a b) (-1) && (b =? i))%bool then [a] else if (Z.eqb (cmp a b) 1 && (a =? i))%bool then [b] else [].
Definition won_over (i : nat) (c : nat * nat) : list nat :=
  let '(a, b) := c in if (Z.eqb (cmp a b) (-1) && (a =? i))%bool then [b] else if (Z.eqb (cmp a b) 1 && (b =? i))%bool then [a] else [].
Definition beaters i := flat_map (lost_to i) (pairs n).
Definition beaten i := flat_map (won_over i) (pairs n).

Lemma beaters_in i j : In j (beaters i) <-> i < n /\ j < n /\ beats j i.
Proof.
  unfold beaters, beats. rewrite in_flat_map. split.
  - intros [[a b] [Hp H]]. apply pairs_in in Hp. cbn in H.
    destruct (Z.eqb_spec (cmp a b) (-1)) as [E|E]; cbn in H.
    + destruct (Nat.eqb_spec b i) as [->|]; cbn in H; [destruct H as [<-|[]]; repeat split; try lia; exact E|]. rewrite E in H. cbn in H. contradiction.
    + destruct (Z.eqb_spec (cmp a b) 1) as [E1|E1]; cbn in H; [|contradiction]. destruct (Nat.eqb_spec a i) as [->|]; cbn in H; [|contradiction]. destruct H as [<-|[]].
      repeat split; try lia. rewrite cmp_anti, E1. reflexivity.
  - intros [Hi [Hj E]]. destruct (Nat.lt_trichotomy j i) as [H|[->|H]].
    + exists (j, i). split; [apply pairs_in; lia|]. cbn. rewrite E, Nat.eqb_refl. cbn. left. reflexivity.
    + exfalso. pose proof (cmp_anti i i). lia.
    + exists (i, j). split; [apply pairs_in; lia|]. cbn. rewrite (cmp_anti j i), E. cbn. rewrite Nat.eqb_refl. left. reflexivity.
Qed.
Lemma beaten_in i j : In j (beaten i) <-> i < n /\ j < n /\ beats i j.
Proof.
  unfold beaten, beats. rewrite in_flat_map. split.
  - intros [[a b] [Hp H]]. apply pairs_in in Hp. cbn in H.
    destruct (Z.eqb_spec (cmp a b) (-1)) as [E|E]; cbn in H.
    + destruct (Nat.eqb_spec a i) as [->|]; cbn in H; [destruct H as [<-|[]]; repeat split; try lia; exact E|]. rewrite E in H. cbn in H. contradiction.
    + destruct (Z.eqb_spec (cmp a b) 1) as [E1|E1]; cbn in H; [|contradiction]. destruct (Nat.eqb_spec b i) as [->|]; cbn in H; [|contradiction]. destruct H as [<-|[]].
      repeat split; try lia. rewrite cmp_anti, E1. reflexivity.
  - intros [Hi [Hj E]]. destruct (Nat.lt_trichotomy j i) as [H|[->|H]].
    + exists (j, i). split; [apply pairs_in; lia|]. cbn. rewrite (cmp_anti i j), E. cbn. rewrite Nat.eqb_refl. left. reflexivity.
    + exfalso. pose proof (cmp_anti i i). lia.
    + exists (i, j). split; [apply pairs_in; lia|]. cbn. rewrite E, Nat.eqb_refl. cbn. left. reflexivity.
Qed.
(** each opponent comes from one pair *)
Lemma opponent_nodup (g : nat * nat -> list nat) i :
  (forall c, g c = [] \/ exists j, g c = [j] /\ (c = (i, j) \/ c = (j, i))) -> NoDup (flat_map g (pairs n)).
Proof.
  intros Hg. assert (Hp : forall c, In c (pairs n) -> fst c < snd c) by (intros [a b] H; apply pairs_in in H; cbn; lia).
  revert Hp. generalize (pairs_nodup n). generalize (pairs n). induction l as [|c l IH]; intros Hn Hp; cbn; [constructor|].
  inversion Hn as [|? ? Hc Hl]; subst. apply NoDup_app_intro; [|apply IH; [exact Hl|intros x Hx; apply Hp; right; exact Hx]|].
  - destruct (Hg c) as [->|[j [-> _]]]; [constructor|constructor; [intros []|constructor]].
  - intros j Hj1 Hj2. apply in_flat_map in Hj2 as [c' [Hc' Hj2]].
    destruct (Hg c) as [E|[j1 [E E1]]]; rewrite E in Hj1; [contradiction|]. destruct Hj1 as [->|[]].
    destruct (Hg c') as [E'|[j2 [E' E2]]]; rewrite E' in Hj2; [contradiction|]. destruct Hj2 as [->|[]].
    pose proof (Hp c (or_introl eq_refl)) as H1. pose proof (Hp c' (or_intror Hc')) as H2.
    destruct E1 as [-> | ->], E2 as [-> | ->]; cbn in H1, H2; try lia; exact (Hc Hc').
Qed.
Lemma beaters_nodup i : NoDup (beaters i).
Proof.
  apply (opponent_nodup (lost_to i) i). intros [a b]. cbn.
  destruct (Z.eqb_spec (cmp a b) (-1)) as [E|E]; cbn; [destruct (Nat.eqb_spec b i) as [->|]; cbn; [right; exists a; auto|rewrite E; left; reflexivity]|].
  destruct (Z.eqb_spec (cmp a b) 1); cbn; [|left; reflexivity]. destruct (Nat.eqb_spec a i) as [->|]; [right; exists b; auto|left; reflexivity].
Qed.
Lemma beaten_nodup i : NoDup (beaten i).
Proof.
  apply (opponent_nodup (won_over i) i). intros [a b]. cbn.
  destruct (Z.eqb_spec (cmp a b) (-1)) as [E|E]; cbn; [destruct (Nat.eqb_spec a i) as [->|]; cbn; [right; exists b; auto|rewrite E; left; reflexivity]|].
  destruct (Z.eqb_spec (cmp a b) 1); cbn; [|left; reflexivity]. destruct (Nat.eqb_spec b i) as [->|]; [right; exists a; auto|left; reflexivity].
Qed.

Lemma count_fold : forall ps cnt dm, (forall a b, In (a, b) ps -> a < n /\ b < n /\ a <> b) -> length cnt = n -> length dm = n ->
  let st := fold_left (count_pair cmp) ps (cnt, dm) in
  length (fst st) = n /\ length (snd st) = n /\
  forall i, i < n -> nth i (fst st) 0%Z = (nth i cnt 0 + Z.of_nat (length (flat_map (lost_to i) ps)))%Z /\ nth i (snd st) [] = nth i dm [] ++ flat_map (won_over i) ps.
Proof.
  induction ps as [|[a b] ps IH]; intros cnt dm Hp Hc Hd st.
  - cbn in st. subst st. cbn. repeat split; auto; [rewrite Z.add_0_r; reflexivity|rewrite app_nil_r; reflexivity].
  - assert (Hab : a < n /\ b < n /\ a <> b) by (apply Hp; left; reflexivity). destruct Hab as [Ha [Hb Hab]].
    subst st. cbn [fold_left]. unfold count_pair at 2 4 6 8. cbn [flat_map lost_to won_over].
    destruct (Z.eqb_spec (cmp a b) (-1)) as [E|E].
    + specialize (IH (update b (fun x => (x + 1)%Z) cnt) (update a (fun l => l ++ [b]) dm) (fun x y H => Hp x y (or_intror H))).
      rewrite !update_length in IH. specialize (IH Hc Hd). destruct IH as [L1 [L2 IH]]. split; [exact L1|split; [exact L2|]].
      intros i Hi. destruct (IH i Hi) as [I1 I2]. rewrite I1, I2, E. cbn [andb Z.eqb Pos.eqb].
      split.
      * destruct (Nat.eqb_spec b i) as [->|Hne]; [rewrite update_same by lia; cbn [app length]; lia|rewrite update_other by congruence; cbn [app]; lia].
      * destruct (Nat.eqb_spec a i) as [->|Hne]; [rewrite update_same by lia; rewrite <- app_assoc; reflexivity|rewrite update_other by congruence; reflexivity].
    + destruct (Z.eqb_spec (cmp a b) 1) as [E1|E1].
      * specialize (IH (update a (fun x => (x + 1)%Z) cnt) (update b (fun l => l ++ [a]) dm) (fun x y H => Hp x y (or_intror H))).
        rewrite !update_length in IH. specialize (IH Hc Hd). destruct IH as [L1 [L2 IH]]. split; [exact L1|split; [exact L2|]].
        intros i Hi. destruct (IH i Hi) as [I1 I2]. rewrite I1, I2. cbn [andb Z.eqb Pos.eqb].
        split.
        -- destruct (Nat.eqb_spec a i) as [->|Hne]; [rewrite update_same by lia; cbn [app length]; lia|rewrite update_other by congruence; cbn [app]; lia].
        -- destruct (Nat.eqb_spec b i) as [->|Hne]; [rewrite update_same by lia; rewrite <- app_assoc; reflexivity|rewrite update_other by congruence; reflexivity].
      * specialize (IH cnt dm (fun x y H => Hp x y (or_intror H)) Hc Hd). cbn [andb app]. exact IH.
Qed.
Lemma count_all_spec : let '(cnt, dm) := count_all cmp n in length cnt = n /\ length dm = n /\
  forall i, i < n -> nth i cnt 0%Z = Z.of_nat (length (beaters i)) /\ nth i dm [] = beaten i.
Proof.
  unfold count_all. pose proof (count_fold (pairs n) (repeat 0%Z n) (repeat [] n)) as H.
  assert (Hp : forall a b, In (a, b) (pairs n) -> a < n /\ b < n /\ a <> b) by (intros a b Hab; apply pairs_in in Hab; lia).
  specialize (H Hp (repeat_length _ _) (repeat_length _ _)). cbn zeta in H. destruct (fold_left (count_pair cmp) (pairs n) (repeat 0%Z n, repeat [] n)) as [cnt dm].
  cbn [fst snd] in H. destruct H as [L1 [L2 H]]. split; [exact L1|split; [exact L2|]]. intros i Hi. destruct (H i Hi) as [H1 H2]. rewrite H1, H2.
  rewrite !nth_repeat. split; [cbn; unfold beaters; lia|reflexivity].
Qed.

(** the decrements of one front *)
Lemma release_spec : forall ds cnt next, (forall d, In d ds -> d < length cnt) ->
  (forall i, i < length cnt -> (Z.of_nat (count_occ Nat.eq_dec ds i) <= nth i cnt 0)%Z) -> (forall i, In i next -> ~ In i ds) -> NoDup next ->
  let '(cnt', next') := release ds cnt next in
  length cnt' = length cnt /\ (forall i, i < length cnt -> nth i cnt' 0%Z = (nth i cnt 0 - Z.of_nat (count_occ Nat.eq_dec ds i))%Z) /\ NoDup next' /\
  forall i, In i next' <-> In i next \/ (In i ds /\ nth i cnt 0%Z = Z.of_nat (count_occ Nat.eq_dec ds i)).
Proof.
  induction ds as [|d ds IH]; intros cnt next Hlt Hle Hnx Hnd; cbn [release].
  - split; [reflexivity|]. split; [intros i _; cbn; lia|]. split; [exact Hnd|]. intros i. cbn. tauto.
  - assert (Hd : d < length cnt) by (apply Hlt; left; reflexivity).
    set (cnt1 := update d (fun x => (x - 1)%Z) cnt). assert (L1 : length cnt1 = length cnt) by apply update_length.
    assert (Hn1 : forall i, i < length cnt -> nth i cnt1 0%Z = (nth i cnt 0 - if Nat.eq_dec d i then 1 else 0)%Z).
    { intros i Hi. unfold cnt1. destruct (Nat.eq_dec d i) as [->|Hne]; [rewrite update_same by exact Hi; lia|rewrite update_other by congruence; lia]. }
    assert (Hle1 : forall i, i < length cnt1 -> (Z.of_nat (count_occ Nat.eq_dec ds i) <= nth i cnt1 0)%Z).
    { intros i Hi. rewrite L1 in Hi. rewrite Hn1 by exact Hi. specialize (Hle i Hi). cbn [count_occ] in Hle. destruct (Nat.eq_dec d i); lia. }
    set (next1 := if (at_ cnt1 d 0 =? 0)%Z then next ++ [d] else next).
    assert (Hz : (at_ cnt1 d 0 =? 0)%Z = true <-> ~ In d ds /\ nth d cnt 0%Z = 1%Z).
    { unfold at_. rewrite Z.eqb_eq, Hn1 by exact Hd. destruct (Nat.eq_dec d d) as [_|]; [|congruence]. rewrite (count_occ_not_In Nat.eq_dec).
      specialize (Hle1 d ltac:(lia)). rewrite Hn1 in Hle1 by exact Hd. destruct (Nat.eq_dec d d) as [_|]; [|congruence]. lia. }
    assert (Hnx1 : forall i, In i next1 -> ~ In i ds).
    { intros i Hi. unfold next1 in Hi. destruct (at_ cnt1 d 0 =? 0)%Z eqn:E; [apply in_app_iff in Hi as [Hi|[<-|[]]]|].
      - intros Hx. exact (Hnx i Hi (or_intror Hx)).
      - apply Hz. reflexivity.
      - intros Hx. exact (Hnx i Hi (or_intror Hx)). }
    assert (Hnd1 : NoDup next1).
    { unfold next1. destruct (at_ cnt1 d 0 =? 0)%Z; [|exact Hnd]. apply NoDup_app_snoc; [exact Hnd|]. intros Hi. exact (Hnx d Hi (or_introl eq_refl)). }
    specialize (IH cnt1 next1 ltac:(intros x Hx; rewrite L1; apply Hlt; right; exact Hx) Hle1 Hnx1 Hnd1).
    fold cnt1. fold next1. destruct (release ds cnt1 next1) as [cnt' next']. destruct IH as [I1 [I2 [I3 I4]]].
    split; [congruence|]. split; [|split; [exact I3|]].
    + intros i Hi. rewrite I2 by lia. rewrite Hn1 by exact Hi. cbn [count_occ]. destruct (Nat.eq_dec d i); lia.
    + intros i. rewrite I4. cbn [count_occ In].
      assert (Hin1 : In i next1 <-> In i next \/ (i = d /\ (at_ cnt1 d 0 =? 0)%Z = true)).
      { unfold next1. destruct (at_ cnt1 d 0 =? 0)%Z; [rewrite in_app_iff; cbn; intuition congruence|intuition congruence]. }
      rewrite Hin1, Hz. destruct (Nat.eq_dec d i) as [<-|Hne].
      * rewrite Hn1 by exact Hd. destruct (Nat.eq_dec d d) as [_|]; [|congruence]. split.
        -- intros [[H|[_ [H1 H2]]]|[H1 H2]]; [left; exact H| |].
           ++ right. split; [left; reflexivity|]. apply (count_occ_not_In Nat.eq_dec) in H1. rewrite H1, H2. reflexivity.
           ++ right. split; [left; reflexivity|]. lia.
        -- intros [H|[_ H2]]; [left; left; exact H|]. destruct (in_dec Nat.eq_dec d ds) as [Hi|Hi].
           ++ right. split; [exact Hi|lia].
           ++ left. right. split; [reflexivity|]. split; [exact Hi|]. apply (count_occ_not_In Nat.eq_dec) in Hi. rewrite Hi in H2. exact H2.
      * destruct (Nat.lt_ge_cases i (length cnt)) as [Hi|Hi].
        -- rewrite Hn1 by exact Hi. destruct (Nat.eq_dec d i) as [|_]; [congruence|]. rewrite Z.sub_0_r. split.
           ++ intros [[H|[H _]]|[H1 H2]]; [left; exact H|congruence|right; split; [right; exact H1|exact H2]].
           ++ intros [H|[[H|H1] H2]]; [left; left; exact H|congruence|right; split; assumption].
        -- split.
           ++ intros [[H|[H _]]|[H1 H2]]; [left; exact H|congruence|]. specialize (Hlt i (or_intror H1)). lia.
           ++ intros [H|[[H|H1] H2]]; [left; left; exact H|congruence|]. specialize (Hlt i (or_intror H1)). lia.
Qed.

Definition memb (x : nat) (l : list nat) : bool := existsb (Nat.eqb x) l.
Lemma memb_iff x l : memb x l = true <-> In x l.
Proof. unfold memb. rewrite existsb_exists. split; [intros [y [H E]]; apply Nat.eqb_eq in E; subst; exact H|intros H; exists x; split; [exact H|apply Nat.eqb_refl]]. Qed.
Definition left_over (done : list nat) (i : nat) : list nat := filter (fun j => negb (memb j done)) (beaters i).

Lemma count_flat_map (g : nat -> list nat) (l : list nat) i : (forall c, In c l -> NoDup (g c)) ->
  count_occ Nat.eq_dec (flat_map g l) i = length (filter (fun c => memb i (g c)) l).
Proof.
  induction l as [|c l IH]; intros H; [reflexivity|]. cbn [flat_map filter]. rewrite count_occ_app, IH by (intros x Hx; apply H; right; exact Hx).
  destruct (memb i (g c)) eqn:E; cbn [length].
  - apply memb_iff in E. rewrite (proj1 (NoDup_count_occ' Nat.eq_dec (g c)) (H c (or_introl eq_refl)) i E). reflexivity.
  - assert (~ In i (g c)) by (intros Hi; apply memb_iff in Hi; congruence). apply (count_occ_not_In Nat.eq_dec) in H0. rewrite H0. reflexivity.
Qed.
(** beaters among a duplicate-free list *)
Lemma beaters_among front i : NoDup front -> (forall c, In c front -> c < n) -> i < n ->
  length (filter (fun c => memb i (beaten c)) front) = length (filter (fun j => memb j front) (beaters i)).
Proof.
  intros Hn Hf Hi. apply Permutation_length, NoDup_Permutation.
  - apply NoDup_filter. exact Hn.
  - apply NoDup_filter, beaters_nodup.
  - intros c. rewrite !filter_In, !memb_iff, beaten_in, beaters_in. split; intros H; repeat split; try tauto.
Qed.
Lemma left_over_more done front i : (forall c, In c front -> ~ In c done) ->
  length (left_over done i) = length (left_over (done ++ front) i) + length (filter (fun j => memb j front) (beaters i)).
Proof.
  intros H. unfold left_over. induction (beaters i) as [|j l IH]; [reflexivity|]. cbn [filter].
  assert (Hm : memb j (done ++ front) = memb j done || memb j front) by (unfold memb; apply existsb_app). rewrite Hm.
  destruct (memb j done) eqn:E1, (memb j front) eqn:E2; cbn [negb orb length]; try (rewrite IH; lia).
  apply memb_iff in E1, E2. exfalso. exact (H j E2 E1).
Qed.
Lemma left_over_nil done i : left_over done i = [] <-> forall j, In j (beaters i) -> In j done.
Proof.
  unfold left_over. split.
  - intros E j Hj. apply memb_iff. destruct (memb j done) eqn:Em; [reflexivity|]. assert (Hin : In j (filter (fun j => negb (memb j done)) (beaters i))) by (apply filter_In; rewrite Em; auto).
    rewrite E in Hin. contradiction.
  - intros H. destruct (filter _ _) as [|x l] eqn:E; [reflexivity|]. assert (Hin : In x (filter (fun j => negb (memb j done)) (beaters i))) by (rewrite E; left; reflexivity).
    apply filter_In in Hin as [H1 H2]. apply negb_true_iff in H2. apply H, memb_iff in H1. congruence.
Qed.

(** The state at the beginning of an iteration of the while loop *)
Definition good_state (dm : list (list nat)) (cnt : list Z) (done front : list nat) : Prop :=
  length cnt = n /\ length dm = n /\ (forall i, i < n -> nth i dm [] = beaten i) /\
  (forall i, i < n -> nth i cnt 0%Z = Z.of_nat (length (left_over done i))) /\
  NoDup (done ++ front) /\ (forall i, In i (done ++ front) -> i < n) /\
  (forall i, In i front <-> i < n /\ ~ In i done /\ forall j, In j (beaters i) -> In j done) /\
  (forall i, In i done -> forall j, In j (beaters i) -> In j done).

Lemma good_step dm cnt done front : good_state dm cnt done front ->
  let '(cnt', next) := release (flat_map (fun c1 => at_ dm c1 []) front) cnt [] in
  good_state dm cnt' (done ++ front) next /\ forall i, In i next -> exists j, In j front /\ beats j i.
Proof.
  intros [L1 [L2 [Hdm [Hcnt [Hnd [Hlt [Hfr Hdone]]]]]]].
  assert (Hnf : NoDup front) by (apply (NoDup_remove_app done front Hnd) || (revert Hnd; clear; induction done as [|a l IH]; cbn; [auto|]; intros H; inversion H; auto)).
  assert (Hdf : forall c, In c front -> ~ In c done) by (intros c Hc; apply Hfr in Hc; tauto).
  assert (Hfn : forall c, In c front -> c < n) by (intros c Hc; apply Hlt, in_app_iff; right; exact Hc).
  set (ds := flat_map (fun c1 => at_ dm c1 []) front).
  assert (Hds : ds = flat_map beaten front).
  { unfold ds, at_. clear - Hdm Hfn. induction front as [|c l IH]; [reflexivity|]. cbn. rewrite Hdm by (apply Hfn; left; reflexivity). rewrite IH by (intros x Hx; apply Hfn; right; exact Hx). reflexivity. }
  assert (Hocc : forall i, i < n -> count_occ Nat.eq_dec ds i = length (filter (fun j => memb j front) (beaters i))).
  { intros i Hi. rewrite Hds, count_flat_map by (intros c _; apply beaten_nodup). apply beaters_among; assumption. }
  pose proof (release_spec ds cnt []) as R.
  assert (A1 : forall d, In d ds -> d < length cnt).
  { intros d Hd. rewrite Hds in Hd. apply in_flat_map in Hd as [c [_ Hd]]. apply beaten_in in Hd. lia. }
  assert (A2 : forall i, i < length cnt -> (Z.of_nat (count_occ Nat.eq_dec ds i) <= nth i cnt 0)%Z).
  { intros i Hi. rewrite L1 in Hi. rewrite Hocc, Hcnt by exact Hi. rewrite (left_over_more done front i Hdf). lia. }
  specialize (R A1 A2 ltac:(intros i []) ltac:(constructor)). destruct (release ds cnt []) as [cnt' next]. destruct R as [R1 [R2 [R3 R4]]].
  assert (Hnext : forall i, In i next <-> i < n /\ ~ In i (done ++ front) /\ forall j, In j (beaters i) -> In j (done ++ front)).
  { intros i. rewrite R4. split.
    - intros [[]|[Hi Hz]]. assert (Hin : i < n) by (rewrite <- L1; apply A1; exact Hi). split; [exact Hin|].
      rewrite Hocc, Hcnt in Hz by exact Hin. rewrite (left_over_more done front i Hdf) in Hz.
      assert (Hz0 : left_over (done ++ front) i = []) by (apply length_zero_iff_nil; lia). pose proof (proj1 (left_over_nil _ _) Hz0) as Hall.
      split; [|exact Hall]. rewrite Hds in Hi. apply in_flat_map in Hi as [c [Hc Hi]]. apply beaten_in in Hi as [Hcn [_ Hb]].
      assert (Hbc : In c (beaters i)) by (apply beaters_in; auto).
      intros Hx. apply (Hdf c Hc). apply in_app_iff in Hx as [Hx|Hx]; [exact (Hdone i Hx c Hbc)|apply Hfr in Hx; apply Hx; exact Hbc].
    - intros [Hin [Hnot Hall]]. right.
      assert (Hz0 : left_over (done ++ front) i = []) by (apply left_over_nil; exact Hall).
      assert (Hex : exists j, In j (beaters i) /\ ~ In j done).
      { destruct (left_over done i) as [|j l] eqn:E.
        - exfalso. apply Hnot, in_app_iff. right. apply Hfr. split; [exact Hin|]. split; [intros Hx; apply Hnot, in_app_iff; left; exact Hx|]. apply left_over_nil. exact E.
        - exists j. assert (Hj : In j (left_over done i)) by (rewrite E; left; reflexivity). unfold left_over in Hj. apply filter_In in Hj as [Hj1 Hj2]. split; [exact Hj1|].
          intros Hx. apply memb_iff in Hx. rewrite Hx in Hj2. discriminate. }
      destruct Hex as [j [Hj1 Hj2]]. specialize (Hall j Hj1). apply in_app_iff in Hall as [Hx|Hx]; [contradiction|].
      split.
      + rewrite Hds. apply in_flat_map. exists j. split; [exact Hx|]. apply beaten_in. apply beaters_in in Hj1. tauto.
      + rewrite Hocc, Hcnt by exact Hin. rewrite (left_over_more done front i Hdf), Hz0. reflexivity. }
  split.
  - split; [lia|]. split; [exact L2|]. split; [exact Hdm|]. split; [|split; [|split; [|split; [exact Hnext|]]]].
    + intros i Hi. rewrite R2 by lia. rewrite Hocc, Hcnt by exact Hi. rewrite (left_over_more done front i Hdf). lia.
    + apply NoDup_app_intro; [exact Hnd|exact R3|]. intros i Hi Hx. apply Hnext in Hx. tauto.
    + intros i Hi. apply in_app_iff in Hi as [Hi|Hi]; [exact (Hlt i Hi)|]. apply Hnext in Hi. tauto.
    + intros i Hi j Hj. apply in_app_iff. left. apply in_app_iff in Hi as [Hi|Hi]; [exact (Hdone i Hi j Hj)|]. apply Hfr in Hi. apply Hi. exact Hj.
  - intros i Hi. apply R4 in Hi as [[]|[Hi _]]. rewrite Hds in Hi. apply in_flat_map in Hi as [c [Hc Hi]]. exists c. split; [exact Hc|]. apply beaten_in in Hi. tauto.
Qed.

(** Fronts computed after [done] *)
Fixpoint layered (done : list nat) (fronts : list (list nat)) : Prop :=
  match fronts with
  | [] => forall i, i < n -> ~ In i done -> exists j, In j (beaters i) /\ ~ In j done
  | f :: fs => f <> [] /\ NoDup f /\ (forall i, In i f <-> i < n /\ ~ In i done /\ forall j, In j (beaters i) -> In j done)
      /\ (forall i, In i (hd [] fs) -> exists j, In j f /\ beats j i) /\ layered (done ++ f) fs
  end.
Lemma fronts_spec : forall slots dm cnt done front, good_state dm cnt done front -> n < slots + length done ->
  exists fs, fronts_loop slots dm cnt front = Ok fs /\ layered done fs /\ hd [] fs = front.
Proof.
  induction slots as [|slots IH]; intros dm cnt done front HG Hs.
  - exfalso. destruct HG as [_ [_ [_ [_ [Hnd [Hlt _]]]]]]. 
    assert (length (done ++ front) <= length (seq 0 n)) by (apply NoDup_incl_length; [exact Hnd|intros x Hx; apply in_seq; specialize (Hlt x Hx); lia]).
    rewrite app_length, seq_length in H. lia.
  - cbn [fronts_loop]. destruct front as [|a r] eqn:Ef.
    + exists []. split; [reflexivity|]. split; [|reflexivity]. cbn. destruct HG as [_ [_ [_ [_ [_ [_ [Hfr _]]]]]]]. intros i Hi Hn.
      destruct (left_over done i) as [|j l] eqn:E.
      * exfalso. apply (proj2 (Hfr i)). split; [exact Hi|split; [exact Hn|]]. apply left_over_nil. exact E.
      * exists j. assert (Hj : In j (left_over done i)) by (rewrite E; left; reflexivity). unfold left_over in Hj. apply filter_In in Hj as [Hj1 Hj2]. split; [exact Hj1|].
        intros Hx. apply memb_iff in Hx. rewrite Hx in Hj2. discriminate.
    + rewrite <- Ef in *. assert (Hne : front <> []) by (rewrite Ef; discriminate).
      pose proof (good_step dm cnt done front HG) as Hst.
      pose proof HG as [L1 [L2 [_ [_ [Hnd [Hlt [Hfr _]]]]]]].
      assert (Hlen : length (done ++ front) <= n).
      { rewrite <- (seq_length n 0). apply NoDup_incl_length; [exact Hnd|intros x Hx; apply in_seq; specialize (Hlt x Hx); lia]. }
      rewrite app_length in Hlen.
      replace (length front <=? length dm) with true by (symmetry; apply Nat.leb_le; lia). cbn [negb].
      destruct (release (flat_map (fun c1 => at_ dm c1 []) front) cnt []) as [cnt' next]. destruct Hst as [HG' Hnx].
      destruct (IH dm cnt' (done ++ front) next HG') as [fs [E [HL Hh]]].
      { rewrite app_length. destruct front; [congruence|cbn; lia]. }
      rewrite E. cbn [bind]. exists (front :: fs). split; [reflexivity|]. split; [|reflexivity]. cbn [layered].
      split; [exact Hne|]. split; [revert Hnd; clear; induction done as [|b l IH]; cbn; [auto|]; intros H; inversion H; auto|].
      split; [exact Hfr|]. split; [rewrite Hh; exact Hnx|exact HL].
Qed.
Lemma ranking_layered : exists fs, ranking cmp n None = Ok fs /\ layered [] fs.
Proof.
  unfold ranking. pose proof count_all_spec as H. destruct (count_all cmp n) as [cnt dm]. destruct H as [L1 [L2 H]].
  set (front := filter (fun c1 => (at_ cnt c1 0 =? 0)%Z) (seq 0 n)).
  assert (HG : good_state dm cnt [] front).
  { split; [exact L1|]. split; [exact L2|]. split; [intros i Hi; apply H; exact Hi|].
    assert (Hlo : forall i, left_over [] i = beaters i).
    { intros i. unfold left_over. induction (beaters i) as [|j l IH]; [reflexivity|]. cbn. f_equal. exact IH. }
    split; [intros i Hi; rewrite Hlo; apply H; exact Hi|]. cbn [app].
    split; [apply NoDup_filter, seq_NoDup|]. split; [intros i Hi; apply filter_In in Hi as [Hi _]; apply in_seq in Hi; lia|].
    split; [|intros i []]. intros i. unfold front. rewrite filter_In, in_seq, Z.eqb_eq. unfold at_. split.
    - intros [Hi Hz]. split; [lia|]. split; [intros []|]. rewrite (proj1 (H i ltac:(lia))) in Hz. destruct (beaters i); [intros j []|cbn in Hz; lia].
    - intros [Hi [_ Hb]]. split; [lia|]. rewrite (proj1 (H i Hi)). destruct (beaters i) as [|j l]; [reflexivity|]. exfalso. exact (Hb j (or_introl eq_refl)). }
  destruct (fronts_spec (S n) dm cnt [] front HG ltac:(cbn; lia)) as [fs [E [HL _]]]. rewrite E. cbn [bind]. exists fs. split; [|exact HL]. f_equal.
  clear. generalize 0. induction fs as [|f fs IH]; intros c; [reflexivity|]. cbn. rewrite IH. reflexivity.
Qed.
End Ranking.

Section Fronts.
Variable cmp : nat -> nat -> Z.
Hypothesis cmp_anti : forall i j, cmp j i = (- cmp i j)%Z.
Variable n : nat.
Notation beats := (fun i j => cmp i j = (-1)%Z).

Lemma nth_app_fronts {A} (pre fs : list (list A)) f : nth (length pre + f) (pre ++ fs) [] = nth f fs [].
Proof. rewrite app_nth2 by lia. f_equal. lia. Qed.
Lemma in_concat_nth {A} (l : list (list A)) i : In i (concat l) <-> exists g, In i (nth g l []).
Proof.
  rewrite in_concat. split.
  - intros [x [Hx Hi]]. apply (In_nth _ _ []) in Hx as [g [_ Hg]]. exists g. rewrite Hg. exact Hi.
  - intros [g Hg]. exists (nth g l []). split; [|exact Hg]. destruct (Nat.lt_ge_cases g (length l)) as [H|H]; [apply nth_In; exact H|]. rewrite nth_overflow in Hg by exact H. contradiction.
Qed.
Lemma in_concat_lt {A} (l m : list (list A)) i : In i (concat l) -> exists g, g < length l /\ In i (nth g (l ++ m) []).
Proof.
  intros H. apply in_concat_nth in H as [g Hg]. exists g. destruct (Nat.lt_ge_cases g (length l)) as [Hl|Hl]; [|rewrite nth_overflow in Hg by exact Hl; contradiction].
  split; [exact Hl|]. rewrite app_nth1 by exact Hl. exact Hg.
Qed.

Lemma layered_fronts : forall fs pre, layered cmp n (concat pre) fs -> NoDup (concat pre) ->
  (NoDup (concat (pre ++ fs))) /\ Forall (fun f => f <> []) fs /\ (forall i, In i (concat fs) -> i < n) /\
  (forall f i j, In i (nth (length pre + f) (pre ++ fs) []) -> j < n -> beats j i -> exists g, g < length pre + f /\ In j (nth g (pre ++ fs) [])) /\
  (forall f i, In i (nth (S (length pre + f)) (pre ++ fs) []) -> exists j, In j (nth (length pre + f) (pre ++ fs) []) /\ beats j i) /\
  (forall i, i < n -> ~ In i (concat (pre ++ fs)) -> exists j, j < n /\ ~ In j (concat (pre ++ fs)) /\ beats j i).
Proof.
  induction fs as [|x fs IH]; intros pre HL Hnd; cbn [layered] in HL.
  - rewrite app_nil_r. split; [exact Hnd|]. split; [constructor|]. split; [intros i []|]. split; [|split].
    + intros f i j Hi. rewrite nth_overflow in Hi by lia. contradiction.
    + intros f i Hi. rewrite nth_overflow in Hi by lia. contradiction.
    + intros i Hi Hn. destruct (HL i Hi Hn) as [j [Hj Hjn]]. apply (beaters_in cmp cmp_anti) in Hj. exists j. split; [tauto|split; [exact Hjn|]]. apply Hj.
  - destruct HL as [Hne [Hx [Hin [Hnx HL]]]].
    assert (Hc : concat (pre ++ [x]) = concat pre ++ x) by (rewrite concat_app; cbn; rewrite app_nil_r; reflexivity).
    assert (Hnd' : NoDup (concat (pre ++ [x]))).
    { rewrite Hc. apply NoDup_app_intro; [exact Hnd|exact Hx|]. intros i Hi Hi2. apply Hin in Hi2. tauto. }
    rewrite <- Hc in HL. destruct (IH (pre ++ [x]) HL Hnd') as [I1 [I2 [I3 [I4 [I5 I6]]]]].
    rewrite <- app_assoc in I1, I4, I5, I6. cbn [app] in I1, I4, I5, I6. rewrite app_length in I4, I5. cbn [length] in I4, I5.
    split; [exact I1|]. split; [constructor; [exact Hne|exact I2]|]. split; [|split; [|split]].
    + intros i Hi. cbn in Hi. apply in_app_iff in Hi as [Hi|Hi]; [apply Hin in Hi; tauto|exact (I3 i Hi)].
    + intros f i j Hi Hj Hb. destruct f as [|f].
      * rewrite nth_app_fronts in Hi. cbn in Hi. pose proof (proj1 (Hin i) Hi) as [Hi1 [Hi2 Hi3]].
        assert (Hjb : In j (concat pre)) by (apply Hi3, (beaters_in cmp cmp_anti); auto). rewrite Nat.add_0_r. apply in_concat_lt. exact Hjb.
      * replace (length pre + S f) with (length pre + 1 + f) in * by lia. exact (I4 f i j Hi Hj Hb).
    + intros f i Hi. destruct f as [|f].
      * replace (S (length pre + 0)) with (length pre + 1) in Hi by lia. rewrite nth_app_fronts in Hi. rewrite nth_app_fronts. cbn [nth] in *. apply Hnx. destruct fs; exact Hi.
      * replace (length pre + S f) with (length pre + 1 + f) in * by lia. exact (I5 f i Hi).
    + exact I6.
Qed.
Lemma ranking_fronts : exists fs, ranking cmp n None = Ok fs /\ fronts_of n beats fs.
Proof.
  destruct (ranking_layered cmp cmp_anti n) as [fs [E HL]]. exists fs. split; [exact E|].
  destruct (layered_fronts fs [] HL (NoDup_nil _)) as [I1 [I2 [I3 [I4 [I5 I6]]]]]. constructor; assumption.
Qed.
End Fronts.

Lemma ranking_trim cmp n k fs : ranking cmp n None = Ok fs -> ranking cmp n (Some k) = Ok (trim (Some k) 0 fs).
Proof.
  unfold ranking. destruct (count_all cmp n) as [cnt dm]. destruct (fronts_loop _ _ _ _) as [l|e]; cbn [bind]; [|discriminate]. intros [= <-]. do 2 f_equal.
  symmetry. generalize 0. clear. induction l as [|f l IH]; intros c; [reflexivity|]. cbn. rewrite IH. reflexivity.
Qed.
Lemma trim_spec k : forall fs c, exists m, trim (Some k) c fs = firstn m fs /\
  (m = length fs \/ k <= c + length (concat (firstn m fs))) /\ (forall m', 0 < m' < m -> c + length (concat (firstn m' fs)) < k) /\ (fs <> [] -> 0 < m <= length fs).
Proof.
  induction fs as [|f fs IH]; intros c; [exists 0; cbn; repeat split; auto; try lia; congruence|]. cbn [trim].
  destruct (Nat.leb_spec k (c + length f)) as [H|H].
  - exists 1. cbn. rewrite app_nil_r. repeat split; auto; lia.
  - destruct (IH (c + length f)) as [m [E [H1 [H2 H3]]]]. exists (S m). cbn [firstn]. rewrite E. split; [reflexivity|].
    split; [|split].
    + cbn [concat length]. rewrite app_length. destruct H1 as [->|H1]; [left; reflexivity|right; lia].
    + intros [|m'] Hm; [lia|]. cbn [firstn concat]. rewrite app_length. destruct m' as [|m']; [cbn; lia|]. specialize (H2 (S m') ltac:(lia)). lia.
    + intros _. destruct fs as [|g fs]; [cbn in E; destruct m; cbn in *; [lia|]|specialize (H3 ltac:(discriminate)); cbn in *; lia].
      destruct H1 as [H1|H1]; cbn in *; lia.
Qed.

(** A finite strict order has minimal elements *)
Lemma minimal (lt : nat -> nat -> Prop) (dec : forall i j, {lt i j} + {~ lt i j}) : (forall i, ~ lt i i) -> (forall i j k, lt i j -> lt j k -> lt i k) ->
  forall l, l <> [] -> exists i, In i l /\ forall j, In j l -> ~ lt j i.
Proof.
  intros Hirr Htr. induction l as [|a l IH]; intros Hne; [congruence|]. destruct l as [|b l]; [exists a; split; [left; reflexivity|intros j [<-|[]]; apply Hirr]|].
  destruct (IH ltac:(discriminate)) as [i [Hi Hmin]]. destruct (dec a i) as [H|H].
  - exists a. split; [left; reflexivity|]. intros j [<-|Hj] Hx; [exact (Hirr _ Hx)|]. exact (Hmin j Hj (Htr _ _ _ Hx H)).
  - exists i. split; [right; exact Hi|]. intros j [<-|Hj]; [exact H|exact (Hmin j Hj)].
Qed.
Lemma fronts_all n beats fs : (forall i j, {beats i j} + {~ beats i j}) -> (forall i, ~ beats i i) ->
  (forall i j k, i < n -> j < n -> k < n -> beats i j -> beats j k -> beats i k) -> fronts_of n beats fs -> Permutation (concat fs) (seq 0 n).
Proof.
  intros dec Hirr Htr HF. apply NoDup_Permutation; [exact (once _ _ _ HF)|apply seq_NoDup|]. intros i. rewrite in_seq. split.
  - intros Hi. apply (candidates_only _ _ _ HF) in Hi. lia.
  - intros Hi. destruct (in_dec Nat.eq_dec i (concat fs)) as [H|H]; [exact H|exfalso].
    set (rest := filter (fun j => if in_dec Nat.eq_dec j (concat fs) then false else true) (seq 0 n)).
    assert (Hrest : forall j, In j rest <-> j < n /\ ~ In j (concat fs)).
    { intros j. unfold rest. rewrite filter_In, in_seq. destruct (in_dec Nat.eq_dec j (concat fs)); split; intros; try tauto; try (split; [lia|]; tauto); destruct H0; discriminate. }
    destruct (minimal (fun i j => beats i j /\ i < n /\ j < n) ltac:(intros a b; destruct (dec a b), (lt_dec a n), (lt_dec b n); (left; tauto) || (right; tauto))) with (l := rest) as [m [Hm Hmin]].
    + intros a [Ha _]. exact (Hirr a Ha).
    + intros a b c [H1 [H2 H3]] [H4 [H5 H6]]. split; [exact (Htr a b c H2 H3 H6 H1 H4)|tauto].
    + intros E. assert (Hin : In i rest) by (apply Hrest; split; [lia|exact H]). rewrite E in Hin. contradiction.
    + apply Hrest in Hm as [Hm1 Hm2]. destruct (remaining_beaten _ _ _ HF m Hm1 Hm2) as [j [Hj1 [Hj2 Hj3]]]. apply (Hmin j); [apply Hrest; auto|auto].
Qed.

(** compare and Pareto dominance *)
Lemma compare_anti a b : compare b a = (- compare a b)%Z.
Proof. unfold compare. destruct (Nat.ltb_spec (wins b a) (wins a b)), (Nat.ltb_spec (wins a b) (wins b a)); try reflexivity; lia. Qed.
Lemma wins_zero : forall a b, length a = length b -> wins b a = 0 <-> vle a b.
Proof.
  unfold wins, vle. induction a as [|x a IH]; intros [|y b] H; try discriminate; cbn [combine filter length]; [split; auto|].
  injection H as H. cbn [fst snd]. destruct (qlt y x) eqn:E.
  - split; [discriminate|]. intros HF. inversion HF; subst. apply qlt_iff in E. exfalso. apply (Qlt_not_le _ _ E). assumption.
  - assert (Hxy : (x <= y)%Q) by (apply Qnot_lt_le; intros Hx; apply qlt_iff in Hx; congruence). rewrite (IH b H). split; [intros HF; constructor; assumption|intros HF; inversion HF; assumption].
Qed.
Lemma wins_pos : forall a b, 0 < wins a b <-> exists i x y, nth_error a i = Some x /\ nth_error b i = Some y /\ (x < y)%Q.
Proof.
  unfold wins. induction a as [|x a IH]; intros [|y b]; cbn [combine filter length].
  - split; [lia|]. intros [[|i] [p [q [H _]]]]; discriminate.
  - split; [lia|]. intros [[|i] [p [q [H _]]]]; discriminate.
  - split; [lia|]. intros [[|i] [p [q [_ [H _]]]]]; discriminate.
  - cbn [fst snd]. destruct (qlt x y) eqn:E.
    + split; [intros _|cbn; lia]. exists 0, x, y. repeat split. apply qlt_iff. exact E.
    + rewrite IH. split.
      * intros [i [p [q H]]]. exists (S i), p, q. exact H.
      * intros [[|i] [p [q [H1 [H2 H3]]]]]; [cbn in H1, H2; injection H1 as ->; injection H2 as ->; apply qlt_iff in H3; congruence|exists i, p, q; auto].
Qed.
Lemma dom_wins a b : length a = length b -> dom a b -> compare a b = (-1)%Z.
Proof.
  intros H [H1 H2]. apply wins_zero in H1; [|exact H]. apply wins_pos in H2. unfold compare. rewrite H1. apply Nat.ltb_lt in H2. rewrite H2. reflexivity.
Qed.
Lemma two_dom a b : length a = length b -> length a <= 2 -> compare a b = (-1)%Z -> dom a b.
Proof.
  intros H H2 E. unfold compare in E. destruct (Nat.ltb_spec (wins b a) (wins a b)) as [Hw|Hw]; [|destruct (wins a b <? wins b a); discriminate].
  split; [|apply wins_pos; lia]. apply wins_zero; [exact H|].
  assert (Hs : wins a b + wins b a <= length a).
  { clear - H. revert b H. unfold wins. induction a as [|x a IH]; intros [|y b] H; try discriminate; [cbn; lia|]. injection H as H. specialize (IH b H). cbn [combine filter fst snd].
    destruct (qlt x y) eqn:E1, (qlt y x) eqn:E2; cbn [length]; try lia. apply qlt_iff in E1, E2. exfalso. apply (Qlt_irrefl x). exact (Qlt_trans _ _ _ E1 E2). }
  lia.
Qed.
Lemma dom_irr a : ~ dom a a.
Proof. intros [_ [i [x [y [H1 [H2 H3]]]]]]. rewrite H1 in H2. injection H2 as ->. exact (Qlt_irrefl _ H3). Qed.
Lemma vle_trans a b c : vle a b -> vle b c -> vle a c.
Proof. unfold vle. intros H. revert c. induction H; intros c Hc; inversion Hc; subst; constructor; [eapply Qle_trans; eassumption|auto]. Qed.
Lemma vle_nth a b i x y : vle a b -> nth_error a i = Some x -> nth_error b i = Some y -> (x <= y)%Q.
Proof. unfold vle. intros H. revert i. induction H; intros [|i] Ha Hb; cbn in *; try discriminate; [injection Ha as <-; injection Hb as <-; assumption|eauto]. Qed.
Lemma dom_trans a b c : dom a b -> dom b c -> dom a c.
Proof.
  intros [H1 [i [x [y [Hx [Hy Hxy]]]]]] [H2 _]. split; [exact (vle_trans _ _ _ H1 H2)|].
  assert (Hz : exists z, nth_error c i = Some z).
  { destruct (nth_error c i) as [z|] eqn:E; [exists z; reflexivity|]. exfalso. apply nth_error_None in E. unfold vle in H2.
    assert (length b = length c) by (clear - H2; induction H2; cbn; auto). assert (i < length b) by (apply nth_error_Some; rewrite Hy; discriminate). lia. }
  destruct Hz as [z Hz]. exists i, x, z. repeat split; try assumption. eapply Qlt_le_trans; [exact Hxy|]. exact (vle_nth b c i y z H2 Hy Hz).
Qed.

(** Sorting *)
Lemma place_perm {A} (le : A -> A -> bool) x : forall l, Permutation (place le x l) (x :: l).
Proof. induction l as [|y l IH]; cbn; [reflexivity|]. destruct (le x y); [reflexivity|]. rewrite IH. apply perm_swap. Qed.
Lemma sort_perm {A} (le : A -> A -> bool) : forall l, Permutation (stable_sort le l) l.
Proof. induction l as [|x l IH]; cbn; [reflexivity|]. rewrite place_perm, IH. reflexivity. Qed.
Lemma sort_sorted {A} (le : A -> A -> bool) : (forall x y, le x y = false -> le y x = true) -> (forall x y z, le x y = true -> le y z = true -> le x z = true) ->
  forall l, StronglySorted (fun x y => le x y = true) (stable_sort le l).
Proof.
  intros Htot Htr. induction l as [|x l IH]; cbn; [constructor|]. revert IH. unfold stable_sort. generalize (fold_right (place le) [] l). intros s Hs.
  induction Hs as [|y s Hs IH Hy]; cbn; [constructor; constructor|]. destruct (le x y) eqn:E.
  - constructor; [constructor; assumption|]. constructor; [exact E|]. eapply Forall_impl; [|exact Hy]. cbn. intros z Hz. exact (Htr _ _ _ E Hz).
  - constructor; [exact IH|]. assert (HP : Permutation (x :: s) (place le x s)) by (symmetry; apply place_perm). eapply Permutation_Forall; [exact HP|].
    constructor; [exact (Htot _ _ E)|exact Hy].
Qed.
Lemma qle_total x y : qle x y = false -> qle y x = true.
Proof. rewrite qle_iff. intros H. apply Qlt_le_weak, Qnot_le_lt. intros Hx. apply qle_iff in Hx. congruence. Qed.
Lemma qle_tr x y z : qle x y = true -> qle y z = true -> qle x z = true.
Proof. rewrite !qle_iff. apply Qle_trans. Qed.

(** The distances of one objective *)
Definition normed (range d : Q) : Q := if Qeq_bool range 0 then d else (d / range)%Q.
Lemma interior_length f range : forall l a meta, length (interior f range a l meta) = length meta.
Proof. induction l as [|b [|c r] IH]; intros a meta; cbn; try reflexivity. specialize (IH b (update b (fun x => dist_add x (normed range (f c - f a))) meta)). rewrite update_length in IH. exact IH. Qed.
Lemma interior_other f range : forall l a meta c, ~ (exists p r, l = p ++ c :: r /\ r <> []) -> nth c (interior f range a l meta) (Fin 0) = nth c meta (Fin 0).
Proof.
  induction l as [|b [|y r] IH]; intros a meta c H; try reflexivity.
  change (interior f range a (b :: y :: r) meta) with (interior f range b (y :: r) (update b (fun x => dist_add x (normed range (f y - f a))) meta)).
  rewrite IH.
  - apply update_other. intros ->. apply H. exists [], (y :: r). split; [reflexivity|discriminate].
  - intros [p [q [E Hq]]]. apply H. exists (b :: p), q. rewrite E. split; [reflexivity|exact Hq].
Qed.
Lemma interior_at f range : forall l a meta pre x c y post, a :: l = pre ++ x :: c :: y :: post -> NoDup (a :: l) -> (forall b, In b l -> b < length meta) ->
  nth c (interior f range a l meta) (Fin 0) = dist_add (nth c meta (Fin 0)) (normed range (f y - f x)).
Proof.
  induction l as [|b [|y' r] IH]; intros a meta pre x c y post E Hnd Hlen.
  - destruct pre as [|? [|? pre]]; cbn in E; discriminate.
  - destruct pre as [|? [|? [|? pre]]]; cbn in E; discriminate.
  - change (interior f range a (b :: y' :: r) meta) with (interior f range b (y' :: r) (update b (fun x => dist_add x (normed range (f y' - f a))) meta)).
    destruct pre as [|p0 pre]; cbn in E.
    + injection E as -> -> -> ->. rewrite interior_other.
      * rewrite update_same by (apply Hlen; left; reflexivity). reflexivity.
      * intros [p [q [E' _]]]. inversion Hnd as [|? ? _ Hnd']; subst. inversion Hnd' as [|? ? Hn _]; subst. apply Hn. rewrite E'. apply in_or_app. right. left. reflexivity.
    + injection E as E0 E. subst p0. inversion Hnd as [|? ? _ Hnd']; subst. rewrite (IH b _ pre x c y post E Hnd').
      * rewrite update_other; [reflexivity|]. intros ->. inversion Hnd' as [|? ? Hn _]; subst. destruct pre as [|p1 pre]; cbn in E; injection E as -> E.
        -- apply Hn. rewrite E. left. reflexivity.
        -- apply Hn. rewrite E. apply in_or_app. right. right. left. reflexivity.
      * intros z Hz. rewrite update_length. apply Hlen. right. exact Hz.
Qed.
Lemma last_snoc {A} (a : A) r : exists q, a :: r = q ++ [last (a :: r) a].
Proof. exists (removelast (a :: r)). apply app_removelast_last. discriminate. Qed.
Definition by_obj (pop : list (list Q)) (i : nat) (front : list nat) : list nat := stable_sort (fun c c' => qle (obj pop i c) (obj pop i c')) front.
Lemma by_obj_ordered pop i front : ordered pop front (by_obj pop i front) i.
Proof.
  split; [apply sort_perm|]. unfold by_obj. pose proof (sort_sorted (fun c c' => qle (obj pop i c) (obj pop i c')) ltac:(intros x y; apply qle_total) ltac:(intros x y z; apply qle_tr) front) as H.
  induction H as [|x s Hs IH Hx]; constructor; [exact IH|]. eapply Forall_impl; [|exact Hx]. intros z Hz. apply qle_iff in Hz. exact Hz.
Qed.
Lemma not_extreme_mid (s : list nat) c : NoDup s -> In c s -> (extreme s c <-> ~ exists pre x y post, s = pre ++ x :: c :: y :: post).
Proof.
  intros Hnd Hin. split.
  - intros [r [E|E]] [pre [x [y [post E2]]]].
    + rewrite E in E2. destruct pre as [|p pre]; cbn in E2; injection E2 as -> E2; rewrite E in Hnd; inversion Hnd as [|? ? Hn _]; subst; apply Hn; [left; reflexivity|apply in_or_app; right; right; left; reflexivity].
    + assert (E3 : pre ++ x :: c :: y :: post = (pre ++ [x]) ++ c :: (y :: post)) by (rewrite <- app_assoc; reflexivity). rewrite E3 in E2. rewrite E in E2, Hnd.
      destruct (@exists_last _ (y :: post) ltac:(discriminate)) as [q [z Ez]]. rewrite Ez in E2. change (c :: q ++ [z]) with ((c :: q) ++ [z]) in E2. rewrite app_assoc in E2. apply app_inj_tail in E2 as [-> ->].
      apply NoDup_remove_2 in Hnd. apply Hnd. rewrite app_nil_r. apply in_or_app. right. left. reflexivity.
  - intros H. apply in_split in Hin as [l1 [l2 ->]]. destruct l1 as [|a l1]; [exists l2; left; reflexivity|]. destruct l2 as [|b l2]; [exists (a :: l1); right; reflexivity|].
    exfalso. apply H. destruct (@exists_last _ (a :: l1) ltac:(discriminate)) as [q [z ->]]. exists q, z, b, l2. rewrite <- app_assoc. reflexivity.
Qed.
Lemma accumulate_spec pop front meta i : NoDup front -> (forall c, In c front -> c < length meta) ->
  length (accumulate pop front meta i) = length meta /\
  (forall c, In c front -> extreme (by_obj pop i front) c -> nth c (accumulate pop front meta i) (Fin 0) = Inf) /\
  (forall c, In c front -> ~ extreme (by_obj pop i front) c -> exists g, gap pop (by_obj pop i front) i c g /\
     nth c (accumulate pop front meta i) (Fin 0) = dist_add (nth c meta (Fin 0)) g).
Proof.
  intros Hnd Hlen. unfold accumulate. fold (by_obj pop i front). pose proof (by_obj_ordered pop i front) as [HP HS]. set (s := by_obj pop i front) in *.
  assert (Hs : NoDup s) by (eapply Permutation_NoDup; [symmetry; exact HP|exact Hnd]).
  assert (Hls : forall c, In c s -> c < length meta) by (intros c Hc; apply Hlen; eapply Permutation_in; [exact HP|exact Hc]).
  assert (Hin : forall c, In c front -> In c s) by (intros c Hc; eapply Permutation_in; [symmetry; exact HP|exact Hc]).
  destruct s as [|a r] eqn:Es; [split; [reflexivity|]; split; intros c Hc; destruct (Hin c Hc)|].
  destruct (last_snoc a r) as [q Hq]. set (z := last (a :: r) a) in *.
  assert (Hz : z < length meta) by (apply Hls; rewrite Hq; apply in_or_app; right; left; reflexivity).
  assert (Ha : a < length meta) by (apply Hls; left; reflexivity).
  set (meta1 := update z (fun _ => Inf) (update a (fun _ => Inf) meta)). assert (L1 : length meta1 = length meta) by (unfold meta1; rewrite !update_length; reflexivity).
  split; [rewrite interior_length; exact L1|]. split.
  - intros c Hc Hex. rewrite interior_other.
    + assert (Hcz : c = a \/ c = z).
      { destruct Hex as [r' [E|E]]; [injection E as -> _; left; reflexivity|]. rewrite Hq in E. apply app_inj_tail in E as [_ ->]. right. reflexivity. }
      unfold meta1. destruct (Nat.eq_dec c z) as [-> |Hne]; [rewrite update_same by (rewrite update_length; exact Hz); reflexivity|].
      destruct Hcz as [-> |]; [|contradiction]. rewrite update_other by exact Hne. rewrite update_same by exact Ha. reflexivity.
    + intros [p [t [E Ht]]]. apply (proj1 (not_extreme_mid (a :: r) c Hs (Hin c Hc))); [exact Hex|]. subst r.
      destruct t as [|y t]; [congruence|]. change (a :: p ++ c :: y :: t) with ((a :: p) ++ c :: y :: t).
      destruct (@exists_last _ (a :: p) ltac:(discriminate)) as [u [x ->]]. exists u, x, y, t. rewrite <- app_assoc. reflexivity.
  - intros c Hc Hex.
    assert (Hmid : exists pre x y post, a :: r = pre ++ x :: c :: y :: post).
    { pose proof (not_extreme_mid (a :: r) c Hs (Hin c Hc)) as Hm. clear - Hm Hex Hs Hin Hc. apply Hin in Hc. apply in_split in Hc as [l1 [l2 E]]. rewrite E in *.
      destruct l1 as [|b l1]; [exfalso; apply Hex; exists l2; left; reflexivity|]. destruct l2 as [|b2 l2]; [exfalso; apply Hex; exists (b :: l1); right; reflexivity|].
      destruct (@exists_last _ (b :: l1) ltac:(discriminate)) as [q [z ->]]. exists q, z, b2, l2. rewrite <- app_assoc. reflexivity. }
    destruct Hmid as [pre [x [y [post E]]]]. rewrite (interior_at _ _ r a meta1 pre x c y post E Hs) by (intros b Hb; rewrite L1; apply Hls; right; exact Hb).
    assert (Hca : c <> a) by (intros ->; apply Hex; exists r; left; reflexivity).
    assert (Hcz : c <> z) by (intros ->; apply Hex; exists q; right; exact Hq).
    assert (Em : nth c meta1 (Fin 0) = nth c meta (Fin 0)) by (unfold meta1; rewrite !update_other by assumption; reflexivity).
    rewrite Em. eexists. split; [|reflexivity].
    assert (Hle : (obj pop i a <= obj pop i x /\ obj pop i x <= obj pop i y /\ obj pop i y <= obj pop i z)%Q).
    { assert (Hpair : forall l1 u l2 v l3, a :: r = l1 ++ u :: l2 ++ v :: l3 -> (obj pop i u <= obj pop i v)%Q).
      { intros l1 u l2 v l3 Eu. rewrite Eu in HS. clear - HS. induction l1 as [|w l1 IH]; cbn in HS; inversion HS as [|? ? HS' HF]; subst; [|exact (IH HS')].
        rewrite Forall_forall in HF. apply HF. apply in_or_app. right. left. reflexivity. }
      split; [|split].
      - destruct pre as [|p pre]; cbn in E; injection E as -> E; [apply Qle_refl|]. apply (Hpair [] p pre x (c :: y :: post)). cbn. rewrite E. reflexivity.
      - apply (Hpair pre x [c] y post). exact E.
      - destruct post as [|w post].
        + assert (E' : a :: r = (pre ++ [x; c]) ++ [y]) by (rewrite E, <- app_assoc; reflexivity). rewrite Hq in E'. apply app_inj_tail in E' as [_ ->]. apply Qle_refl.
        + destruct (@exists_last _ (w :: post) ltac:(discriminate)) as [u [v Ev]]. rewrite Ev in E.
          assert (E' : a :: r = (pre ++ x :: c :: y :: u) ++ [v]) by (rewrite E, <- app_assoc; reflexivity). rewrite Hq in E'. apply app_inj_tail in E' as [_ ->].
          apply (Hpair (pre ++ [x; c]) y u v []). rewrite E, <- app_assoc. reflexivity. }
    exists pre, x, y, post, a, z. split; [exact E|]. split; [reflexivity|]. split; [rewrite Hq, rev_app_distr; reflexivity|].
    change (nth i (losses_at pop z) 0%Q) with (obj pop i z). change (nth i (losses_at pop a) 0%Q) with (obj pop i a). change (nth i (losses_at pop y) 0%Q) with (obj pop i y). change (nth i (losses_at pop x) 0%Q) with (obj pop i x).
    revert Hle. generalize (obj pop i a), (obj pop i z), (obj pop i x), (obj pop i y). clear. intros qa qz qx qy [H1 [H2 H3]]. unfold normed. destruct (Qeq_bool (qz - qa) 0) eqn:E0.
    + apply Qeq_bool_eq in E0. split.
      * rewrite E0. rewrite Qmult_0_r. assert (qy <= qx)%Q by lra. lra.
      * intros _. lra.
    + apply Qeq_bool_neq in E0. split; [field; exact E0|]. intros He. exfalso. apply E0. rewrite He. ring.
Qed.

Lemma zeros_spec : forall front meta, (forall c, In c front -> c < length meta) -> length (fold_left (fun m c => update c (fun _ => Fin 0) m) front meta) = length meta /\
  forall c, In c front -> nth c (fold_left (fun m c => update c (fun _ => Fin 0) m) front meta) (Fin 0) = Fin 0.
Proof.
  assert (Hkeep : forall front meta c, nth c meta (Fin 0) = Fin 0 -> nth c (fold_left (fun m c => update c (fun _ => Fin 0) m) front meta) (Fin 0) = Fin 0).
  { induction front as [|b front IH]; intros meta c H; [exact H|]. cbn. apply IH. rewrite update_nth. destruct ((c =? b) && _); [reflexivity|exact H]. }
  induction front as [|b front IH]; intros meta H; [split; [reflexivity|intros c []]|]. cbn. destruct (IH (update b (fun _ => Fin 0) meta)) as [L I]; [intros c Hc; rewrite update_length; apply H; right; exact Hc|].
  rewrite update_length in L. split; [exact L|]. intros c [-> |Hc]; [|exact (I c Hc)]. apply Hkeep. apply update_same. apply H. left. reflexivity.
Qed.
Lemma qsum_snoc l g : (qsum (l ++ [g]) == qsum l + g)%Q.
Proof. unfold qsum. induction l as [|x l IH]; cbn; [ring|]. rewrite IH. ring. Qed.
Lemma accumulate_all pop front meta : NoDup front -> (forall c, In c front -> c < length meta) -> (forall c, In c front -> nth c meta (Fin 0) = Fin 0) ->
  forall k, let m := fold_left (accumulate pop front) (seq 0 k) meta in length m = length meta /\ forall c, In c front ->
    (nth c m (Fin 0) = Inf /\ exists i, i < k /\ extreme (by_obj pop i front) c) \/
    ((forall i, i < k -> ~ extreme (by_obj pop i front) c) /\ exists q gaps, nth c m (Fin 0) = Fin q /\ length gaps = k /\ (q == qsum gaps)%Q /\ forall i, i < k -> gap pop (by_obj pop i front) i c (nth i gaps 0%Q)).
Proof.
  intros Hnd Hlen H0. induction k as [|k IH]; cbn zeta.
  - split; [reflexivity|]. intros c Hc. right. split; [intros i Hi; lia|]. exists 0%Q, []. split; [exact (H0 c Hc)|]. split; [reflexivity|split; [reflexivity|intros i Hi; lia]].
  - rewrite seq_S, fold_left_app. cbn [fold_left Nat.add]. destruct IH as [L IH]. set (m := fold_left (accumulate pop front) (seq 0 k) meta) in *.
    destruct (accumulate_spec pop front m k Hnd) as [L2 [HE HN]]; [intros c Hc; rewrite L; exact (Hlen c Hc)|]. split; [rewrite L2; exact L|]. intros c Hc.
    assert (Hdec : extreme (by_obj pop k front) c \/ ~ extreme (by_obj pop k front) c).
    { pose proof (by_obj_ordered pop k front) as [HP _]. assert (Hcs : In c (by_obj pop k front)) by (eapply Permutation_in; [symmetry; exact HP|exact Hc]).
      assert (Hs : NoDup (by_obj pop k front)) by (eapply Permutation_NoDup; [symmetry; exact HP|exact Hnd]). pose proof (not_extreme_mid _ c Hs Hcs) as Hm.
      apply in_split in Hcs as [l1 [l2 E]]. destruct l1 as [|a l1]; [left; exists l2; left; exact E|]. destruct l2 as [|b l2]; [left; exists (a :: l1); right; exact E|].
      right. intros Hx. apply Hm in Hx. apply Hx. destruct (@exists_last _ (a :: l1) ltac:(discriminate)) as [q [z Ez]]. rewrite Ez in E. exists q, z, b, l2. rewrite E, <- app_assoc. reflexivity. }
    destruct Hdec as [Hx|Hx].
    + left. split; [exact (HE c Hc Hx)|]. exists k. split; [lia|exact Hx].
    + destruct (HN c Hc Hx) as [g [Hg Eg]]. destruct (IH c Hc) as [[Ei [i [Hi Hxi]]]|[Hno [q [gaps [Eq [Lg [Hq Hgs]]]]]]].
      * left. rewrite Eg, Ei. split; [reflexivity|]. exists i. split; [lia|exact Hxi].
      * right. split; [intros i Hi; destruct (Nat.eq_dec i k) as [-> |]; [exact Hx|apply Hno; lia]|]. exists (q + g)%Q, (gaps ++ [g]). rewrite Eg, Eq. split; [reflexivity|]. split; [rewrite app_length; cbn; lia|].
        split; [rewrite qsum_snoc, Hq; reflexivity|]. intros i Hi. destruct (Nat.eq_dec i k) as [-> |Hne].
        -- rewrite app_nth2 by lia. rewrite Lg, Nat.sub_diag. exact Hg.
        -- rewrite app_nth1 by lia. apply Hgs. lia.
Qed.
Lemma distance_crowding pop d front meta : NoDup front -> 0 < d -> (forall c, In c front -> c < length meta /\ length (nth c pop []) = d) ->
  length (compute_distance pop front meta) = length meta /\ crowding pop d front (fun c => nth c (compute_distance pop front meta) (Fin 0)).
Proof.
  intros Hnd Hd HF.
  assert (Hsmall : forall s c, In c s -> length s <= 2 -> extreme s c).
  { intros [|a [|b [|e s]]] c Hc Hl; cbn in *; try lia; destruct Hc as [<-|Hc]; try contradiction; [exists []; left; reflexivity|exists [b]; left; reflexivity|]. destruct Hc as [<-|[]]. exists [a]. right. reflexivity. }
  assert (Hall : forall meta', length front <= 2 -> (forall c, In c front -> nth c meta' (Fin 0) = Inf) -> crowding pop d front (fun c => nth c meta' (Fin 0))).
  { intros meta' Hl HI. exists (fun i => by_obj pop i front). split; [intros i _; apply by_obj_ordered|]. intros c Hc. rewrite (HI c Hc). split; [|intros q Hq; discriminate].
    split; [intros _|reflexivity]. exists 0. split; [exact Hd|]. pose proof (by_obj_ordered pop 0 front) as [HP _]. apply Hsmall; [eapply Permutation_in; [symmetry; exact HP|exact Hc]|]. rewrite (Permutation_length HP). exact Hl. }
  destruct front as [|a [|b [|e rest]]].
  - split; [reflexivity|]. apply Hall; [cbn; lia|intros c []].
  - cbn [compute_distance]. split; [apply update_length|]. apply Hall; [cbn; lia|]. intros c [<-|[]]. apply update_same. apply HF. left. reflexivity.
  - cbn [compute_distance]. split; [rewrite !update_length; reflexivity|]. apply Hall; [cbn; lia|]. intros c [<-|[<-|[]]].
    + inversion Hnd as [|? ? Hn _]; subst. rewrite update_other by (intros ->; apply Hn; left; reflexivity). apply update_same. apply HF. left. reflexivity.
    + apply update_same. rewrite update_length. apply HF. right. left. reflexivity.
  - remember (a :: b :: e :: rest) as front. assert (E : compute_distance pop front meta = fold_left (accumulate pop front) (seq 0 d) (fold_left (fun m c => update c (fun _ => Fin 0) m) front meta)).
    { subst front. unfold compute_distance. unfold at_. rewrite (proj2 (HF a (or_introl eq_refl))). reflexivity. }
    rewrite E. destruct (zeros_spec front meta (fun c Hc => proj1 (HF c Hc))) as [L0 Z0].
    destruct (accumulate_all pop front (fold_left (fun m c => update c (fun _ => Fin 0) m) front meta) Hnd) with (k := d) as [L HA]; [intros c Hc; rewrite L0; apply HF; exact Hc|exact Z0|].
    split; [rewrite L; exact L0|]. exists (fun i => by_obj pop i front). split; [intros i _; apply by_obj_ordered|]. intros c Hc. destruct (HA c Hc) as [[EI Hx]|[Hno [q [gaps [Eq Hg]]]]].
    + rewrite EI. split; [split; [intros _; exact Hx|reflexivity]|intros q Hq; discriminate].
    + rewrite Eq. split; [split; [discriminate|intros [i [Hi Hx]]; destruct (Hno i Hi Hx)]|]. intros q' [= <-]. exists gaps. exact Hg.
Qed.

(** The result of rank *)
Lemma dge_total x y : dist_ge x y = false -> dist_ge y x = true.
Proof. destruct x, y; cbn; try discriminate; try reflexivity. apply qle_total. Qed.
Lemma dge_trans x y z : dist_ge x y = true -> dist_ge y z = true -> dist_ge x z = true.
Proof. destruct x, y, z; cbn; try discriminate; try reflexivity. intros H1 H2. exact (qle_tr _ _ _ H2 H1). Qed.
Lemma dge_dle x y : dist_ge x y = true -> dle y x.
Proof. destruct x, y; cbn; try discriminate; auto. apply qle_iff. Qed.
Lemma dle_refl x : dle x x.
Proof. destruct x; cbn; [apply Qle_refl|exact I]. Qed.
Lemma crowding_sort_spec meta front : Permutation (crowding_sort meta front) front /\
  StronglySorted (fun c c' => dle (nth c' meta (Fin 0)) (nth c meta (Fin 0))) (crowding_sort meta front).
Proof.
  split; [apply sort_perm|]. unfold crowding_sort.
  pose proof (sort_sorted (fun c c' => dist_ge (at_ meta c (Fin 0)) (at_ meta c' (Fin 0))) ltac:(intros x y; apply dge_total) ltac:(intros x y z; apply dge_trans) front) as H.
  induction H as [|x s Hs IH Hx]; constructor; [exact IH|]. eapply Forall_impl; [|exact Hx]. intros z Hz. apply dge_dle. exact Hz.
Qed.
Definition numbered (nr fi : nat) (D : nat -> dist) (l : list nat) : list entry := map (fun ic => (snd ic, (nr + fst ic, fi, D (snd ic)))) (combine (seq 0 (length l)) l).
Lemma in_numbered_seq {A} (l : list A) : forall k i x, In (i, x) (combine (seq k (length l)) l) <-> k <= i /\ nth_error l (i - k) = Some x.
Proof.
  induction l as [|y l IH]; intros k i x; cbn [length seq combine].
  - split; [intros []|]. intros [_ H]. destruct (i - k); discriminate.
  - cbn [In]. rewrite IH. split.
    + intros [[= -> ->]|[H1 H2]]; [split; [lia|]; rewrite Nat.sub_diag; reflexivity|]. split; [lia|]. replace (i - k) with (S (i - S k)) by lia. exact H2.
    + intros [H1 H2]. destruct (Nat.eq_dec i k) as [-> |Hne]; [rewrite Nat.sub_diag in H2; cbn in H2; injection H2 as ->; left; reflexivity|]. right. split; [lia|]. replace (i - k) with (S (i - S k)) in H2 by lia. exact H2.
Qed.
Lemma numbered_spec nr fi D l : map e_cand (numbered nr fi D l) = l /\ map e_rank (numbered nr fi D l) = seq nr (length l) /\
  forall e, In e (numbered nr fi D l) -> exists i, e = (e_cand e, (nr + i, fi, D (e_cand e))) /\ nth_error l i = Some (e_cand e).
Proof.
  split; [|split].
  - unfold numbered. rewrite map_map. cbn [e_cand fst snd]. generalize 0. induction l as [|x l IH]; intros k; cbn; [reflexivity|]. f_equal. apply IH.
  - unfold numbered. rewrite map_map. unfold e_rank. cbn [fst snd]. transitivity (seq (nr + 0) (length l)); [|rewrite Nat.add_0_r; reflexivity]. generalize 0. induction l as [|x l IH]; intros k; cbn; [reflexivity|]. f_equal. rewrite IH. f_equal. lia.
  - intros e He. unfold numbered in He. apply in_map_iff in He as [[i c] [<- Hi]]. apply in_numbered_seq in Hi as [_ Hi]. rewrite Nat.sub_0_r in Hi. exists i. split; [reflexivity|exact Hi].
Qed.
Lemma sorted_nth {A} (R : A -> A -> Prop) l i j x y : StronglySorted R l -> i < j -> nth_error l i = Some x -> nth_error l j = Some y -> R x y.
Proof.
  intros H. revert i j. induction H as [|a l Hs IH Ha]; intros i j Hij Hx Hy; [destruct i; discriminate|]. destruct j as [|j]; [lia|]. cbn in Hy. destruct i as [|i]; cbn in Hx.
  - injection Hx as ->. rewrite Forall_forall in Ha. apply Ha. eapply nth_error_In. exact Hy.
  - apply (IH i j); [lia|exact Hx|exact Hy].
Qed.
Lemma sorted_firstn {A} (R : A -> A -> Prop) l k x y : StronglySorted R l -> In x (firstn k l) -> In y (skipn k l) -> R x y.
Proof.
  intros H. revert k. induction H as [|a l Hs IH Ha]; intros [|k] Hx Hy; cbn in *; try contradiction. destruct Hx as [-> |Hx]; [|exact (IH k Hx Hy)].
  rewrite Forall_forall in Ha. apply Ha. rewrite <- (firstn_skipn k l). apply in_or_app. right. exact Hy.
Qed.

Lemma rank_loop_some pop n : forall fs fi count nr meta sel, count = length sel -> count <= n ->
  let D := fun k c => nth c (compute_distance pop (nth k fs []) meta) (Fin 0) in
  exists new, rank_loop pop (Some n) fs fi count nr meta sel = sel ++ new /\ length new = Nat.min (n - count) (length (concat fs)) /\
    (exists rest, Permutation (map e_cand new ++ rest) (concat fs)) /\
    (forall e, In e new -> nr <= e_rank e /\ exists k, e_front e = fi + k /\ In (e_cand e) (nth k fs [])) /\
    (forall e e', In e new -> In e' new -> e_front e < e_front e' -> e_rank e < e_rank e') /\
    (forall e e' k, In e new -> In e' new -> e_front e = fi + k -> e_front e' = fi + k -> e_rank e < e_rank e' -> dle (D k (e_cand e')) (D k (e_cand e))) /\
    (forall e k g v, In e new -> e_front e = fi + k -> g < k -> In v (nth g fs []) -> In v (map e_cand new)) /\
    (forall e k v, In e new -> e_front e = fi + k -> In v (nth k fs []) -> ~ In v (map e_cand new) -> dle (D k v) (D k (e_cand e))).
Proof.
  induction fs as [|f fs IH]; intros fi count nr meta sel Hc Hn; cbn zeta; cbn [rank_loop].
  - exists []. rewrite app_nil_r. split; [reflexivity|]. cbn. split; [lia|]. split; [exists []; reflexivity|]. repeat split; intros; contradiction.
  - destruct (Nat.ltb_spec n (count + length f)) as [Hlt|Hge].
    + set (meta' := compute_distance pop f meta). set (part := firstn (n - length sel) (crowding_sort meta' f)). fold (numbered nr fi (fun c => at_ meta' c (Fin 0)) part).
      destruct (crowding_sort_spec meta' f) as [HP HS]. destruct (numbered_spec nr fi (fun c => at_ meta' c (Fin 0)) part) as [N1 [N2 N3]]. set (new := numbered nr fi (fun c => at_ meta' c (Fin 0)) part) in *.
      assert (Lp : length part = n - count) by (unfold part; rewrite firstn_length, (Permutation_length HP); lia).
      assert (Hfront : forall e, In e new -> e_front e = fi) by (intros e He; destruct (N3 e He) as [i [E _]]; rewrite E; reflexivity).
      assert (Hinf : forall e, In e new -> In (e_cand e) f).
      { intros e He. destruct (N3 e He) as [i [_ Hi]]. apply nth_error_In in Hi. eapply Permutation_in; [exact HP|]. rewrite <- (firstn_skipn (n - length sel) (crowding_sort meta' f)). apply in_or_app. left. exact Hi. }
      exists new. split; [reflexivity|]. split; [rewrite <- (map_length e_cand), N1, Lp; cbn; rewrite app_length; lia|]. split; [|split; [|split; [|split; [|split]]]].
      * exists (skipn (n - length sel) (crowding_sort meta' f) ++ concat fs). rewrite N1, app_assoc. unfold part. rewrite firstn_skipn. cbn. apply Permutation_app_tail. exact HP.
      * intros e He. split.
        -- destruct (N3 e He) as [i [E _]]. rewrite E. unfold e_rank. cbn. lia.
        -- exists 0. rewrite Nat.add_0_r. split; [exact (Hfront e He)|exact (Hinf e He)].
      * intros e e' He He' Hlt'. rewrite (Hfront e He), (Hfront e' He') in Hlt'. lia.
      * intros e e' k He He' Hk _ Hr. rewrite (Hfront e He) in Hk. assert (k = 0) by lia. subst k. cbn [nth]. fold meta'.
        destruct (N3 e He) as [i [E Hi]]. destruct (N3 e' He') as [i' [E' Hi']].
        assert (Hii : i < i') by (rewrite E, E' in Hr; unfold e_rank in Hr; cbn in Hr; lia). 
        assert (Hnth : forall j x, nth_error part j = Some x -> nth_error (crowding_sort meta' f) j = Some x).
        { intros j x Hj. unfold part in Hj. rewrite <- (firstn_skipn (n - length sel) (crowding_sort meta' f)). rewrite nth_error_app1; [exact Hj|]. apply nth_error_Some. rewrite Hj. discriminate. }
        exact (sorted_nth _ _ i i' _ _ HS Hii (Hnth _ _ Hi) (Hnth _ _ Hi')).
      * intros e k g v He Hk Hg _. rewrite (Hfront e He) in Hk. lia.
      * intros e k v He Hk Hv Hnv. rewrite (Hfront e He) in Hk. assert (k = 0) by lia. subst k. cbn [nth] in *. fold meta'. rewrite N1 in Hnv.
        destruct (N3 e He) as [i [_ Hi]]. apply nth_error_In in Hi. apply (sorted_firstn _ _ (n - length sel) _ _ HS Hi).
        assert (Hvs : In v (crowding_sort meta' f)) by (eapply Permutation_in; [symmetry; exact HP|exact Hv]). rewrite <- (firstn_skipn (n - length sel) (crowding_sort meta' f)) in Hvs. apply in_app_iff in Hvs as [Hvs|Hvs]; [destruct (Hnv Hvs)|exact Hvs].
    + set (blk := map (fun c => (c, (nr, fi, Inf))) f : list entry).
      destruct (IH (S fi) (count + length f) (S nr) meta (sel ++ blk)) as [new [E [L [HP [HR [HF [HD [HQ HV]]]]]]]]; [unfold blk; rewrite app_length, map_length; lia|exact Hge|].
      assert (Hblk : forall e, In e blk -> In (e_cand e) f /\ e_front e = fi /\ e_rank e = nr) by (intros e He; apply in_map_iff in He as [c [<- Hcf]]; auto).
      assert (Hbc : map e_cand blk = f) by (unfold blk; rewrite map_map; cbn; apply map_id).
      exists (blk ++ new). split; [rewrite E, app_assoc; reflexivity|]. split; [rewrite app_length, L; unfold blk; rewrite map_length; cbn; rewrite app_length; lia|]. split; [|split; [|split; [|split; [|split]]]].
      * destruct HP as [rest HP]. exists rest. rewrite map_app, Hbc, <- app_assoc. cbn. apply Permutation_app_head. exact HP.
      * intros e He. apply in_app_iff in He as [He|He].
        -- destruct (Hblk e He) as [H1 [H2 H3]]. split; [lia|]. exists 0. rewrite H2. split; [lia|exact H1].
        -- destruct (HR e He) as [H1 [k [H2 H3]]]. split; [lia|]. exists (S k). split; [lia|exact H3].
      * intros e e' He He' Hlt. apply in_app_iff in He as [He|He]; apply in_app_iff in He' as [He'|He'].
        -- destruct (Hblk e He) as [_ [H2 _]], (Hblk e' He') as [_ [H2' _]]. lia.
        -- destruct (Hblk e He) as [_ [_ H3]], (HR e' He') as [H1 _]. lia.
        -- destruct (Hblk e' He') as [_ [H2 _]], (HR e He) as [_ [k [H3 _]]]. lia.
        -- exact (HF e e' He He' Hlt).
      * intros e e' k He He' Hk Hk' Hr. apply in_app_iff in He as [He|He]; apply in_app_iff in He' as [He'|He'].
        -- destruct (Hblk e He) as [_ [_ H3]], (Hblk e' He') as [_ [_ H3']]. lia.
        -- destruct (Hblk e He) as [_ [H2 _]], (HR e' He') as [_ [k' [H3 _]]]. lia.
        -- destruct (Hblk e' He') as [_ [H2 _]], (HR e He) as [_ [k' [H3 _]]]. lia.
        -- destruct (HR e He) as [_ [k' [H3 _]]]. destruct k as [|k]; [lia|]. exact (HD e e' k He He' ltac:(lia) ltac:(lia) Hr).
      * intros e k g v He Hk Hg Hv. rewrite map_app, Hbc. apply in_or_app. apply in_app_iff in He as [He|He].
        -- destruct (Hblk e He) as [_ [H2 _]]. lia.
        -- destruct g as [|g]; [left; exact Hv|]. right. destruct k as [|k]; [lia|]. exact (HQ e k g v He ltac:(lia) ltac:(lia) Hv).
      * intros e k v He Hk Hv Hnv. rewrite map_app, Hbc in Hnv. apply in_app_iff in He as [He|He].
        -- destruct (Hblk e He) as [_ [H2 _]]. assert (k = 0) by lia. subst k. exfalso. apply Hnv. apply in_or_app. left. exact Hv.
        -- destruct (HR e He) as [_ [k' [H3 _]]]. destruct k as [|k]; [lia|]. apply (HV e k v He); [lia|exact Hv|]. intros Hx. apply Hnv. apply in_or_app. right. exact Hx.
Qed.

Lemma rank_loop_none pop d : 0 < d -> (forall x, In x pop -> length x = d) -> forall fs fi count nr meta sel, length meta = length pop -> NoDup (concat fs) -> (forall i, In i (concat fs) -> i < length pop) ->
  exists new D, rank_loop pop None fs fi count nr meta sel = sel ++ new /\ (forall k, k < length fs -> crowding pop d (nth k fs []) (D k)) /\
    Permutation (map e_cand new) (concat fs) /\ map e_rank new = seq nr (length new) /\
    (forall e, In e new -> nr <= e_rank e /\ exists k, e_front e = fi + k /\ In (e_cand e) (nth k fs []) /\ e_dist e = D k (e_cand e)) /\
    (forall e e', In e new -> In e' new -> e_front e < e_front e' -> e_rank e < e_rank e') /\
    (forall e e', In e new -> In e' new -> e_front e = e_front e' -> e_rank e < e_rank e' -> dle (e_dist e') (e_dist e)).
Proof.
  intros Hd Hdim. induction fs as [|f fs IH]; intros fi count nr meta sel Lm Hnd Hlt; cbn [rank_loop].
  - exists [], (fun _ _ => Inf). rewrite app_nil_r. split; [reflexivity|]. split; [cbn; intros; lia|]. split; [reflexivity|]. split; [reflexivity|]. repeat split; intros; contradiction.
  - cbn [concat] in Hnd, Hlt. assert (Hndf : NoDup f) by (clear - Hnd; induction f as [|x f IH]; [constructor|]; cbn in Hnd; inversion Hnd as [|? ? Hn Hnd']; subst; constructor; [intros Hx; apply Hn, in_or_app; left; exact Hx|exact (IH Hnd')]).
    assert (Hndfs : NoDup (concat fs)) by (clear - Hnd; induction f as [|x f IH]; [exact Hnd|]; cbn in Hnd; inversion Hnd; subst; auto).
    destruct (distance_crowding pop d f meta Hndf Hd) as [Lm' Hcr].
    { intros c Hc. assert (Hcl : c < length pop) by (apply Hlt, in_or_app; left; exact Hc). split; [lia|]. apply Hdim. apply nth_In. exact Hcl. }
    set (meta' := compute_distance pop f meta) in *. destruct (crowding_sort_spec meta' f) as [HP HS]. set (sf := crowding_sort meta' f) in *.
    fold (numbered nr fi (fun c => at_ meta' c (Fin 0)) sf). destruct (numbered_spec nr fi (fun c => at_ meta' c (Fin 0)) sf) as [N1 [N2 N3]]. set (blk := numbered nr fi (fun c => at_ meta' c (Fin 0)) sf) in *.
    assert (Lb : length blk = length sf) by (rewrite <- (map_length e_cand blk), N1; reflexivity).
    destruct (IH (S fi) (count + length f) (nr + length sf) meta' (sel ++ blk)) as [new [D [E [HC [HPn [HRn [HR [HF HD]]]]]]]]; [lia|exact Hndfs|intros i Hi; apply Hlt, in_or_app; right; exact Hi|].
    assert (Hblk : forall e, In e blk -> exists i, nth_error sf i = Some (e_cand e) /\ e_front e = fi /\ e_rank e = nr + i /\ e_dist e = nth (e_cand e) meta' (Fin 0) /\ i < length sf).
    { intros e He. destruct (N3 e He) as [i [Ee Hi]]. exists i. split; [exact Hi|]. rewrite Ee. repeat split. apply nth_error_Some. rewrite Hi. discriminate. }
    exists (blk ++ new), (fun k => match k with 0 => fun c => nth c meta' (Fin 0) | S k => D k end). split; [rewrite E, app_assoc; reflexivity|]. split; [|split; [|split; [|split; [|split]]]].
    + intros [|k] Hk; [exact Hcr|]. apply HC. cbn in Hk. lia.
    + rewrite map_app, N1. cbn. apply Permutation_app; [exact HP|exact HPn].
    + rewrite map_app, N2, HRn, app_length, Lb, seq_app. reflexivity.
    + intros e He. apply in_app_iff in He as [He|He].
      * destruct (Hblk e He) as [i [H1 [H2 [H3 [H4 _]]]]]. split; [lia|]. exists 0. split; [lia|]. split; [|exact H4]. eapply Permutation_in; [exact HP|]. eapply nth_error_In. exact H1.
      * destruct (HR e He) as [H1 [k [H2 H3]]]. split; [lia|]. exists (S k). split; [lia|exact H3].
    + intros e e' He He' Hl. apply in_app_iff in He as [He|He]; apply in_app_iff in He' as [He'|He'].
      * destruct (Hblk e He) as [i [_ [H2 _]]], (Hblk e' He') as [i' [_ [H2' _]]]. lia.
      * destruct (Hblk e He) as [i [_ [_ [H3 [_ H5]]]]], (HR e' He') as [H1 _]. lia.
      * destruct (Hblk e' He') as [i [_ [H2 _]]], (HR e He) as [_ [k [H3 _]]]. lia.
      * exact (HF e e' He He' Hl).
    + intros e e' He He' Hk Hr. apply in_app_iff in He as [He|He]; apply in_app_iff in He' as [He'|He'].
      * destruct (Hblk e He) as [i [H1 [_ [H3 [H4 _]]]]], (Hblk e' He') as [i' [H1' [_ [H3' [H4' _]]]]]. rewrite H4, H4'. exact (sorted_nth _ _ i i' _ _ HS ltac:(lia) H1 H1').
      * destruct (Hblk e He) as [i [_ [H2 _]]], (HR e' He') as [_ [k' [H3 _]]]. lia.
      * destruct (Hblk e' He') as [i [_ [H2 _]]], (HR e He) as [_ [k' [H3 _]]]. lia.
      * exact (HD e e' He He' Hk Hr).
Qed.

(** Proofs about tours, clusters and landscapes. *)
From Coq Require Import List Arith ZArith QArith Bool Lia Lqa Permutation Sorted.
From Verif.Model Require Import Prelude MultiValue Layers Planning Mlda.
From Verif.Spec Require Import Mlda CoreFuncs.
From Verif.Proofs Require Import MultiValue Planning CoreFuncs.
Import ListNotations.
Close Scope R_scope.
Open Scope nat_scope.

Lemma qsum_app l l' : (qsum (l ++ l') == qsum l + qsum l')%Q.
Proof.
  induction l as [|x l IH]; cbn [app]; [change (qsum []) with 0%Q; ring|].
  change (qsum (?y :: ?m)) with (y + qsum m)%Q. rewrite IH. ring.
Qed.

(** ** tours *)
Section Tours.
  Variable dist : nat -> nat -> Q.
  Lemma steps_path l : forall a, steps dist (a :: l)
    = map (fun i => dist (nth i (a :: l) 0) (nth (S i) (a :: l) 0)) (seq 0 (length l)).
  Proof.
    induction l as [|b l IH]; intros a; [reflexivity|]. cbn [length seq map].
    change (steps dist (a :: b :: l)) with (dist a b :: steps dist (b :: l)). f_equal.
    rewrite IH, <- seq_shift, map_map. reflexivity.
  Qed.
  Lemma nth_last (l : list nat) d d' : l <> [] -> nth (length l - 1) l d = last l d'.
  Proof.
    induction l as [|a l IH]; intros H; [congruence|]. destruct l as [|b l]; [reflexivity|].
    specialize (IH ltac:(congruence)). cbn [length] in *. rewrite Nat.sub_succ, Nat.sub_0_r in *. exact IH.
  Qed.
  Lemma tour_steps a l : (tour_length dist (a :: l) == qsum (steps dist (a :: l)) + dist (last (a :: l) a) a)%Q.
  Proof.
    unfold tour_length. rewrite steps_path. cbn [length]. rewrite seq_S, map_app, qsum_app.
    assert (E : forall f g : nat -> Q, (forall i, i < length l -> f i = g i) ->
      map f (seq 0 (length l)) = map g (seq 0 (length l))).
    { intros f g H. apply map_ext_in. intros i Hi. apply in_seq in Hi. apply H. lia. }
    erewrite E; [apply Qplus_comp; [reflexivity|]|].
    - cbn [map Nat.add]. change (qsum [?x]) with (x + 0)%Q.
      rewrite Nat.mod_same by lia. rewrite <- (nth_last (a :: l) 0 a) by congruence. cbn [length nth].
      rewrite Nat.sub_succ, Nat.sub_0_r. ring.
    - intros i Hi. cbn beta. rewrite Nat.mod_small by lia. reflexivity.
  Qed.
  Lemma steps_app l : forall a b m, (qsum (steps dist ((a :: l) ++ b :: m))
    == qsum (steps dist (a :: l)) + dist (last (a :: l) a) b + qsum (steps dist (b :: m)))%Q.
  Proof.
    induction l as [|c l IH]; intros a b m.
    - change (steps dist ([a] ++ b :: m)) with (dist a b :: steps dist (b :: m)).
      change (qsum (?y :: ?k)) with (y + qsum k)%Q. change (qsum (steps dist [a])) with 0%Q. cbn [last]. ring.
    - change (steps dist ((a :: c :: l) ++ b :: m)) with (dist a c :: steps dist ((c :: l) ++ b :: m)).
      change (steps dist (a :: c :: l)) with (dist a c :: steps dist (c :: l)).
      change (qsum (?y :: ?k)) with (y + qsum k)%Q. rewrite IH.
      change (last (a :: c :: l) a) with (last (c :: l) a).
      replace (last (c :: l) a) with (last (c :: l) c); [ring|]. clear. revert c.
      induction l as [|e l IH]; intros c; [reflexivity|]. change (last (e :: l) c = last (e :: l) a).
      clear IH. revert e. induction l as [|f l IH]; intros e; [reflexivity|]. apply (IH f).
  Qed.
  Lemma last_change (l : list nat) d d' : l <> [] -> last l d = last l d'.
  Proof. intros H. rewrite <- (nth_last l 0 d), <- (nth_last l 0 d') by exact H. reflexivity. Qed.
  Lemma last_app (l : list nat) b m d : last (l ++ b :: m) d = last (b :: m) d.
  Proof.
    induction l as [|a l IH]; [reflexivity|]. cbn [app]. destruct (l ++ b :: m) eqn:E; [now destruct l|exact IH].
  Qed.
  Lemma rotated l m : (tour_length dist (l ++ m) == tour_length dist (m ++ l))%Q.
  Proof.
    destruct l as [|a l]; [now rewrite app_nil_r|]. destruct m as [|b m]; [now rewrite app_nil_r|].
    cbn [app]. rewrite !tour_steps. change (a :: l ++ b :: m) with ((a :: l) ++ b :: m).
    change (b :: m ++ a :: l) with ((b :: m) ++ a :: l). rewrite !steps_app, !last_app.
    rewrite (last_change (b :: m) a b), (last_change (a :: l) b a) by congruence. ring.
  Qed.
  Hypothesis Sym : forall i j, (dist i j == dist j i)%Q.
  Lemma steps_rev l : (qsum (steps dist (rev l)) == qsum (steps dist l))%Q.
  Proof.
    induction l as [|a l IH]; [reflexivity|]. cbn [rev]. destruct l as [|b l]; [reflexivity|].
    change (steps dist (a :: b :: l)) with (dist a b :: steps dist (b :: l)). change (qsum (?y :: ?k)) with (y + qsum k)%Q.
    rewrite <- IH. destruct (rev (b :: l)) as [|c m] eqn:E; [cbn in E; now destruct (rev l)|].
    rewrite steps_app. change (qsum (steps dist [a])) with 0%Q. rewrite <- E. cbn [rev]. rewrite last_app. cbn [last].
    rewrite (Sym b a). ring.
  Qed.
  Lemma reversed l : (tour_length dist (rev l) == tour_length dist l)%Q.
  Proof.
    destruct l as [|a l]; [reflexivity|]. rewrite tour_steps, <- steps_rev.
    destruct (rev (a :: l)) as [|c m] eqn:E; [cbn in E; now destruct (rev l)|]. rewrite tour_steps.
    assert (C : last (a :: l) a = c).
    { rewrite <- (rev_involutive (a :: l)), E. cbn [rev]. rewrite last_app. reflexivity. }
    rewrite C. assert (C2 : last (c :: m) c = a).
    { rewrite <- E. cbn [rev]. rewrite last_app. reflexivity. }
    rewrite C2, (Sym a c). reflexivity.
  Qed.
End Tours.

Lemma sorted_unique (P : nat -> nat -> Prop) l : forall l', Permutation l l' -> StronglySorted P l -> StronglySorted P l' ->
  (forall a b, In a l -> In b l -> P a b -> P b a -> a = b) -> l = l'.
Proof.
  induction l as [|a l IH]; intros l' Pm Hl Hl' A.
  - apply Permutation_nil in Pm. now subst.
  - destruct l' as [|b m]; [apply Permutation_sym, Permutation_nil in Pm; discriminate|].
    inversion Hl as [|? ? Sl Fl]; subst. inversion Hl' as [|? ? Sm Fm]; subst.
    assert (E : a = b).
    { assert (Ia : In a (b :: m)) by (apply (Permutation_in a Pm); now left).
      assert (Ib : In b (a :: l)) by (apply (Permutation_in b (Permutation_sym Pm)); now left).
      destruct Ia as [->|Ia]; [reflexivity|]. destruct Ib as [->|Ib]; [reflexivity|].
      apply A; [now left|now right| |].
      - rewrite Forall_forall in Fl. auto.
      - rewrite Forall_forall in Fm. auto. }
    subst b. f_equal. apply IH; auto.
    + now apply Permutation_cons_inv in Pm.
    + intros x y Hx Hy. apply A; now right.
Qed.
Lemma sorted_weaken (P P' : nat -> nat -> Prop) l : StronglySorted P l ->
  (forall a b, In a l -> In b l -> P a b -> P' a b) -> StronglySorted P' l.
Proof.
  induction 1 as [|a l Hs IH F]; intros W; constructor.
  - apply IH. intros x y Hx Hy. apply W; now right.
  - rewrite Forall_forall in *. intros x Hx. apply W; [now left|now right|auto].
Qed.
Lemma sorts_in x order i : sorts x order -> In i order -> i < length x.
Proof. intros [Pm _] H. apply (Permutation_in i Pm) in H. apply in_seq in H. lia. Qed.
Lemma sorts_unique x o o' : distinct x -> sorts x o -> sorts x o' -> o = o'.
Proof.
  intros D [P1 S1] [P2 S2]. eapply sorted_unique; [|exact S1|exact S2|].
  - eapply Permutation_trans; [exact P1|now apply Permutation_sym].
  - intros a b Ha Hb L1 L2. apply D; [apply (sorts_in x o); [now split|exact Ha]|apply (sorts_in x o); [now split|exact Hb]|].
    cbn beta in L1, L2. lra.
Qed.
Lemma sorts_monotone x x' o : length x' = length x ->
  (forall i j, i < length x -> j < length x -> (key x i < key x j)%Q -> (key x' i < key x' j)%Q) ->
  sorts x' o -> sorts x o.
Proof.
  intros L M [P S]. split; [now rewrite <- L|]. eapply sorted_weaken; [exact S|]. intros a b Ha Hb H.
  destruct (Qlt_le_dec (key x b) (key x a)) as [K|K]; [|exact K]. exfalso.
  assert (I : forall i, In i o -> i < length x) by (intros i Hi; rewrite <- L; eapply sorts_in; [split; eassumption|exact Hi]).
  specialize (M b a (I _ Hb) (I _ Ha) K). cbn beta in H. lra.
Qed.

(** keys for a given tour *)
Fixpoint pos (i : nat) (l : list nat) : nat := match l with [] => 0 | a :: r => if i =? a then 0 else S (pos i r) end.
Lemma pos_nth i l : In i l -> nth (pos i l) l 0 = i.
Proof.
  induction l as [|a l IH]; intros H; [destruct H|]. cbn [pos]. destruct (Nat.eqb_spec i a) as [->|N]; [reflexivity|].
  destruct H as [->|H]; [congruence|]. now apply IH.
Qed.
Lemma pos_sorted l : NoDup l -> StronglySorted (fun i j => pos i l <= pos j l) l.
Proof.
  induction 1 as [|a l H N IH]; constructor.
  - eapply sorted_weaken; [exact IH|]. intros x y Hx Hy K. cbn [pos].
    destruct (Nat.eqb_spec x a) as [->|]; [contradiction|]. destruct (Nat.eqb_spec y a) as [->|]; [contradiction|]. cbn beta in K. lia.
  - apply Forall_forall. intros x Hx. cbn [pos]. rewrite Nat.eqb_refl. lia.
Qed.
Definition keys_of (tour : list nat) : list Q := map (fun i => qnat (pos i tour)) (seq 0 (length tour)).
Lemma keys_of_key tour i : i < length tour -> key (keys_of tour) i = qnat (pos i tour).
Proof.
  intros H. unfold key, keys_of. erewrite nth_error_nth; [reflexivity|]. rewrite nth_error_map.
  rewrite (nth_error_nth' _ 0) by now rewrite seq_length. rewrite seq_nth by exact H. reflexivity.
Qed.
Lemma keys_of_sorts tour n : Permutation tour (seq 0 n) -> sorts (keys_of tour) tour /\ distinct (keys_of tour) /\ length (keys_of tour) = n.
Proof.
  intros P. assert (L : length tour = n) by (apply Permutation_length in P; now rewrite seq_length in P).
  assert (Lk : length (keys_of tour) = n) by (unfold keys_of; now rewrite map_length, seq_length).
  assert (I : forall i, In i tour <-> i < n).
  { intros i. split; intros H.
    - apply (Permutation_in i P) in H. apply in_seq in H. lia.
    - apply (Permutation_in i (Permutation_sym P)). apply in_seq. lia. }
  split; [|split; [|exact Lk]].
  - split; [now rewrite Lk|]. eapply sorted_weaken; [apply pos_sorted|].
    + eapply Permutation_NoDup; [apply Permutation_sym; exact P|apply seq_NoDup].
    + intros a b Ha Hb K. rewrite !keys_of_key by (rewrite L; now apply I). unfold qnat. rewrite <- Zle_Qle. cbn beta in K. lia.
  - intros i j Hi Hj E. rewrite Lk in Hi, Hj. rewrite !keys_of_key in E by lia.
    assert (K : pos i tour = pos j tour).
    { unfold qnat in E. apply Qeq_alt in E. unfold Qeq in *. unfold Qcompare in E. cbn in E. apply Z.compare_eq in E. lia. }
    rewrite <- (pos_nth i tour), <- (pos_nth j tour) by (now apply I). now rewrite K.
Qed.

(** ** clusters *)
Lemma fold_qmin_le l : forall a, (fold_left qmin l a <= a)%Q /\ forall x, In x l -> (fold_left qmin l a <= x)%Q.
Proof.
  induction l as [|y l IH]; intros a; cbn [fold_left]; [split; [lra|intros x []]|].
  destruct (IH (qmin a y)) as [H1 H2]. pose proof (qmin_le_l a y). pose proof (qmin_le_r a y).
  split; [lra|]. intros x [->|Hx]; [lra|auto].
Qed.
Lemma fold_qmin_in l : forall a, In (fold_left qmin l a) (a :: l).
Proof.
  induction l as [|y l IH]; intros a; cbn [fold_left]; [now left|]. destruct (IH (qmin a y)) as [H|H]; [|right; now right].
  rewrite <- H. destruct (qmin_or a y) as [-> | ->]; [now left|right; now left].
Qed.
Lemma row_min_ok l : l <> [] -> exists m, row_min l = Ok m /\ In m l /\ forall x, In x l -> (m <= x)%Q.
Proof.
  destruct l as [|a l]; intros H; [congruence|]. exists (fold_left qmin l a). split; [reflexivity|]. split; [apply fold_qmin_in|].
  destruct (fold_qmin_le l a) as [H1 H2]. intros x [->|Hx]; auto.
Qed.
Lemma kmeans_rows_ok points centers : centers <> [] -> exists l, kmeans_rows points centers = Ok l /\
  Forall2 (fun p m => (exists c, In c centers /\ m = sqdist p c) /\ forall c, In c centers -> (m <= sqdist p c)%Q) points l.
Proof.
  intros H. induction points as [|p points IH]; [exists []; split; [reflexivity|constructor]|].
  destruct IH as (l & E & F). destruct (row_min_ok (map (sqdist p) centers)) as (m & Em & Im & Lm).
  { destruct centers; [congruence|discriminate]. }
  exists (m :: l). cbn [kmeans_rows]. rewrite Em. cbn [bind]. rewrite E. split; [reflexivity|]. constructor; [|exact F].
  split.
  - apply in_map_iff in Im. destruct Im as (c & <- & Hc). eauto.
  - intros c Hc. apply Lm. apply in_map. exact Hc.
Qed.
Lemma kmeans_value points centers : centers <> [] -> exists l, kmeans_distance points centers = Ok (qsum l) /\
  Forall2 (fun p m => (exists c, In c centers /\ m = sqdist p c) /\ forall c, In c centers -> (m <= sqdist p c)%Q) points l.
Proof.
  intros H. destruct (kmeans_rows_ok points centers H) as (l & E & F). exists l. unfold kmeans_distance. rewrite E. auto.
Qed.
Lemma square_nonneg x : (0 <= square x)%Q.
Proof. unfold square. destruct (Qlt_le_dec x 0) as [H|H]; [setoid_replace (x * x)%Q with ((- x) * (- x))%Q by ring|]; apply Qmult_le_0_compat; lra. Qed.
Lemma square_zero x : (square x == 0)%Q -> (x == 0)%Q.
Proof. unfold square. intros H. apply Qmult_integral in H. tauto. Qed.
Lemma sqdist_nonneg a b : (0 <= sqdist a b)%Q.
Proof.
  apply qsum_nonneg. apply Forall_forall. intros x H. apply in_map_iff in H. destruct H as (c & <- & _). apply square_nonneg.
Qed.
Lemma sqdist_zero a : forall b, length a = length b -> (sqdist a b == 0)%Q <-> same_point a b.
Proof.
  unfold same_point. induction a as [|x a IH]; intros [|y b] L; try discriminate.
  - split; [constructor|reflexivity].
  - unfold sqdist. cbn [combine map fst snd]. change (qsum (?y :: ?k)) with (y + qsum k)%Q.
    fold (sqdist a b). specialize (IH b ltac:(cbn in L; lia)). pose proof (sqdist_nonneg a b) as N.
    pose proof (square_nonneg (x - y)) as N2. split; intros H.
    + constructor; [|apply IH; lra]. assert (K : (square (x - y) == 0)%Q) by lra. apply square_zero in K. lra.
    + inversion H as [|? ? ? ? E F]; subst. apply IH in F. rewrite F. unfold square. rewrite E. ring.
Qed.

(** ** proximities *)
Lemma sammon_cell_nonneg p d : (0 <= sammon_cell p d)%Q.
Proof.
  unfold sammon_cell. apply Qle_shift_div_l.
  - destruct (Qeq_bool (square p) 0) eqn:E; [reflexivity|]. apply Qeq_bool_neq in E. pose proof (square_nonneg p).
    destruct (Qlt_le_dec 0 (square p)) as [K|K]; [exact K|]. exfalso. apply E. lra.
  - rewrite Qmult_0_l. apply square_nonneg.
Qed.
Lemma sammon_cell_zero p d : (sammon_cell p d == 0)%Q <-> (p == d)%Q.
Proof.
  unfold sammon_cell. set (w := if Qeq_bool (square p) 0 then 1%Q else square p).
  assert (W : ~ (w == 0)%Q).
  { unfold w. destruct (Qeq_bool (square p) 0) eqn:E; [discriminate|]. now apply Qeq_bool_neq in E. }
  clearbody w. split; intros H.
  - unfold Qdiv in H. apply Qmult_integral in H. destruct H as [H|H].
    + apply square_zero in H. lra.
    + exfalso. apply W. rewrite <- (Qinv_involutive w), H. reflexivity.
  - unfold square. rewrite H. field. exact W.
Qed.
Section Pairs.
  Variable A B : Type.
  Variable f : A * B -> Q.
  Variable P : A -> B -> Prop.
  Hypothesis F0 : forall c, (0 <= f c)%Q.
  Lemma pairs_zero l : forall m, Forall2 (fun a b => (f (a, b) == 0)%Q <-> P a b) l m ->
    ((qsum (map f (combine l m)) == 0)%Q <-> Forall2 P l m).
  Proof.
    intros m H. induction H as [|a b l m Hab H IH]; [split; [constructor|reflexivity]|]. cbn [combine map].
    change (qsum (?y :: ?k)) with (y + qsum k)%Q.
    assert (N : (0 <= qsum (map f (combine l m)))%Q).
    { apply qsum_nonneg. apply Forall_forall. intros x Hx. apply in_map_iff in Hx. destruct Hx as (c & <- & _). apply F0. }
    pose proof (F0 (a, b)) as N2. split; intros K.
    - constructor; [apply Hab; lra|apply IH; lra].
    - inversion K; subst. assert (K1 : (f (a, b) == 0)%Q) by now apply Hab. 
      assert (K2 : (qsum (map f (combine l m)) == 0)%Q) by now apply IH. lra.
  Qed.
End Pairs.
Definition sammon_row (rows : list Q * list Q) : Q := qsum (map (fun c => sammon_cell (fst c) (snd c)) (combine (fst rows) (snd rows))).
Lemma sammon_row_nonneg r : (0 <= sammon_row r)%Q.
Proof. apply qsum_nonneg. apply Forall_forall. intros x Hx. apply in_map_iff in Hx. destruct Hx as (c & <- & _). apply sammon_cell_nonneg. Qed.
Lemma sammon_row_zero p d : length p = length d -> (sammon_row (p, d) == 0)%Q <-> Forall2 Qeq p d.
Proof.
  intros L. unfold sammon_row. cbn [fst snd]. apply (pairs_zero _ _ _ Qeq).
  - intros c. apply sammon_cell_nonneg.
  - revert d L. induction p as [|x p IH]; intros [|y d] L; try discriminate; constructor; [|apply IH; cbn in L; lia].
    cbn [fst snd]. apply sammon_cell_zero.
Qed.

(** ** landscapes *)
Lemma nearest_rounds x i : nearest x i <-> round_half_even x = Z.of_nat i.
Proof.
  rewrite round_rounds. unfold nearest, rounds, qnat.
  assert (E : Nat.even i = Z.even (Z.of_nat i)).
  { clear. induction i as [|i IH]; [reflexivity|]. rewrite Nat2Z.inj_succ, Z.even_succ, <- Z.negb_even, <- IH, Nat.even_succ, <- Nat.negb_even. reflexivity. }
  rewrite E. tauto.
Qed.
Lemma image_max_ge image x : In x (concat image) -> (x <= image_max image)%Q.
Proof.
  unfold image_max. destruct (concat image) as [|a l]; intros H; [destruct H|]. destruct (fold_qmax_ge l a) as [H1 H2].
  destruct H as [->|H]; auto.
Qed.
Lemma image_max_in image : concat image <> [] -> In (image_max image) (concat image).
Proof.
  unfold image_max. destruct (concat image) as [|a l]; intros H; [congruence|]. destruct (fold_qmax_in l a) as [->|K]; [now left|now right].
Qed.
Lemma pixel_in image rows cols i j : sized image rows cols -> i < rows -> j < cols -> In (nth j (nth i image []) 0%Q) (concat image).
Proof.
  intros [L F] Hi Hj. apply in_concat. exists (nth i image []). split; [apply nth_In; lia|].
  apply nth_In. rewrite Forall_forall in F. rewrite F; [exact Hj|]. apply nth_In. lia.
Qed.

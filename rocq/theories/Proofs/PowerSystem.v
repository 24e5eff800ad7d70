(** Proofs for the power system. *)
From Coq Require Import List Arith ZArith QArith Bool Permutation Sorted Lia Lqa.
From Verif.Model Require Import Prelude MultiValue Planning PowerSystem.
From Verif.Spec Require Import PowerSystem.
From Verif.Proofs Require Import MultiValue Planning.
Import ListNotations.
Open Scope nat_scope.

(** ** Sums *)
Definition lsum (f : nat -> Q) (l : list nat) : Q := qsum (map f l).
Lemma lsum_perm f l l' : Permutation l l' -> (lsum f l == lsum f l')%Q.
Proof.
  induction 1; unfold lsum in *; cbn [map qsum fold_right].
  - reflexivity.
  - change (fold_right Qplus 0%Q) with qsum. rewrite IHPermutation. reflexivity.
  - change (fold_right Qplus 0%Q) with qsum. ring.
  - now rewrite IHPermutation1.
Qed.
Lemma lsum_ext f g l : (forall i, In i l -> f i == g i)%Q -> (lsum f l == lsum g l)%Q.
Proof.
  intros H. induction l as [|i l IH]; unfold lsum in *; cbn; [reflexivity|].
  change (fold_right Qplus 0%Q) with qsum. rewrite IH, (H i) by (intros; try apply H; cbn; auto). reflexivity.
Qed.
Lemma total_lsum f n : (total f n == lsum f (seq 0 n))%Q.
Proof.
  induction n as [|n IH]; [reflexivity|]. rewrite seq_S. cbn [total]. rewrite IH. unfold lsum. rewrite map_app.
  cbn [map plus]. generalize (map f (seq 0 n)). intros l. induction l as [|x l IHl]; cbn; [ring|].
  change (fold_right Qplus 0%Q) with qsum. rewrite <- IHl. ring.
Qed.
Lemma total_ext (f g : nat -> Q) n : (forall i, (i < n)%nat -> f i == g i)%Q -> (total f n == total g n)%Q.
Proof. intros H. induction n as [|n IH]; cbn; [reflexivity|]. rewrite IH, H by auto. reflexivity. Qed.
Lemma total_le (f g : nat -> Q) n : (forall i, (i < n)%nat -> f i <= g i)%Q -> (total f n <= total g n)%Q.
Proof. intros H. induction n as [|n IH]; cbn; [apply Qle_refl|]. assert (X := H n (Nat.lt_succ_diag_r n)). assert (Y : (total f n <= total g n)%Q) by auto. lra. Qed.
Lemma total_zero (f : nat -> Q) n : (forall i, (i < n)%nat -> f i == 0)%Q -> (total f n == 0)%Q.
Proof. intros H. induction n as [|n IH]; cbn; [reflexivity|]. rewrite IH, H by auto. ring. Qed.
Lemma total_nonneg (f : nat -> Q) n : (forall i, (i < n)%nat -> 0 <= f i)%Q -> (0 <= total f n)%Q.
Proof. intros H. induction n as [|n IH]; cbn; [apply Qle_refl|]. assert (X := H n (Nat.lt_succ_diag_r n)). assert (Y : (0 <= total f n)%Q) by auto. lra. Qed.
Lemma total_lin a b f g n : (total (fun i => a * f i + b * g i) n == a * total f n + b * total g n)%Q.
Proof. induction n as [|n IH]; cbn; [ring|]. rewrite IH. ring. Qed.
Lemma total_split f n m : (total f (n + m) == total f n + total (fun i => f (n + i)%nat) m)%Q.
Proof. induction m as [|m IH]; [rewrite Nat.add_0_r; cbn; ring|]. rewrite Nat.add_succ_r. cbn [total]. rewrite IH. ring. Qed.

(** ** The merit order *)
Lemma insert_perm price i l : Permutation (i :: l) (insert_by price i l).
Proof.
  induction l as [|j l IH]; cbn; [auto|]. destruct (qle _ _); [auto|]. rewrite perm_swap. now constructor.
Qed.
Lemma merit_perm price n : Permutation (seq 0 n) (merit_order price n).
Proof.
  unfold merit_order. induction (seq 0 n) as [|i l IH]; cbn; [auto|]. rewrite <- insert_perm. now constructor.
Qed.
Lemma insert_sorted price i l : StronglySorted (fun a b => price a <= price b)%Q l ->
  StronglySorted (fun a b => price a <= price b)%Q (insert_by price i l).
Proof.
  induction 1 as [|j l H IH Hj]; cbn; [repeat constructor|]. destruct (qle (price i) (price j)) eqn:E.
  - apply qle_iff in E. constructor; [now constructor|]. constructor; [auto|].
    eapply Forall_impl; [|exact Hj]. intros a Ha. cbn in Ha. lra.
  - apply qle_false in E. constructor; [auto|]. apply Forall_forall. intros a Ha.
    apply (Permutation_in a (Permutation_sym (insert_perm price i l))) in Ha as [<-|Ha]; [lra|].
    now apply (proj1 (Forall_forall _ _) Hj).
Qed.
Lemma merit_sorted price n : StronglySorted (fun a b => price a <= price b)%Q (merit_order price n).
Proof.
  unfold merit_order. induction (seq 0 n) as [|i l IH]; cbn; [constructor|]. now apply insert_sorted.
Qed.

(** ** The loop over the plants *)
Lemma qmin_spec a b : (qmin a b <= a /\ qmin a b <= b)%Q /\ (qmin a b = a \/ qmin a b = b).
Proof. split; [split; [apply qmin_le_l|apply qmin_le_r]|apply qmin_or]. Qed.

Lemma dispatch_spec nd price cap l : NoDup l -> StronglySorted (fun a b => price a <= price b)%Q l -> forall s,
  (forall i, In i l -> 0 <= cap i)%Q -> (forall i, In i l -> (i < nd)%nat -> stocks s i == cap i)%Q -> (0 <= needed s)%Q ->
  exists p s', dispatch nd price cap l s = Ok s' /\
    (forall i, ~ In i l -> p i = 0%Q) /\ (forall i, In i l -> 0 <= p i <= cap i)%Q /\
    (needed s' == needed s - lsum p l)%Q /\ (0 <= needed s')%Q /\
    (forall i, (i < nd)%nat -> stocks s' i == stocks s i - p i /\ hydro s' i == hydro s i + p i)%Q /\
    (forall i, nd <= i -> stocks s' i = stocks s i /\ hydro s' i = hydro s i) /\
    (cost s' == cost s + lsum (fun i => if i <? nd then 0 else p i * price i) l)%Q /\
    (forall l1 i l2, l = l1 ++ i :: l2 -> 0 < p i -> forall j, In j l1 -> p j == cap j)%Q /\
    (0 < needed s' -> forall j, In j l -> p j == cap j)%Q /\
    ((marginal s' = marginal s /\ forall i, In i l -> (nd <= i)%nat -> p i <= tiny)%Q \/
     (exists i, In i l /\ (nd <= i)%nat /\ tiny < p i /\ marginal s' = price i /\
        forall j, In j l -> (nd <= j)%nat -> tiny < p j -> price j <= price i)%Q).
Proof.
  intros N So. induction l as [|i l IH]; intros s Hc Hs Hn; cbn [dispatch].
  - exists (fun _ => 0%Q), s. split; [auto|]. split; [auto|]. split; [intros i []|].
    split; [unfold lsum; cbn; ring|]. split; [auto|]. split; [intros; split; ring|]. split; [auto|].
    split; [unfold lsum; cbn; ring|]. split; [intros [|] ? ? ?; discriminate|split; [intros _ j []|left; split; [auto|intros j []]]].
  - inversion N as [|? ? N1 N2]; subst. inversion So as [|? ? So2 So1]; subst. destruct (qle (needed s) 0) eqn:E.
    + apply qle_iff in E. exists (fun _ => 0%Q), s. split; [auto|]. split; [auto|].
      split; [intros j Hj; split; [apply Qle_refl|auto]|].
      assert (Z : (lsum (fun _ => 0%Q) (i :: l) == 0)%Q) by (apply qsum_all_zero, Forall_forall; intros x Hx; apply in_map_iff in Hx as [? [<- _]]; reflexivity).
      split; [rewrite Z; ring|]. split; [auto|]. split; [intros; split; ring|]. split; [auto|].
      split.
      * assert (Z' : (lsum (fun k => if k <? nd then 0%Q else 0 * price k) (i :: l) == 0)%Q).
        { apply qsum_all_zero, Forall_forall. intros x Hx. apply in_map_iff in Hx as [k [<- _]]. destruct (k <? nd); ring. }
        rewrite Z'. ring.
      * split; [intros ? ? ? _ H; exfalso; lra|]. split; [intros H; exfalso; lra|]. left. split; [auto|]. intros. unfold tiny. lra.
    + apply qle_false in E. set (pr := qmin (cap i) (needed s)).
      destruct (qmin_spec (cap i) (needed s)) as [[P1 P2] P3]. fold pr in P1, P2, P3. clearbody pr.
      assert (Ci := Hc i (or_introl eq_refl)).
      assert (P0 : (0 <= pr)%Q) by (destruct P3 as [->| ->]; lra).
      assert (Hc' : forall j, In j l -> (0 <= cap j)%Q) by (intros; apply Hc; now right).
      destruct (Nat.ltb_spec i nd) as [Lt|Ge].
      * assert (Si := Hs i (or_introl eq_refl) Lt).
        assert (Ea : add_at (stocks s) i (- pr)%Q i = (stocks s i + - pr)%Q) by (unfold add_at; now rewrite Nat.eqb_refl).
        assert (Eb : qle (- tiny) (add_at (stocks s) i (- pr)%Q i) = true).
        { apply qle_iff. rewrite Ea, Si. assert (0 < tiny)%Q by (unfold tiny; lra). lra. }
        rewrite Eb. set (s1 := mkday _ _ _ _ _).
        destruct (IH N2 So2 s1 Hc') as [p [s' [R [K1 [K2 [K3 [K4 [K5 [K6 [K7 [K8 [K9 K10]]]]]]]]]]]].
        { intros j Hj Lj. cbn [s1 stocks]. unfold add_at. destruct (Nat.eqb_spec j i) as [->|]; [contradiction|]. apply Hs; [now right|auto]. }
        { cbn [s1 needed]. lra. }
        exists (fun j => if j =? i then pr else p j), s'.
        assert (Pi : p i = 0%Q) by now apply K1.
        assert (Lx : forall f g, (lsum (fun j => if j =? i then f j else g j) (i :: l) == f i + lsum g l)%Q).
        { intros f g. unfold lsum. cbn [map qsum fold_right]. rewrite Nat.eqb_refl. change (fold_right Qplus 0%Q) with qsum.
          apply Qplus_comp; [reflexivity|]. apply (lsum_ext _ g l). intros j Hj. destruct (Nat.eqb_spec j i) as [->|]; [contradiction|reflexivity]. }
        split; [exact R|]. split; [|split; [|split; [|split; [|split; [|split; [|split; [|split; [|split]]]]]]]].
        -- intros j Hj. destruct (Nat.eqb_spec j i) as [->|]; [destruct Hj; now left|]. apply K1. intros ?. apply Hj. now right.
        -- intros j Hj. destruct (Nat.eqb_spec j i) as [->|Nj]; [auto|]. destruct Hj as [->|Hj]; [congruence|auto].
        -- rewrite K3, (Lx (fun _ => pr) p). cbn [s1 needed]. ring.
        -- exact K4.
        -- intros j Lj. destruct (K5 j Lj) as [A B]. rewrite A, B. cbn [s1 stocks hydro]. unfold add_at.
           destruct (Nat.eqb_spec j i) as [->|]; [rewrite Pi|]; split; ring.
        -- intros j Lj. destruct (K6 j Lj) as [A B]. rewrite A, B. cbn [s1 stocks hydro]. unfold add_at.
           destruct (Nat.eqb_spec j i) as [->|]; [lia|auto].
        -- rewrite K7. cbn [s1 cost]. apply Qplus_comp; [reflexivity|].
           rewrite <- (Qplus_0_l (lsum (fun k => if k <? nd then 0%Q else (p k * price k)%Q) l)).
           rewrite <- (Lx (fun _ => 0%Q)). apply lsum_ext. intros j _.
           destruct (Nat.eqb_spec j i) as [->|]; [|reflexivity]. destruct (Nat.ltb_spec i nd); [reflexivity|lia].
        -- intros l1 k l2 El Hp j Hj. destruct l1 as [|a l1]; [destruct Hj|]. injection El as -> El.
           assert (Hk : k <> a). { intros ->. apply N1. rewrite El. apply in_or_app. right. now left. }
           destruct (Nat.eqb_spec k a) as [->|_]; [congruence|].
           destruct Hj as [<-|Hj].
           ++ rewrite Nat.eqb_refl. destruct P3 as [P3|P3]; [rewrite P3; reflexivity|]. assert (P4 : (pr == needed s)%Q) by (rewrite P3; reflexivity).
              exfalso. assert (Kk := K2 k). assert (In k l) by (rewrite El; apply in_or_app; right; now left).
              assert (Z : (lsum p l <= 0)%Q) by (assert (X := K3); assert (X' := K4); rewrite X in X'; cbn [s1 needed] in X'; lra).
              assert (F : Forall (fun x => 0 <= x)%Q (map p l)).
              { apply Forall_forall. intros x Hx. apply in_map_iff in Hx as [b [<- Hb]]. apply K2. auto. }
              assert (Z0 : (lsum p l == 0)%Q) by (assert (X := qsum_nonneg _ F); unfold lsum in *; lra).
              apply (qsum_zero _ F) in Z0. assert (p k == 0)%Q by (apply (proj1 (Forall_forall _ _) Z0), in_map; auto). lra.
           ++ destruct (Nat.eqb_spec j a) as [->|]; [exfalso; apply N1; rewrite El; apply in_or_app; now left|].
              eapply K8; eauto.
        -- intros Hu j Hj. destruct (Nat.eqb_spec j i) as [->|Nj].
           ++ destruct P3 as [P3|P3]; [rewrite P3; reflexivity|]. assert (P4 : (pr == needed s)%Q) by (rewrite P3; reflexivity). exfalso.
              assert (F : Forall (fun x => 0 <= x)%Q (map p l)).
              { apply Forall_forall. intros x Hx. apply in_map_iff in Hx as [b [<- Hb]]. apply K2. auto. }
              assert (X := qsum_nonneg _ F). assert (X' := K3). cbn [s1 needed] in X'. unfold lsum in X'. lra.
           ++ destruct Hj as [->|Hj]; [congruence|auto].
        -- destruct K10 as [[A B]|[k [A [B [C [D G]]]]]].
           ++ left. split; [exact A|]. intros j Hj Lj. destruct (Nat.eqb_spec j i) as [->|Nj]; [lia|]. destruct Hj as [->|Hj]; [congruence|auto].
           ++ right. exists k. assert (Nk : (k =? i) = false) by (apply Nat.eqb_neq; intros ->; contradiction).
              split; [now right|]. split; [auto|]. rewrite Nk. split; [auto|]. split; [auto|].
              intros j Hj Lj. destruct (Nat.eqb_spec j i) as [->|Nj]; [lia|]. destruct Hj as [->|Hj]; [congruence|auto].
      * set (s1 := mkday _ _ _ _ _).
        destruct (IH N2 So2 s1 Hc') as [p [s' [R [K1 [K2 [K3 [K4 [K5 [K6 [K7 [K8 [K9 K10]]]]]]]]]]]].
        { intros j Hj Lj. cbn [s1 stocks]. apply Hs; [now right|auto]. }
        { cbn [s1 needed]. lra. }
        exists (fun j => if j =? i then pr else p j), s'.
        assert (Pi : p i = 0%Q) by now apply K1.
        assert (Lx : forall f g, (lsum (fun j => if j =? i then f j else g j) (i :: l) == f i + lsum g l)%Q).
        { intros f g. unfold lsum. cbn [map qsum fold_right]. rewrite Nat.eqb_refl. change (fold_right Qplus 0%Q) with qsum.
          apply Qplus_comp; [reflexivity|]. apply (lsum_ext _ g l). intros j Hj. destruct (Nat.eqb_spec j i) as [->|]; [contradiction|reflexivity]. }
        split; [exact R|]. split; [|split; [|split; [|split; [|split; [|split; [|split; [|split; [|split]]]]]]]].
        -- intros j Hj. destruct (Nat.eqb_spec j i) as [->|]; [destruct Hj; now left|]. apply K1. intros ?. apply Hj. now right.
        -- intros j Hj. destruct (Nat.eqb_spec j i) as [->|Nj]; [auto|]. destruct Hj as [->|Hj]; [congruence|auto].
        -- rewrite K3, (Lx (fun _ => pr) p). cbn [s1 needed]. ring.
        -- exact K4.
        -- intros j Lj. destruct (K5 j Lj) as [A B]. rewrite A, B. cbn [s1 stocks hydro].
           destruct (Nat.eqb_spec j i) as [->|]; [lia|split; reflexivity].
        -- intros j Lj. destruct (K6 j Lj) as [A B]. rewrite A, B. auto.
        -- rewrite K7. cbn [s1 cost]. rewrite <- Qplus_assoc. apply Qplus_comp; [reflexivity|].
           rewrite <- (Lx (fun _ => (pr * price i)%Q)). apply lsum_ext. intros j _.
           destruct (Nat.eqb_spec j i) as [->|]; [|reflexivity]. destruct (Nat.ltb_spec i nd); [lia|reflexivity].
        -- intros l1 k l2 El Hp j Hj. destruct l1 as [|a l1]; [destruct Hj|]. injection El as -> El.
           assert (Hk : k <> a). { intros ->. apply N1. rewrite El. apply in_or_app. right. now left. }
           destruct (Nat.eqb_spec k a) as [->|_]; [congruence|].
           destruct Hj as [<-|Hj].
           ++ rewrite Nat.eqb_refl. destruct P3 as [P3|P3]; [rewrite P3; reflexivity|]. assert (P4 : (pr == needed s)%Q) by (rewrite P3; reflexivity).
              exfalso. assert (In k l) by (rewrite El; apply in_or_app; right; now left).
              assert (Z : (lsum p l <= 0)%Q) by (assert (X := K3); assert (X' := K4); rewrite X in X'; cbn [s1 needed] in X'; lra).
              assert (F : Forall (fun x => 0 <= x)%Q (map p l)).
              { apply Forall_forall. intros x Hx. apply in_map_iff in Hx as [b [<- Hb]]. apply K2. auto. }
              assert (Z0 : (lsum p l == 0)%Q) by (assert (X := qsum_nonneg _ F); unfold lsum in *; lra).
              apply (qsum_zero _ F) in Z0. assert (p k == 0)%Q by (apply (proj1 (Forall_forall _ _) Z0), in_map; auto). lra.
           ++ destruct (Nat.eqb_spec j a) as [->|]; [exfalso; apply N1; rewrite El; apply in_or_app; now left|].
              eapply K8; eauto.
        -- intros Hu j Hj. destruct (Nat.eqb_spec j i) as [->|Nj].
           ++ destruct P3 as [P3|P3]; [rewrite P3; reflexivity|]. assert (P4 : (pr == needed s)%Q) by (rewrite P3; reflexivity). exfalso.
              assert (F : Forall (fun x => 0 <= x)%Q (map p l)).
              { apply Forall_forall. intros x Hx. apply in_map_iff in Hx as [b [<- Hb]]. apply K2. auto. }
              assert (X := qsum_nonneg _ F). assert (X' := K3). cbn [s1 needed] in X'. unfold lsum in X'. lra.
           ++ destruct Hj as [->|Hj]; [congruence|auto].
        -- destruct K10 as [[A B]|[k [A [B [C [D G]]]]]].
           ++ cbn [s1 marginal] in A. destruct (qlt tiny pr) eqn:Et.
              ** apply qlt_iff in Et. right. exists i. split; [now left|]. split; [auto|]. rewrite Nat.eqb_refl. split; [auto|]. split; [auto|].
                 intros j Hj Lj. destruct (Nat.eqb_spec j i) as [->|Nj]; [intros; apply Qle_refl|]. destruct Hj as [->|Hj]; [congruence|].
                 intros X. assert (Y := B j Hj Lj). lra.
              ** apply qlt_false in Et. left. split; [auto|]. intros j Hj Lj.
                 destruct (Nat.eqb_spec j i) as [->|Nj]; [auto|]. destruct Hj as [->|Hj]; [congruence|auto].
           ++ right. exists k. assert (Nk : (k =? i) = false) by (apply Nat.eqb_neq; intros ->; contradiction).
              split; [now right|]. split; [auto|]. rewrite Nk. split; [auto|]. split; [auto|].
              intros j Hj Lj. destruct (Nat.eqb_spec j i) as [->|Nj].
              ** intros _. apply (proj1 (Forall_forall _ _) So1 k A).
              ** destruct Hj as [->|Hj]; [congruence|auto].
Qed.

(** ** Cheapest first is cheapest *)
Lemma most_expensive (price p : nat -> Q) n :
  (forall i, (i < n)%nat -> p i <= 0)%Q \/
  (exists m, (m < n)%nat /\ 0 < p m /\ forall i, (i < n)%nat -> 0 < p i -> price i <= price m)%Q.
Proof.
  induction n as [|n [IH|[m [A [B C]]]]].
  - left. intros i Hi. lia.
  - destruct (Qlt_le_dec 0 (p n)) as [L|L].
    + right. exists n. split; [auto|]. split; [auto|]. intros i Hi P. assert (i = n \/ i < n) as [->|H] by lia; [apply Qle_refl|].
      assert (X := IH i H). lra.
    + left. intros i Hi. assert (i = n \/ i < n) as [->|H] by lia; auto.
  - right. destruct (Qlt_le_dec 0 (p n)) as [L|L].
    + destruct (Qlt_le_dec (price m) (price n)) as [M|M].
      * exists n. split; [auto|]. split; [auto|]. intros i Hi P. assert (i = n \/ i < n) as [->|H] by lia; [apply Qle_refl|].
        assert (X := C i H P). lra.
      * exists m. split; [lia|]. split; [auto|]. intros i Hi P. assert (i = n \/ i < n) as [->|H] by lia; auto.
    + exists m. split; [lia|]. split; [auto|]. intros i Hi P. assert (i = n \/ i < n) as [->|H] by lia; [exfalso; lra|auto].
Qed.
Lemma bill_at_least n (price p q : nat -> Q) F u v lam :
  (total p n + u == total q n + v)%Q ->
  (forall i, (i < n)%nat -> (p i - q i) * (price i - lam) <= 0)%Q -> ((u - v) * (F - lam) <= 0)%Q ->
  (bill n price p F u <= bill n price q F v)%Q.
Proof.
  intros E H K. unfold bill.
  assert (T : (total (fun i => (p i - q i) * (price i - lam)) n <= 0)%Q).
  { eapply Qle_trans; [apply (total_le _ (fun _ => 0%Q) n H)|]. rewrite total_zero by reflexivity. apply Qle_refl. }
  assert (X : (total (fun i => (p i - q i) * (price i - lam)) n ==
               total (fun i => p i * price i) n - total (fun i => q i * price i) n - lam * (total p n - total q n))%Q).
  { clear. induction n as [|n IH]; cbn; [ring|]. rewrite IH. ring. }
  rewrite X in T.
  assert (Y : ((u - v) * (F - lam) == F * u - F * v - lam * (u - v))%Q) by ring. rewrite Y in K.
  assert (Z : (lam * (total p n - total q n) + lam * (u - v) == 0)%Q).
  { setoid_replace (lam * (total p n - total q n) + lam * (u - v))%Q with (lam * ((total p n + u) - (total q n + v)))%Q by ring.
    rewrite E. ring. }
  lra.
Qed.
Lemma neg_prod (a b : Q) : (0 <= a -> b <= 0 -> a * b <= 0)%Q.
Proof. intros A B. assert (X : (0 <= a * - b)%Q) by (apply Qmult_le_0_compat; lra). assert (Y : (a * - b == - (a * b))%Q) by ring. lra. Qed.
Lemma neg_prod' (a b : Q) : (a <= 0 -> 0 <= b -> a * b <= 0)%Q.
Proof. intros A B. assert (X := neg_prod b a B A). assert (Y : (a * b == b * a)%Q) by ring. lra. Qed.
Lemma cheapest_bill n price cap p u d q v F :
  feasible n cap p u d -> cheapest_first n price cap p u -> feasible n cap q v d ->
  (forall i, (i < n)%nat -> price i <= F)%Q ->
  (bill n price p F u <= bill n price q F v)%Q.
Proof.
  intros [P1 [P2 P3]] [C1 C2] [Q1 [Q2 Q3]] HF.
  assert (E : (total p n + u == total q n + v)%Q) by (rewrite P3, Q3; reflexivity).
  destruct (Qlt_le_dec 0 u) as [L|L].
  - apply (bill_at_least n price p q F u v F E).
    + intros i Hi. assert (X := C2 L i Hi). assert (Y := Q1 i Hi). apply neg_prod; [lra|]. assert (Z := HF i Hi). lra.
    + assert (X : ((u - v) * (F - F) == 0)%Q) by ring. lra.
  - destruct (most_expensive price p n) as [A|[m [Hm [Pm A]]]].
    + assert (T : (total p n == 0)%Q) by (apply total_zero; intros i Hi; assert (X := A i Hi); assert (Y := P1 i Hi); lra).
      assert (T2 : (0 <= total q n)%Q) by (apply total_nonneg; intros i Hi; apply Q1; auto).
      assert (Ev : (v == 0)%Q) by lra. assert (Eu : (u == 0)%Q) by lra. assert (Tq : (total q n == 0)%Q) by lra.
      assert (Zq : forall i, (i < n)%nat -> (q i == 0)%Q).
      { clear -Q1 Tq. induction n as [|n IH]; intros i Hi; [lia|]. cbn in Tq.
        assert (X := Q1 n (Nat.lt_succ_diag_r n)).
        assert (T2 : (0 <= total q n)%Q) by (apply total_nonneg; intros k Hk; apply Q1; lia).
        assert (i = n \/ i < n) as [->|H] by lia; [lra|]. apply IH; [intros; apply Q1; lia|lra|auto]. }
      unfold bill. rewrite Eu, Ev. rewrite (total_zero (fun i => p i * price i)%Q), (total_zero (fun i => q i * price i)%Q).
      * apply Qle_refl.
      * intros i Hi. rewrite (Zq i Hi). ring.
      * intros i Hi. assert (X := A i Hi). assert (Y := P1 i Hi). assert (Z : (p i == 0)%Q) by lra. rewrite Z. ring.
    + apply (bill_at_least n price p q F u v (price m) E).
      * intros i Hi. assert (Y := P1 i Hi). assert (Y' := Q1 i Hi).
        destruct (Qlt_le_dec (price i) (price m)) as [M|M].
        -- assert (X := C1 m i Hm Hi Pm M). apply neg_prod; lra.
        -- destruct (Qlt_le_dec (price m) (price i)) as [M'|M'].
           ++ assert (Z : ~ (0 < p i)%Q) by (intros K; assert (X := A i Hi K); lra). apply neg_prod'; lra.
           ++ assert (Z : (price i == price m)%Q) by lra. rewrite Z.
              assert (X : ((p i - q i) * (price m - price m) == 0)%Q) by ring. lra.
      * assert (X := HF m Hm). apply neg_prod'; lra.
Qed.

(** ** A time step *)
Section Year.
Variables nd nt : nat.
Variables thcap thprice : nat -> Q.
Variable F : Q.
Definition good_weather (w : weather) : Prop :=
  (forall i, (i < nd)%nat -> 0 <= w_rain w i)%Q /\ (0 <= w_consumption w)%Q.

Lemma step_spec y w :
  (forall i, (i < nt)%nat -> 0 <= thcap i)%Q -> (forall i, (i < nd)%nat -> 0 <= y_stocks y i)%Q -> good_weather w ->
  let st := fun i => (y_stocks y i + w_rain w i)%Q in
  let price := dams_then_thermal nd (w_dam_price w) thprice in
  let capacity := dams_then_thermal nd st thcap in
  exists p unserved h m y',
    time_step nd nt thcap thprice F y w = Ok y' /\
    feasible (nd + nt) capacity p unserved (w_consumption w) /\
    cheapest_first (nd + nt) price capacity p unserved /\
    (forall i, (i < nd)%nat -> y_stocks y' i == st i - p i)%Q /\
    (y_cost y' == y_cost y + total (fun i => p (nd + i)%nat * thprice i) nt + F * unserved)%Q /\
    y_hydro y' = y_hydro y ++ [h] /\ (forall i, (i < nd)%nat -> h i == p i)%Q /\
    y_marginal_costs y' = y_marginal_costs y ++ [m] /\
    ((tiny < unserved)%Q -> m = F) /\ ((unserved <= tiny)%Q -> marginal_of nd (nd + nt) price p tiny m).
Proof.
  intros Hc Hs [Hr Hw] st price capacity.
  unfold time_step. change (plant nd (w_dam_price w) thprice) with price.
  change (plant nd (fun i => (y_stocks y i + w_rain w i)%Q) thcap) with capacity.
  change (fun i => (y_stocks y i + w_rain w i)%Q) with st.
  set (order := merit_order price (nd + nt)). set (s0 := mkday _ _ _ _ _).
  assert (Pe : Permutation (seq 0 (nd + nt)) order) by apply merit_perm.
  assert (In_o : forall i, In i order <-> i < nd + nt).
  { intros i. split; intros H.
    - apply (Permutation_in i (Permutation_sym Pe)) in H. apply in_seq in H. lia.
    - apply (Permutation_in i Pe). apply in_seq. lia. }
  destruct (dispatch_spec nd price capacity order) with (s := s0) as [p [s' [R [K1 [K2 [K3 [K4 [K5 [K6 [K7 [K8 [K9 K10]]]]]]]]]]]].
  - eapply Permutation_NoDup; [exact Pe|apply seq_NoDup].
  - apply merit_sorted.
  - intros i Hi. apply In_o in Hi. unfold capacity, dams_then_thermal. destruct (Nat.ltb_spec i nd); [|apply Hc; lia].
    unfold st. assert (X := Hs i). assert (Y := Hr i). assert (0 <= y_stocks y i)%Q by auto. assert (0 <= w_rain w i)%Q by auto. lra.
  - intros i Hi Li. cbn. unfold capacity, dams_then_thermal. destruct (Nat.ltb_spec i nd); [reflexivity|lia].
  - cbn. exact Hw.
  - rewrite R. cbn [bind]. exists p, (needed s'). eexists. eexists. eexists. split; [reflexivity|].
    assert (Tp : forall f, (lsum f order == total f (nd + nt))%Q).
    { intros f. rewrite total_lsum. symmetry. now apply lsum_perm. }
    rewrite Tp in K3, K7.
    split; [|split; [|split; [|split; [|split; [|split; [|split; [|split]]]]]]].
    + split; [intros i Hi; apply K2, In_o; auto|]. split; [auto|]. rewrite K3. cbn [s0 needed]. ring.
    + split.
      * intros i j Hi Hj Pi Lt. apply In_o in Hi, Hj. apply in_split in Hi as [l1 [l2 El]].
        rewrite El in Hj. apply in_app_or in Hj as [Hj|[<-|Hj]].
        -- eapply K8; eauto.
        -- exfalso. lra.
        -- exfalso. assert (So := merit_sorted price (nd + nt)). fold order in So. rewrite El in So.
           clear -So Hj Lt. induction l1 as [|a l1 IH].
           ++ inversion So as [|? ? _ X]; subst. assert (Y := proj1 (Forall_forall _ _) X j Hj). cbn in Y. lra.
           ++ inversion So; subst. auto.
      * intros Hu i Hi. apply K9; [auto|]. now apply In_o.
    + intros i Hi. cbn [y_stocks]. destruct (K5 i Hi) as [-> _]. reflexivity.
    + cbn [y_cost]. rewrite K7. cbn [s0 cost]. rewrite total_split.
      rewrite (total_zero _ nd).
      * rewrite (total_ext _ (fun i => p (nd + i)%nat * thprice i)%Q nt); [ring|]. intros i Hi.
        destruct (Nat.ltb_spec (nd + i) nd); [lia|]. unfold price, dams_then_thermal.
        destruct (Nat.ltb_spec (nd + i) nd); [lia|]. now replace (nd + i - nd) with i by lia.
      * intros i Hi. destruct (Nat.ltb_spec i nd); [reflexivity|lia].
    + reflexivity.
    + intros i Hi. destruct (K5 i Hi) as [_ ->]. cbn [s0 hydro]. ring.
    + reflexivity.
    + intros Hu. apply qlt_iff in Hu. now rewrite Hu.
    + intros Hu. apply qlt_false in Hu. rewrite Hu. cbn [s0 marginal] in K10. destruct K10 as [[A B]|[k [A [B [C [D G]]]]]].
      * left. split; [auto|]. intros i Hi. apply B; [apply In_o; lia|lia].
      * right. exists k. split; [split; [auto|apply In_o; auto]|]. split; [auto|]. split; [auto|].
        intros j Hj. apply G; [apply In_o; lia|lia].
Qed.

Lemma simulate_spec ws : forall y,
  (forall i, (i < nt)%nat -> 0 <= thcap i)%Q -> (forall i, (i < nt)%nat -> 0 <= thprice i <= F)%Q -> (0 <= F)%Q ->
  (forall i, (i < nd)%nat -> 0 <= y_stocks y i)%Q -> Forall good_weather ws ->
  exists y' hs ms, simulate nd nt thcap thprice F y ws = Ok y' /\
    (forall i, (i < nd)%nat -> 0 <= y_stocks y' i)%Q /\
    y_hydro y' = y_hydro y ++ hs /\ length hs = length ws /\
    y_marginal_costs y' = y_marginal_costs y ++ ms /\ length ms = length ws /\
    (forall i, (i < nd)%nat -> y_stocks y i + list_total (map (fun w => w_rain w i) ws) ==
                              y_stocks y' i + list_total (map (fun h => h i) hs))%Q /\
    (y_cost y <= y_cost y' /\ y_cost y' <= y_cost y + F * list_total (map w_consumption ws))%Q.
Proof.
  induction ws as [|w ws IH]; intros y Hc Hp HF Hs Hw.
  - exists y, [], []. cbn. rewrite !app_nil_r. split; [auto|]. split; [auto|]. split; [auto|]. split; [auto|]. split; [auto|]. split; [auto|].
    split; [intros; reflexivity|]. split; [apply Qle_refl|]. lra.
  - inversion Hw as [|? ? W1 W2]; subst.
    destruct (step_spec y w Hc Hs W1) as [p [u [h [m [y1 [R [[A1 [A2 A3]] [_ [A4 [A5 [A6 [A7 [A8 _]]]]]]]]]]]]].
    assert (Hs1 : forall i, (i < nd)%nat -> (0 <= y_stocks y1 i)%Q).
    { intros i Hi. rewrite A4 by auto. assert (X := A1 i). unfold dams_then_thermal in X.
      destruct (Nat.ltb_spec i nd); [|lia]. assert (Y := X ltac:(lia)). cbn beta in Y. lra. }
    destruct (IH y1 Hc Hp HF Hs1 W2) as [y' [hs [ms [R' [B1 [B2 [B3 [B4 [B5 [B6 [B7 B8]]]]]]]]]]].
    exists y', (h :: hs), (m :: ms). cbn [simulate]. rewrite R. cbn [bind]. split; [exact R'|]. split; [exact B1|].
    split; [rewrite B2, A6, <- app_assoc; reflexivity|]. split; [cbn; lia|].
    split; [rewrite B4, A8, <- app_assoc; reflexivity|]. split; [cbn; lia|]. split.
    + intros i Hi. cbn [map list_total fold_right]. change (fold_right Qplus 0%Q) with list_total.
      assert (X := B6 i Hi). rewrite A4 in X by auto. cbn beta in X. rewrite (A7 i Hi). lra.
    + assert (G : (0 <= total (fun i => p (nd + i)%nat * thprice i) nt <= F * total (fun i => p (nd + i)%nat) nt)%Q).
      { split.
        - apply total_nonneg. intros i Hi. apply Qmult_le_0_compat; [apply A1; lia|apply Hp; auto].
        - setoid_replace (F * total (fun i => p (nd + i)%nat) nt)%Q with (total (fun i => p (nd + i)%nat * F)%Q nt).
          + apply total_le. intros i Hi. assert (X := Hp i Hi). assert (Y := A1 (nd + i)%nat ltac:(lia)).
            assert (Z := neg_prod (p (nd + i)%nat) (thprice i - F)%Q ltac:(lra) ltac:(lra)). lra.
          + clear. induction nt as [|k IHk]; cbn; [ring|]. rewrite <- IHk. ring. }
      rewrite total_split in A3.
      assert (G0 : (0 <= total p nd)%Q) by (apply total_nonneg; intros i Hi; apply A1; lia).
      assert (G1 : (0 <= F * total p nd)%Q) by (apply Qmult_le_0_compat; auto).
      assert (G2 : (0 <= F * u)%Q) by (apply Qmult_le_0_compat; auto).
      cbn [map list_total fold_right]. change (fold_right Qplus 0%Q) with list_total.
      assert (E : (F * w_consumption w == F * total p nd + F * total (fun i => p (nd + i)%nat) nt + F * u)%Q) by (rewrite <- A3; ring).
      assert (E' : (F * (w_consumption w + list_total (map w_consumption ws)) == F * w_consumption w + F * list_total (map w_consumption ws))%Q) by ring.
      rewrite E', E. lra.
Qed.
End Year.

(** ** Consumption *)
Lemma consumptions_spec back B d l : (0 <= back <= 1)%Q -> (0 <= d)%Q ->
  Forall (fun bn => 0 <= fst bn <= B /\ snd bn <= d)%Q l -> forall previous,
  match previous with Some c => 0 <= c /\ back * c <= back * B + d | None => True end%Q ->
  length (consumptions back previous l) = length l /\
  Forall (fun c => 0 <= c /\ back * c <= back * B + d)%Q (consumptions back previous l).
Proof.
  intros Hb Hd. induction 1 as [|[base noise] l [Hx Hn] H IH]; intros previous Hp; cbn [consumptions]; [split; auto|].
  cbn [fst snd] in *.
  assert (X : (0 <= match previous with None => base | Some c => qmax 0 (c + noise + back * (base - c)) end /\
               back * match previous with None => base | Some c => qmax 0 (c + noise + back * (base - c)) end <= back * B + d)%Q).
  { assert (HB : (0 <= back * B)%Q) by (apply Qmult_le_0_compat; lra).
    assert (HBb : (0 <= back * (B - base))%Q) by (apply Qmult_le_0_compat; lra).
    destruct previous as [c|].
    - split; [apply qmax_ge_l|]. destruct Hp as [Hp1 Hp2].
      destruct (qmax_case 0 (c + noise + back * (base - c))%Q) as [[E _]|[E _]]; rewrite E; [lra|].
      assert (X1 : (0 <= (1 - back) * (back * B + d - back * c))%Q) by (apply Qmult_le_0_compat; lra).
      assert (X2 : (0 <= back * (d - noise))%Q) by (apply Qmult_le_0_compat; lra).
      assert (X3 : (0 <= back * (back * (B - base)))%Q) by (apply Qmult_le_0_compat; lra).
      lra.
    - split; [lra|]. lra. }
  destruct (IH (Some (match previous with None => base | Some c => qmax 0 (c + noise + back * (base - c)) end)%Q) X) as [L Fa].
  split; [cbn; now rewrite L|]. constructor; auto.
Qed.

(** ** Agents *)
Lemma distribute_spec shapes : forall weights, length weights = agent_dimension shapes ->
  concat (distribute shapes weights) = weights /\ map (@length Q) (distribute shapes weights) = map layer_size shapes.
Proof.
  unfold agent_dimension, list_sum. induction shapes as [|s shapes IH]; intros weights L; cbn in *.
  - destruct weights; [auto|discriminate].
  - destruct (IH (skipn (layer_size s) weights)) as [A B]; [rewrite skipn_length; unfold list_sum in *; lia|].
    rewrite A, B, firstn_skipn, firstn_length_le by lia. auto.
Qed.

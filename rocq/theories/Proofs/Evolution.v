From Coq Require Import List Arith QArith Bool Lia Lqa Permutation Sorted.
From Verif.Model Require Import Prelude MultiValue UidQueue Evolution.
From Verif.Spec Require Import UidQueue Evolution.
From Verif.Proofs Require Import Prelude MultiValue UidQueue.
Import ListNotations.
Open Scope nat_scope.

(** ** losses *)
Lemma lo_le_iff a b : lo_le a b = true <-> le_loss a b.
Proof. destruct a, b; cbn; try easy. apply qle_iff. Qed.
Lemma lo_lt_iff a b : lo_lt a b = true <-> lt_loss a b.
Proof.
  unfold lo_lt. destruct a, b; cbn; try easy. rewrite negb_true_iff. apply qle_false.
Qed.
Lemma lo_le_false a b : lo_le a b = false <-> lt_loss b a.
Proof. rewrite <- lo_lt_iff. unfold lo_lt. now rewrite negb_true_iff. Qed.
Lemma lo_lt_false a b : lo_lt a b = false <-> le_loss b a.
Proof. unfold lo_lt. rewrite negb_false_iff. apply lo_le_iff. Qed.
Lemma le_loss_refl a : le_loss a a.
Proof. destruct a; cbn; [apply Qle_refl|easy]. Qed.
Lemma le_loss_trans a b c : le_loss a b -> le_loss b c -> le_loss a c.
Proof. destruct a, b, c; cbn; try easy. apply Qle_trans. Qed.
Lemma lt_le_loss a b : lt_loss a b -> le_loss a b.
Proof. destruct a, b; cbn; try easy. apply Qlt_le_weak. Qed.
Lemma not_le_lt a b : lt_loss a b -> le_loss b a -> False.
Proof. destruct a, b; cbn; try easy. intros. lra. Qed.

(** ** sort *)
Lemma linsert_perm key x l : Permutation (linsert key x l) (x :: l).
Proof.
  induction l as [|y l IH]; cbn; [easy|]. destruct (lo_le (key x) (key y)); [easy|].
  rewrite IH. constructor.
Qed.
Lemma lsort_perm key l : Permutation (lsort key l) l.
Proof. induction l as [|x l IH]; cbn; [easy|]. rewrite linsert_perm. now constructor. Qed.
Definition lsorted (key : nat -> lo) := StronglySorted (fun x y => le_loss (key x) (key y)).
Lemma linsert_sorted key x l : lsorted key l -> lsorted key (linsert key x l).
Proof.
  induction 1 as [|y l Hl IH Hy]; cbn; [repeat constructor|].
  destruct (lo_le (key x) (key y)) eqn:E.
  - apply lo_le_iff in E. constructor; [now constructor|]. constructor; [easy|].
    eapply Forall_impl; [|exact Hy]. intros z Hz. eapply le_loss_trans; eauto.
  - apply lo_le_false, lt_le_loss in E. constructor; [easy|].
    eapply Permutation_Forall; [symmetry; apply linsert_perm|]. now constructor.
Qed.
Lemma lsort_sorted key l : lsorted key (lsort key l).
Proof. induction l; cbn; [constructor|now apply linsert_sorted]. Qed.

Lemma sorted_app_le key a b : lsorted key (a ++ b) -> forall x y, In x a -> In y b -> le_loss (key x) (key y).
Proof.
  induction a as [|z a IH]; cbn; [easy|]. intros H. inversion H as [|? ? Hs Hf]; subst.
  intros x y [->|Hx] Hy; [|eauto]. rewrite Forall_forall in Hf. apply Hf, in_or_app. now right.
Qed.

(** ** dictionaries *)
Lemma dget_mem {V} k (d : list (nat * V)) v : dget k d = Some v -> dmem k d = true.
Proof. unfold dmem. now intros ->. Qed.
Lemma dmem_dset {V} k k' (v : V) d : dmem k (dset k' v d) = (k =? k') || dmem k d.
Proof. unfold dmem. rewrite dget_dset. now destruct (k =? k'). Qed.
Lemma dset_length_le {V} k (v : V) d : length (dset k v d) <= S (length d).
Proof. induction d as [|[k' v'] d IH]; cbn; [lia|]. destruct (k =? k'); cbn; lia. Qed.
Lemma dset_length_old {V} k (v : V) d : dmem k d = true -> length (dset k v d) = length d.
Proof.
  intros H. apply dmem_in in H. apply (dset_keys_old _ v) in H. unfold dkeys in H.
  apply (f_equal (@length _)) in H. now rewrite !map_length in H.
Qed.
Lemma in_dset {V} k (v : V) d k' v' : In (k', v') (dset k v d) -> (k' = k /\ v' = v) \/ In (k', v') d.
Proof.
  induction d as [|[k2 v2] d IH]; cbn.
  - intros [[= <- <-]|[]]. auto.
  - destruct (Nat.eqb_spec k k2) as [->|].
    + intros [[= <- <-]|H]; auto.
    + intros [[= <- <-]|H]; auto. destruct (IH H); auto.
Qed.
Lemma in_ddel {V} k (d : list (nat * V)) x : In x (ddel k d) -> In x d.
Proof.
  induction d as [|[k2 v2] d IH]; cbn; [easy|]. destruct (k =? k2); cbn; [auto|]. intros [|]; auto.
Qed.
Lemma ddel_length {V} k (d : list (nat * V)) : dmem k d = true -> S (length (ddel k d)) = length d.
Proof.
  unfold dmem. induction d as [|[k2 v2] d IH]; cbn; [easy|]. destruct (k =? k2); [easy|].
  intros H. cbn. f_equal. auto.
Qed.
Lemma dmem_ddel {V} k k' (d : list (nat * V)) : NoDup (dkeys d) -> dmem k (ddel k' d) = negb (k =? k') && dmem k d.
Proof. intros H. unfold dmem. rewrite dget_ddel by easy. now destruct (k =? k'). Qed.

(** ** [{x.uid: x for x in l}] *)
Lemma uid_dict_gen l : forall d, (forall k v, In (k, v) d -> v = k) -> NoDup (dkeys d) ->
  let d' := fold_left (fun d x => dset x x d) l d in
  (forall k v, In (k, v) d' -> v = k) /\ NoDup (dkeys d') /\
  (forall x, dmem x d' = true <-> dmem x d = true \/ In x l) /\
  length d' <= length d + length l /\ (NoDup (dkeys d ++ l) -> length d' = length d + length l).
Proof.
  induction l as [|x l IH]; intros d Hv Hn; cbn [fold_left].
  - rewrite Nat.add_0_r. repeat split; auto; cbn; try tauto; try lia.
  - destruct (IH (dset x x d)) as (A & B & C & D & F).
    + intros k v H. apply in_dset in H as [[-> ->]|H]; auto.
    + now apply dset_keys_nodup.
    + repeat split; auto.
      * intros H. apply C in H. rewrite dmem_dset, orb_true_iff, Nat.eqb_eq in H. cbn. intuition.
      * intros H. apply C. rewrite dmem_dset, orb_true_iff, Nat.eqb_eq. cbn in H. intuition.
      * pose proof (dset_length_le x x d). cbn. lia.
      * intros H. assert (Hx : ~ In x (dkeys d)).
        { apply NoDup_remove in H as [_ H]. intros Hx. apply H, in_or_app. now left. }
        rewrite (dset_new _ _ _ Hx) in *. rewrite F.
        -- rewrite app_length. cbn. lia.
        -- unfold dkeys. rewrite map_app, <- app_assoc. cbn. exact H.
Qed.
Lemma uid_dict_spec l :
  (forall k v, In (k, v) (uid_dict l) -> v = k) /\ NoDup (dkeys (uid_dict l)) /\
  (forall x, dmem x (uid_dict l) = true <-> In x l) /\
  length (uid_dict l) <= length l /\ (NoDup l -> length (uid_dict l) = length l).
Proof.
  destruct (uid_dict_gen l []) as (A & B & C & D & F); [easy|constructor|].
  repeat split; auto.
  - intros H. apply C in H. cbn in H. intuition discriminate.
  - intros H. apply C. auto.
Qed.
Lemma uid_vals l x : In x (dvals (uid_dict l)) <-> In x l.
Proof.
  destruct (uid_dict_spec l) as (A & B & C & _). rewrite <- C. unfold dvals. rewrite dmem_in. unfold dkeys.
  rewrite !in_map_iff. split; intros ([k v] & Hk & Hi); pose proof (A _ _ Hi); cbn in *; subst; eexists; (split; [|exact Hi]); auto.
Qed.

(** ** queues as sets *)
Lemma in_os_add x u a : In x (os_iter (os_add u a)) <-> x = u \/ In x (os_iter a).
Proof.
  unfold os_add, os_iter, dkeys. cbn. rewrite map_app, in_app_iff. cbn.
  assert (H : In x (map fst (os_data a)) -> x = u \/ In x (map fst (ddel u (os_data a)))).
  { induction (os_data a) as [|[k v] d IH]; cbn; [easy|]. destruct (Nat.eqb_spec u k) as [->|]; cbn; intuition. }
  assert (H2 : In x (map fst (ddel u (os_data a))) -> In x (map fst (os_data a))).
  { intros H2. apply in_map_iff in H2 as (p & <- & Hp). apply in_ddel in Hp. now apply in_map. }
  intuition.
Qed.
Lemma in_queue_tell x u q : in_queue x (uq_tell u q) <-> x = u \/ in_queue x q.
Proof.
  unfold in_queue, uq_tell. cbn. rewrite in_app_iff. cbn. unfold os_mem.
  destruct (dmem u (os_data (uq_asked q))) eqn:E; [|intuition].
  unfold os_discard. rewrite E. unfold os_iter at 1. cbn. unfold dkeys.
  assert (H : In x (os_iter (uq_asked q)) -> x = u \/ In x (map fst (ddel u (os_data (uq_asked q))))).
  { unfold os_iter, dkeys. induction (os_data (uq_asked q)) as [|[k v] d IH]; cbn; [easy|].
    unfold dmem in E. cbn in E. destruct (Nat.eqb_spec u k) as [->|]; cbn; [intuition|].
    intros [->|H]; [auto|]. apply IH in H; [intuition|]. exact E. }
  assert (H2 : In x (map fst (ddel u (os_data (uq_asked q)))) -> In x (os_iter (uq_asked q))).
  { intros H2. apply in_map_iff in H2 as (p & <- & Hp). apply in_ddel in Hp. now apply in_map. }
  intuition.
Qed.
Lemma in_queue_add x u q : in_queue x (UQ (uq_told q) (os_add u (uq_asked q))) <-> x = u \/ in_queue x q.
Proof. unfold in_queue. cbn [uq_told uq_asked]. rewrite in_os_add. tauto. Qed.
Lemma in_queue_ask q u q' : uq_ask q = Ok (u, q') -> in_queue u q /\ forall x, in_queue x q' <-> in_queue x q.
Proof.
  unfold uq_ask, in_queue. destruct (uq_told q) as [|t l] eqn:E.
  - destruct (os_iter (uq_asked q)) as [|v r] eqn:E2; [easy|]. intros [= <- <-].
    split; [right; now left|]. intros x. cbn [uq_told uq_asked]. rewrite in_os_add, E2. cbn. intuition.
  - intros [= <- <-]. split; [left; now left|]. intros x. cbn [uq_told uq_asked]. rewrite in_os_add. cbn. intuition.
Qed.
Lemma uq_ask_err q e : uq_ask q = Err e -> forall x, ~ in_queue x q.
Proof.
  unfold uq_ask, in_queue. destruct (uq_told q) as [|t l] eqn:E; [|easy].
  destruct (os_iter (uq_asked q)) as [|v r] eqn:E2; [|easy]. cbn. tauto.
Qed.
Lemma in_queue_tells x l : forall q, in_queue x (fold_left (fun q u => uq_tell u q) l q) <-> In x l \/ in_queue x q.
Proof.
  induction l as [|u l IH]; intros q; cbn; [tauto|]. rewrite IH, in_queue_tell. intuition.
Qed.
Lemma in_queue_clear x q : ~ in_queue x (uq_clear q).
Proof. unfold in_queue, uq_clear, os_clear. cbn. tauto. Qed.

(** ** ES *)
Section ES.
  Variables (popsize : nat) (offsprings : option nat) (only : bool).
  Variable rank : est -> list nat -> option (list nat).
  Notation step := (es_step popsize offsprings only rank).
  Notation select := (es_select popsize only rank).
  Notation tell := (es_tell popsize offsprings only rank).

  (** *** selection *)
  Lemma ranked_in s x : In x (es_ranked only rank s) -> In x (es_choices only s).
  Proof.
    unfold es_ranked. destruct (rank s _).
    - intros H. now apply filter_In in H.
    - apply Permutation_in, lsort_perm.
  Qed.

  Lemma in_firstn {A} n (l : list A) x : In x (firstn n l) -> In x l.
  Proof. intros H. rewrite <- (firstn_skipn n l). apply in_or_app. now left. Qed.

  Lemma select_members s x : In x (dvals (es_pop (select s))) -> In x (es_choices only s).
  Proof.
    cbn [es_pop es_select]. rewrite uid_vals. intros H. now apply ranked_in, in_firstn in H || (apply in_firstn in H; now apply ranked_in).
  Qed.

  Lemma select_key s x : dmem x (es_pop (select s)) = true -> In x (es_choices only s).
  Proof.
    cbn [es_pop es_select]. destruct (uid_dict_spec (firstn popsize (es_ranked only rank s))) as (_ & _ & C & _).
    rewrite C. intros H. apply in_firstn in H. now apply ranked_in.
  Qed.

  Lemma select_keyval s k v : In (k, v) (es_pop (select s)) -> v = k.
  Proof. cbn [es_pop es_select]. apply uid_dict_spec. Qed.
  Lemma select_nodup s : NoDup (dkeys (es_pop (select s))).
  Proof. cbn [es_pop es_select]. apply uid_dict_spec. Qed.
  Lemma select_size s : length (es_pop (select s)) <= popsize.
  Proof.
    cbn [es_pop es_select]. etransitivity; [apply uid_dict_spec|]. rewrite firstn_length. lia.
  Qed.
  Lemma select_queue s u : in_queue u (es_q (select s)) <-> dmem u (es_pop (select s)) = true.
  Proof.
    cbn [es_q es_pop es_select]. rewrite in_queue_tells, dmem_in. pose proof (in_queue_clear u (es_q s)). tauto.
  Qed.

  (** with one objective: survivors are the best *)
  Lemma select_best s : rank s (es_choices only s) = None ->
    (forall x y, In x (dvals (es_pop (select s))) -> In y (es_choices only s) ->
       ~ In y (dvals (es_pop (select s))) -> le_loss (loss x (es_c s)) (loss y (es_c s))) /\
    (NoDup (es_choices only s) -> length (es_pop (select s)) = Nat.min popsize (length (es_choices only s))).
  Proof.
    intros Hr. cbn [es_pop es_select]. unfold es_ranked. rewrite Hr.
    set (key := fun c => loss c (es_c s)). set (l := es_choices only s).
    pose proof (lsort_sorted key l) as Hs. pose proof (lsort_perm key l) as Hp.
    rewrite <- (firstn_skipn popsize (lsort key l)) in Hs. split.
    - intros x y Hx Hy Hny. rewrite uid_vals in Hx, Hny.
      apply (sorted_app_le key _ _ Hs x y Hx).
      assert (Hy' : In y (lsort key l)) by (eapply Permutation_in; [symmetry; exact Hp|exact Hy]).
      rewrite <- (firstn_skipn popsize (lsort key l)) in Hy'. apply in_app_or in Hy'. tauto.
    - intros Hn. destruct (uid_dict_spec (firstn popsize (lsort key l))) as (_ & _ & _ & _ & F).
      rewrite F, firstn_length.
      + now rewrite (Permutation_length Hp).
      + assert (Hn' : NoDup (lsort key l)) by (eapply Permutation_NoDup; [symmetry; exact Hp|exact Hn]).
        rewrite <- (firstn_skipn popsize (lsort key l)) in Hn'.
        clear - Hn'. induction (firstn popsize (lsort key l)); [constructor|]. inversion Hn'; subst.
        constructor; [|auto]. intros H. apply H1, in_or_app. now left.
  Qed.

  Lemma select_nonempty s : rank s (es_choices only s) = None -> es_choices only s <> [] -> 1 <= popsize ->
    es_pop (select s) <> [].
  Proof.
    intros Hr Hc Hp. cbn [es_pop es_select]. unfold es_ranked. rewrite Hr.
    set (key := fun c => loss c (es_c s)).
    destruct (lsort key (es_choices only s)) as [|x l] eqn:E.
    - exfalso. apply Hc. apply Permutation_nil. rewrite <- E. apply lsort_perm.
    - destruct popsize as [|n]; [lia|]. cbn [firstn]. intros H.
      assert (Hx : dmem x (uid_dict (x :: firstn n l)) = true) by (apply uid_dict_spec; now left).
      rewrite H in Hx. discriminate.
  Qed.

  (** *** the queue has exactly the members of the population *)
  Definition exact_queue (s : est) : Prop := forall u, in_queue u (es_q s) <-> dmem u (es_pop s) = true.

  Lemma exact_ask u s : exact_queue s -> exact_queue (fst (es_ask popsize u s)).
  Proof.
    intros H x. unfold es_ask. destruct (_ <? _)%nat.
    - cbn [fst es_q es_pop]. rewrite in_queue_add, dmem_dset, orb_true_iff, Nat.eqb_eq. now rewrite (H x).
    - destruct (uq_ask (es_q s)) as [[uid q]|e] eqn:E; [|apply H]. apply in_queue_ask in E as [_ E].
      destruct (dget uid (es_pop s)); cbn [fst es_q es_pop]; rewrite E; apply H.
  Qed.

  Lemma exact_tell c l s : exact_queue s -> exact_queue (tell c (Some l) s).
  Proof.
    intros H x. unfold es_tell. destruct offsprings as [off|].
    - destruct (_ && _)%bool; destruct (_ <=? _)%nat; try apply select_queue; cbn [es_q es_pop]; [|apply H].
      rewrite in_queue_tell, dmem_dset, orb_true_iff, Nat.eqb_eq. now rewrite (H x).
    - cbn [es_q es_pop]. rewrite in_queue_tell, (H x).
      destruct (dget (lineage c (es_c s)) (es_pop s)) as [m|] eqn:E.
      + assert (Hm : dmem (lineage c (es_c s)) (es_pop s) = true) by (unfold dmem; now rewrite E).
        destruct (lo_lt _ _).
        * rewrite dmem_dset, orb_true_iff, Nat.eqb_eq. tauto.
        * split; [intros [->|]; auto|auto].
      + cbn. rewrite dmem_dset, orb_true_iff, Nat.eqb_eq. tauto.
  Qed.

  Lemma exact_reach allowed s : es_reach popsize offsprings only rank allowed s -> exact_queue s.
  Proof.
    induction 1 as [|s o H IH Ho Ha]; [intros u; unfold in_queue, dmem; cbn; intuition discriminate|].
    destruct o as [u|u lin par|c l0 l|c]; cbn [es_step fst]; auto.
    - now apply exact_ask.
    - now apply exact_tell.
  Qed.

  (** *** size *)
  Record bounded (s : est) : Prop := {
    b_nodup : NoDup (dkeys (es_pop s));
    b_keys : forall k, dmem k (es_pop s) = true -> known k (es_c s) = true;
    b_vals : forall m, In m (dvals (es_pop s)) -> known m (es_c s) = true;
    b_wait : forall m, In m (es_wait s) -> known m (es_c s) = true;
    b_count : length (ca_lineage (es_c s)) = es_num_ask s;
    b_lin : offsprings = None -> forall c, known c (es_c s) = true -> dmem (lineage c (es_c s)) (es_pop s) = true;
    b_size : length (es_pop s) <= popsize }.

  Lemma bounded_le s : bounded s -> length (es_pop s) <= es_num_ask s.
  Proof.
    intros []. rewrite <- b_count0. rewrite <- (map_length fst (es_pop s)), <- (map_length fst (ca_lineage (es_c s))).
    apply NoDup_incl_length; [exact b_nodup0|]. intros k Hk. apply dmem_in, b_keys0, dmem_in in Hk. exact Hk.
  Qed.

  Lemma known_new u lin par k x : known x (new_cand u lin par k) = (x =? u) || known x k.
  Proof. unfold known, new_cand. cbn. apply dmem_dset. Qed.
  Lemma lineage_new u lin par k x : known u k = false ->
    lineage x (new_cand u lin par k) = if x =? u then lin else lineage x k.
  Proof. intros H. unfold lineage, new_cand. cbn. rewrite dget_dset. now destruct (x =? u). Qed.
  Lemma vals_dset {V} u (v : V) d m : In m (dvals (dset u v d)) -> m = v \/ In m (dvals d).
  Proof.
    unfold dvals. rewrite !in_map_iff. intros ([k w] & <- & Hi). apply in_dset in Hi as [[-> ->]|Hi]; [auto|].
    right. exists (k, w). auto.
  Qed.
  Lemma fresh_count u lin k : known u k = false -> length (dset u lin (ca_lineage k)) = S (length (ca_lineage k)).
  Proof.
    intros H. apply dmem_false in H. rewrite dset_new by exact H. rewrite app_length. cbn. lia.
  Qed.

  Lemma bounded_ask u s : known u (es_c s) = false -> bounded s -> bounded (fst (es_ask popsize u s)).
  Proof.
    intros Hu Hb. pose proof (bounded_le _ Hb) as Hle. destruct Hb. unfold es_ask.
    destruct (Nat.ltb_spec (es_num_ask s) popsize) as [Hlt|Hge].
    - constructor; cbn [fst es_pop es_c es_wait es_num_ask].
      + now apply dset_keys_nodup.
      + intros k. rewrite dmem_dset, known_new. destruct (k =? u); cbn; auto.
      + intros m Hm. rewrite known_new. apply vals_dset in Hm as [->|Hm]; [now rewrite Nat.eqb_refl|].
        now rewrite (b_vals0 _ Hm), orb_true_r.
      + intros m Hm. rewrite known_new, (b_wait0 _ Hm), orb_true_r. reflexivity.
      + cbn. rewrite fresh_count by easy. now rewrite b_count0.
      + intros Hoff c. rewrite known_new, lineage_new by easy. destruct (Nat.eqb_spec c u) as [->|]; cbn.
        * intros _. rewrite dmem_dset, Nat.eqb_refl. reflexivity.
        * intros Hc. rewrite dmem_dset, (b_lin0 Hoff c Hc), orb_true_r. reflexivity.
      + pose proof (dset_length_le u u (es_pop s)). lia.
    - destruct (uq_ask (es_q s)) as [[uid q]|e]; [|constructor; auto].
      destruct (dget uid (es_pop s)) as [p|] eqn:Ep; [|constructor; auto].
      assert (Hp : known p (es_c s) = true).
      { apply b_vals0. apply dget_some_in in Ep. apply in_map_iff. now exists (uid, p). }
      constructor; cbn [fst es_pop es_c es_wait es_num_ask]; auto.
      + intros k Hk. rewrite known_new, (b_keys0 _ Hk), orb_true_r. reflexivity.
      + intros m Hm. rewrite known_new, (b_vals0 _ Hm), orb_true_r. reflexivity.
      + intros m Hm. rewrite known_new, (b_wait0 _ Hm), orb_true_r. reflexivity.
      + cbn. rewrite fresh_count by easy. now rewrite b_count0.
      + intros Hoff c. rewrite known_new, lineage_new by easy. destruct (Nat.eqb_spec c u) as [->|]; cbn; auto.
  Qed.

  Lemma bounded_select s : (forall m, In m (es_choices only s) -> known m (es_c s) = true) ->
    length (ca_lineage (es_c s)) = es_num_ask s -> offsprings <> None -> bounded (select s).
  Proof.
    intros Hk Hc Ho. constructor; auto using select_nodup, select_size.
    - intros k H. apply Hk. now apply select_key.
    - intros m H. apply Hk. now apply select_members.
  Qed.

  Lemma bounded_tell c l s : known c (es_c s) = true -> bounded s -> bounded (tell c (Some l) s).
  Proof.
    intros Hc Hb. pose proof Hb as []. unfold es_tell. destruct offsprings as [off|] eqn:Eo.
    - set (s1 := if (_ && _)%bool then _ else _).
      assert (H1 : bounded s1).
      { subst s1. match goal with |- context [if ?b then _ else _] => destruct b eqn:E end.
        - apply andb_true_iff in E as [_ E]. apply Nat.ltb_lt in E.
          constructor; cbn [es_pop es_c es_wait es_num_ask]; auto.
          + now apply dset_keys_nodup.
          + intros k. rewrite dmem_dset. destruct (Nat.eqb_spec k c) as [->|]; cbn; auto.
          + intros m Hm. apply vals_dset in Hm as [->|Hm]; auto.
          + intros Hoff. rewrite Eo in Hoff. easy.
          + pose proof (dset_length_le c c (es_pop s)). lia.
        - constructor; cbn [es_pop es_c es_wait es_num_ask]; auto; [|congruence].
          intros m Hm. apply in_app_or in Hm as [Hm|[<-|[]]]; auto. }
      destruct (_ <=? _)%nat; [|exact H1]. destruct H1.
      assert (HB : forall s0, (forall m, In m (es_choices only s0) -> known m (es_c s0) = true) ->
                length (ca_lineage (es_c s0)) = es_num_ask s0 -> bounded (select s0)).
      { intros s0 A B. apply bounded_select; auto. now rewrite Eo. }
      apply HB; [|assumption].
      intros m Hm. unfold es_choices in Hm. apply in_app_or in Hm as [Hm|Hm]; auto. destruct only; [easy|auto].
    - assert (Hl : dmem (lineage c (es_c s)) (es_pop s) = true) by (apply b_lin0; auto).
      constructor; cbn [es_pop es_c es_wait es_num_ask]; auto.
      + destruct (lo_lt _ _); [now apply dset_keys_nodup|auto].
      + intros k. destruct (lo_lt _ _); [|auto]. rewrite dmem_dset. destruct (Nat.eqb_spec k (lineage c (es_c s))) as [->|]; cbn; auto.
      + intros m. destruct (lo_lt _ _); [|auto]. intros Hm. apply vals_dset in Hm as [->|Hm]; auto.
      + intros Hoff c' Hc'. destruct (lo_lt _ _); [|auto]. rewrite dmem_dset, (b_lin0 eq_refl c' Hc'), orb_true_r. reflexivity.
      + destruct (lo_lt _ _); [|auto]. rewrite dset_length_old by exact Hl. auto.
  Qed.

  Lemma bounded_reach s : es_reach popsize offsprings only rank no_injection s -> bounded s.
  Proof.
    induction 1 as [|s o H IH Ho Ha].
    - constructor; cbn; try easy; [constructor|lia].
    - destruct o as [u|u lin par|c l0 l|c]; cbn [es_step fst]; [|easy| |exact IH].
      + now apply bounded_ask.
      + apply bounded_tell; [exact Ho|]. destruct IH; constructor; auto.
  Qed.

  (** *** asks do not fail *)
  Lemma es_ask_ok s u : es_config_ok popsize offsprings only -> 1 <= popsize ->
    (forall s l, rank s l = None) ->
    es_reach popsize offsprings only rank any_op s -> exists s', es_ask popsize u s = (s', Ok u).
  Proof.
    intros Hcfg Hp Hr Hreach.
    assert (Hne : forall s, es_reach popsize offsprings only rank any_op s ->
                  es_num_ask s = 0 \/ es_pop s <> []).
    { clear s Hreach. induction 1 as [|s o H IH Ho Ha]; [now left|].
      assert (Hd : forall k (v : nat) d, dset k v d <> []).
      { intros k v d. destruct d as [|[k2 v2] d]; cbn; [easy|]. now destruct (k =? k2). }
      destruct o as [v|v lin par|c l0 l|c]; cbn [es_step fst]; auto.
      - unfold es_ask. destruct (Nat.ltb_spec (es_num_ask s) popsize); cbn [fst es_pop es_num_ask]; [now right|].
        destruct (uq_ask (es_q s)) as [[uid q]|e]; [|auto].
        destruct (dget uid (es_pop s)) as [p|] eqn:Ep; cbn [fst es_pop es_num_ask]; [|auto].
        right. intros Hn. rewrite Hn in Ep. discriminate.
      - right. unfold es_tell. destruct offsprings as [off|] eqn:Eo.
        + match goal with |- context [if (?x && ?y)%bool then ?a else ?b] => set (s1 := if (x && y)%bool then a else b) end.
          destruct (Nat.leb_spec off (length (es_wait s1))) as [Hw|Hw].
          * apply select_nonempty; auto. intros Hc. unfold es_choices in Hc. apply app_eq_nil in Hc as [Hc1 Hc2].
            destruct only eqn:Eon.
            { destruct (Hcfg eq_refl) as (o' & [= <-] & Ho'). rewrite Hc1 in Hw. cbn in Hw. lia. }
            subst s1. destruct (_ && _)%bool; cbn [es_wait es_pop] in *; [|destruct (es_wait s); discriminate].
            unfold dvals in Hc2. apply map_eq_nil in Hc2. now apply Hd in Hc2.
          * subst s1. destruct (_ && _)%bool eqn:Eb; cbn [es_wait es_pop] in *; [apply Hd|].
            destruct (es_pop s) eqn:Epop; [|easy].
            exfalso. cbn in Eb. rewrite andb_false_iff in Eb. destruct Eb as [Eb|Eb].
            { now destruct (dget c (ca_parent (es_c s))). }
            destruct popsize; [lia|discriminate].
        + cbn [es_pop]. cbn [es_c].
          destruct (dget _ (es_pop s)) as [m|] eqn:Em.
          * destruct (lo_lt _ _); [apply Hd|]. intros Hn. rewrite Hn in Em. discriminate.
          * cbn. apply Hd. }
    unfold es_ask. destruct (Nat.ltb_spec (es_num_ask s) popsize) as [|Hge]; [eauto|].
    pose proof (exact_reach _ _ Hreach) as Hq. destruct (Hne s Hreach) as [?|Hpop]; [lia|].
    destruct (uq_ask (es_q s)) as [[uid q]|e] eqn:E.
    - apply in_queue_ask in E as [E _]. apply Hq in E. unfold dmem in E.
      destruct (dget uid (es_pop s)) as [p|]; [eauto|discriminate].
    - exfalso. destruct (es_pop s) as [|[k v] d] eqn:Epop; [easy|].
      apply (uq_ask_err _ _ E k), Hq. rewrite Epop. unfold dmem. cbn. now rewrite Nat.eqb_refl.
  Qed.

  (** *** DE-like mode: each lineage improves *)
  Lemma lineage_step s o k m : offsprings = None -> op_ok (es_c s) o -> es_told_once s o ->
    dget k (es_pop s) = Some m -> bounded s ->
    exists m', dget k (es_pop (fst (step s o))) = Some m' /\
      le_loss (loss m' (es_c (fst (step s o)))) (loss m (es_c s)).
  Proof.
    intros Hoff Hok Hto Hm Hb.
    destruct o as [u|u lin par|c l0 l|c]; cbn [es_step fst].
    - cbn in Hok. unfold es_ask. destruct (_ <? _)%nat.
      + cbn [fst es_pop es_c]. rewrite dget_dset. destruct (Nat.eqb_spec k u) as [->|].
        * rewrite (b_keys _ Hb u) in Hok; [easy|]. now apply dget_mem in Hm.
        * exists m. split; [easy|]. apply le_loss_refl.
      + destruct (uq_ask (es_q s)) as [[uid q]|e]; [|exists m; split; [easy|apply le_loss_refl]].
        destruct (dget uid (es_pop s)); exists m; (split; [easy|apply le_loss_refl]).
    - exists m. split; [easy|apply le_loss_refl].
    - destruct Hto as [Hc0 Hl]. unfold es_tell. rewrite Hoff. cbn [es_c es_pop].
      assert (HL : forall x, x <> c -> loss x (set_cand_loss c l0 (es_c s)) = loss x (es_c s)).
      { intros x Hx. unfold loss, set_cand_loss. cbn. rewrite dget_dset. destruct (Nat.eqb_spec x c); easy. }
      assert (HLc : loss c (set_cand_loss c l0 (es_c s)) = Some l0).
      { unfold loss, set_cand_loss. cbn. now rewrite dget_dset, Nat.eqb_refl. }
      assert (Hdec : le_loss (loss m (set_cand_loss c l0 (es_c s))) (loss m (es_c s))).
      { destruct (Nat.eq_dec m c) as [->|Hne]; [rewrite Hc0; rewrite HLc; exact I|].
        rewrite HL by easy. apply le_loss_refl. }
      change (lineage c (set_cand_loss c l0 (es_c s))) with (lineage c (es_c s)).
      destruct (Nat.eq_dec k (lineage c (es_c s))) as [->|Hk].
      + rewrite Hm. destruct (lo_lt (Some l) (loss m _)) eqn:E.
        * exists c. rewrite dget_dset, Nat.eqb_refl. split; [easy|]. rewrite HLc.
          apply lo_lt_iff, lt_le_loss in E. eapply le_loss_trans; [|exact Hdec]. eapply le_loss_trans; [|exact E]. exact Hl.
        * exists m. auto.
      + exists m. split; [|exact Hdec]. destruct (lo_lt _ _); [|exact Hm]. rewrite dget_dset.
        destruct (Nat.eqb_spec k (lineage c (es_c s))); congruence.
    - exists m. split; [easy|apply le_loss_refl].
  Qed.
End ES.

(** ** DE *)
Section DE.
  Variables (llambda : nat) (propagate : bool).
  Notation step := (de_step llambda propagate).
  Notation tna := (de_tell_not_asked llambda).

  (** *** the individual with the worst loss *)
  Lemma worst_from_spec k l : forall b, let w := worst_from k b l in
    (w = b \/ In w l) /\ le_loss (loss (snd b) k) (loss (snd w) k) /\
    forall x, In x l -> le_loss (loss (snd x) k) (loss (snd w) k).
  Proof.
    induction l as [|y l IH]; intros b; cbn [worst_from].
    - split; [now left|]. split; [apply le_loss_refl|easy].
    - destruct (lo_lt (loss (snd b) k) (loss (snd y) k)) eqn:E.
      + destruct (IH y) as (A & B & C). apply lo_lt_iff, lt_le_loss in E.
        split; [destruct A as [->|]; [right; now left|right; now right]|].
        split; [eapply le_loss_trans; eauto|]. intros x [<-|H]; auto.
      + destruct (IH b) as (A & B & C). apply lo_lt_false in E.
        split; [destruct A; [now left|right; now right]|]. split; [exact B|].
        intros x [<-|H]; auto. eapply le_loss_trans; eauto.
  Qed.
  Lemma worst_spec k l u w : worst k l = Some (u, w) ->
    In (u, w) l /\ forall x, In x l -> le_loss (loss (snd x) k) (loss w k).
  Proof.
    destruct l as [|b l]; [easy|]. cbn. intros [= H]. destruct (worst_from_spec k l b) as (A & B & C).
    rewrite H in *. cbn in *. split; [destruct A as [->|]; auto|]. intros x [<-|Hx]; auto.
  Qed.
  Lemma worst_none k l : worst k l = None -> l = [].
  Proof. now destruct l. Qed.

  (** *** any history: size, and the queue misses no individual *)
  Definition covers (s : dest) : Prop := forall u, dmem u (de_pop s) = true -> in_queue u (de_q s).
  Definition sized (s : dest) : Prop := NoDup (dkeys (de_pop s)) /\ length (de_pop s) <= llambda.

  Lemma list_remove1_in u l x : forall r, list_remove1 u l = Some r -> In x l -> x <> u -> In x r.
  Proof.
    induction l as [|y l IH]; intros r; cbn; [easy|]. destruct (Nat.eqb_spec u y) as [->|].
    - intros [= <-] [->|H]; easy.
    - destruct (list_remove1 u l) as [r'|]; [|easy]. intros [= <-] [->|H] Hx; [now left|right; auto].
  Qed.
  Lemma list_remove1_none u l : list_remove1 u l = None -> ~ In u l.
  Proof.
    induction l as [|y l IH]; cbn; [auto|]. destruct (Nat.eqb_spec u y) as [->|]; [easy|].
    destruct (list_remove1 u l); [easy|]. intros _ [->|H]; [easy|]. now apply IH.
  Qed.
  Lemma in_ddel_other {V} k x (d : list (nat * V)) : In x (dkeys d) -> x <> k -> In x (dkeys (ddel k d)).
  Proof.
    induction d as [|[k2 v2] d IH]; cbn; [easy|]. destruct (Nat.eqb_spec k k2) as [->|].
    - intros [->|H]; easy.
    - cbn. intros [->|H] Hx; [now left|right; auto].
  Qed.
  Lemma discard_keeps u q q' x : uq_discard u q = Ok q' -> in_queue x q -> x <> u -> in_queue x q'.
  Proof.
    unfold uq_discard, os_mem, os_discard, in_queue. destruct (dmem u (os_data (uq_asked q))).
    - cbn. intros [= <-] [H|H] Hx; [now left|right]. cbn. now apply in_ddel_other.
    - destruct (list_remove1 u (uq_told q)) eqn:E; [|easy]. intros [= <-] [H|H] Hx; cbn; [|now right].
      left. eapply list_remove1_in; eauto.
  Qed.
  Lemma discard_ok u q : in_queue u q -> exists q', uq_discard u q = Ok q'.
  Proof.
    unfold uq_discard, os_mem, os_discard, in_queue. intros H.
    destruct (dmem u (os_data (uq_asked q))) eqn:E; [cbn; eauto|].
    destruct (list_remove1 u (uq_told q)) eqn:E2; [eauto|]. apply list_remove1_none in E2.
    destruct H as [H|H]; [easy|]. apply dmem_in in H. congruence.
  Qed.

  Lemma tna_general mo c l s s' r : tna mo c l s = (s', r) -> sized s -> covers s -> sized s' /\ covers s'.
  Proof.
    intros E [Hn Hl] Hc. unfold de_tell_not_asked in E.
    destruct (de_discardable llambda mo c l s) as [d|e]; [|injection E as <- <-; split; [split|]; auto].
    assert (Hadd : forall s1 s2 r2, sized s1 -> covers s1 ->
      (if length (de_pop s1) <? llambda
       then (DESt (de_c s1) (dset c c (de_pop s1)) (uq_tell c (de_q s1)), Ok tt)
       else (s1, Ok tt)) = (s2, r2) -> sized s2 /\ covers s2).
    { intros s1 s2 r2 [A B] C. destruct (Nat.ltb_spec (length (de_pop s1)) llambda); intros [= <- <-]; [|split; [split|]; auto].
      split; [split; cbn|intros u; cbn].
      - now apply dset_keys_nodup.
      - pose proof (dset_length_le c c (de_pop s1)). lia.
      - rewrite dmem_dset, in_queue_tell. destruct (Nat.eqb_spec u c); cbn; auto. }
    destruct d as [uid|]; [|eapply Hadd; eauto; split; auto].
    destruct (dmem uid (de_pop s)) eqn:Em; [|injection E as <- <-; split; [split|]; auto].
    cbn [de_c de_pop de_q] in E.
    destruct (discard_ok uid (de_q s) (Hc _ Em)) as [q' Hq]. rewrite Hq in E.
    eapply Hadd; [| |exact E].
    - split; cbn [de_pop].
      + now apply ddel_keys_nodup.
      + pose proof (ddel_length uid (de_pop s) Em). lia.
    - intros u. cbn [de_pop de_q]. rewrite dmem_ddel by easy. rewrite andb_true_iff, negb_true_iff, Nat.eqb_neq.
      intros [Hne Hu]. eapply discard_keeps; eauto.
  Qed.

  Lemma general_step asked mo s o s' r : step asked mo s o = (s', r) -> sized s -> covers s -> sized s' /\ covers s'.
  Proof.
    intros E Hs Hc. pose proof Hs as [Hn Hl].
    assert (Htell : forall c l s, sized s -> covers s -> de_tell llambda propagate mo c l s = (s', r) -> sized s' /\ covers s').
    { clear. intros c l s Hs Hc E. pose proof Hs as [Hn Hl]. unfold de_tell in E.
      destruct (dget (lineage c (de_c s)) (de_pop s)) as [p|] eqn:Ep; [|eapply tna_general; eauto].
      apply dget_mem in Ep.
      assert (Hq : forall u, dmem u (de_pop s) = true -> in_queue u (uq_tell (lineage c (de_c s)) (de_q s))).
      { intros u Hu. apply in_queue_tell. right. auto. }
      destruct (match mo with None => _ | Some _ => _ end).
      - injection E as <- <-. split; [split; cbn|intros u; cbn].
        + now apply dset_keys_nodup.
        + now rewrite dset_length_old.
        + rewrite dmem_dset, orb_true_iff, Nat.eqb_eq. intros [->|]; auto.
      - destruct propagate; injection E as <- <-; (split; [split|]; auto). }
    destruct o as [u|u lin par|c l0 l|c]; cbn [de_step] in E.
    - unfold de_ask in E. destruct (Nat.ltb_spec (length (de_pop s)) llambda).
      + injection E as <- <-. split; [split; cbn|intros x; cbn].
        * now apply dset_keys_nodup.
        * pose proof (dset_length_le u u (de_pop s)). lia.
        * rewrite dmem_dset, orb_true_iff, Nat.eqb_eq, in_queue_add. intros [->|]; auto.
      + destruct (uq_ask (de_q s)) as [[lin q]|e] eqn:Eq; [|injection E as <- <-; auto].
        apply in_queue_ask in Eq as [_ Eq].
        destruct (dget lin (de_pop s)); injection E as <- <-; (split; [split; auto|]; intros x Hx; cbn; apply Eq, Hc, Hx).
    - injection E as <- <-. split; [split|]; auto.
    - destruct asked; [eapply Htell; [| |exact E]|eapply tna_general; [exact E| |]]; try (split; auto); auto.
    - eapply Htell; eauto.
  Qed.

  Lemma general_reach allowed single s out fin : de_reach llambda propagate allowed single s out fin -> sized s /\ covers s.
  Proof.
    induction 1 as [|s out fin o mo s' r H IH Ho Ha Hm E].
    - split; [split; cbn; [constructor|lia]|easy].
    - destruct IH. eapply general_step; eauto.
  Qed.

  (** *** one objective: what a tell does *)
  Definition maximal (s : dest) (w m : nat) : Prop :=
    dget w (de_pop s) = Some m /\
    forall k x, dget k (de_pop s) = Some x -> le_loss (loss x (de_c s)) (loss m (de_c s)).

  Lemma tna_single c l s s' r : 1 <= llambda -> sized s -> covers s -> tna None c l s = (s', r) ->
    r = Ok tt /\ de_c s' = de_c s /\
    (length (de_pop s) < llambda /\ de_pop s' = dset c c (de_pop s) /\ de_q s' = uq_tell c (de_q s) \/
     length (de_pop s) = llambda /\ exists w m, maximal s w m /\
       (lt_loss l (loss m (de_c s)) /\ de_pop s' = dset c c (ddel w (de_pop s)) /\
          (exists q, uq_discard w (de_q s) = Ok q /\ de_q s' = uq_tell c q)
        \/ le_loss (loss m (de_c s)) l /\ s' = s)).
  Proof.
    intros Hpos [Hn Hl] Hc E. unfold de_tell_not_asked, de_discardable in E.
    destruct (Nat.leb_spec llambda (length (de_pop s))) as [Hf|Hf].
    - destruct (worst (de_c s) (de_pop s)) as [[w m]|] eqn:Ew.
      2: { apply worst_none in Ew. rewrite Ew in Hf. cbn in Hf. lia. }
      apply worst_spec in Ew as [Hin Hmax].
      assert (Hw : dget w (de_pop s) = Some m) by now apply dget_in_nodup.
      assert (HM : maximal s w m).
      { split; [exact Hw|]. intros k x Hx. apply dget_some_in in Hx. apply (Hmax _ Hx). }
      destruct (lo_lt l (loss m (de_c s))) eqn:El.
      + pose proof (dget_mem _ _ _ Hw) as Hm. rewrite Hm in E. cbn [de_c de_pop de_q] in E.
        destruct (discard_ok w (de_q s) (Hc _ Hm)) as [q' Hq]. rewrite Hq in E. cbn [de_c de_pop de_q] in E.
        pose proof (ddel_length _ _ Hm). destruct (Nat.ltb_spec (length (ddel w (de_pop s))) llambda); [|lia].
        injection E as <- <-. split; [easy|]. split; [easy|]. right. split; [lia|]. exists w, m. split; [exact HM|]. left.
        apply lo_lt_iff in El. cbn. eauto.
      + destruct (Nat.ltb_spec (length (de_pop s)) llambda); [lia|]. injection E as <- <-.
        split; [easy|]. split; [easy|]. right. split; [lia|]. exists w, m. split; [exact HM|]. right.
        apply lo_lt_false in El. auto.
    - destruct (Nat.ltb_spec (length (de_pop s)) llambda); [|lia]. injection E as <- <-. cbn. auto 10.
  Qed.

  (** the result of a tell, never an exception *)
  Lemma tell_single asked c l0 l s s' r : 1 <= llambda -> sized s -> covers s ->
    step asked None s (OTell c l0 l) = (s', r) ->
    r = Ok tt /\ (forall x, loss x (de_c s') = if x =? c then Some l0 else loss x (de_c s)) /\
    match (if asked then dget (lineage c (de_c s)) (de_pop s) else None) with
    | Some m =>
        (le_loss (Some l) (loss m (de_c s')) /\ de_pop s' = dset (lineage c (de_c s)) c (de_pop s) \/
         lt_loss (loss m (de_c s')) (Some l) /\ de_pop s' = de_pop s)
    | None =>
        (length (de_pop s) < llambda /\ de_pop s' = dset c c (de_pop s)) \/
        (length (de_pop s) = llambda /\ exists w m, dget w (de_pop s) = Some m /\
           (forall k x, dget k (de_pop s) = Some x -> le_loss (loss x (de_c s')) (loss m (de_c s'))) /\
           (lt_loss (Some l) (loss m (de_c s')) /\ de_pop s' = dset c c (ddel w (de_pop s)) \/
            le_loss (loss m (de_c s')) (Some l) /\ de_pop s' = de_pop s))
    end.
  Proof.
    intros Hpos Hs Hc E. cbn [de_step] in E.
    set (s1 := DESt (set_cand_loss c l0 (de_c s)) (de_pop s) (de_q s)) in E.
    assert (HL : forall x, loss x (de_c s1) = if x =? c then Some l0 else loss x (de_c s)).
    { intros x. unfold loss, s1, set_cand_loss. cbn. rewrite dget_dset. now destruct (x =? c). }
    assert (HT : tna None c (Some l) s1 = (s', r) -> r = Ok tt /\ de_c s' = de_c s1 /\
       ((length (de_pop s) < llambda /\ de_pop s' = dset c c (de_pop s)) \/
        (length (de_pop s) = llambda /\ exists w m, dget w (de_pop s) = Some m /\
           (forall k x, dget k (de_pop s) = Some x -> le_loss (loss x (de_c s')) (loss m (de_c s'))) /\
           (lt_loss (Some l) (loss m (de_c s')) /\ de_pop s' = dset c c (ddel w (de_pop s)) \/
            le_loss (loss m (de_c s')) (Some l) /\ de_pop s' = de_pop s)))).
    { intros E'. destruct (tna_single c (Some l) s1 s' r Hpos Hs Hc E') as (A & B & C). rewrite B. split; [easy|]. split; [easy|].
      destruct C as [(C1 & C2 & _)|(C1 & w & m & (D1 & D2) & C2)]; [now left|]. right. split; [easy|].
      exists w, m. split; [easy|]. split; [exact D2|]. destruct C2 as [(F & G & _)|(F & ->)]; auto. }
    destruct asked.
    - unfold de_tell in E. change (lineage c (de_c s1)) with (lineage c (de_c s)) in E.
      change (de_pop s1) with (de_pop s) in E.
      destruct (dget (lineage c (de_c s)) (de_pop s)) as [m|].
      + destruct (lo_le (Some l) (loss m (de_c s1))) eqn:El.
        * injection E as <- <-. cbn [de_c de_pop]. split; [easy|]. split; [exact HL|]. left.
          apply lo_le_iff in El. auto.
        * apply lo_le_false in El.
          destruct propagate; injection E as <- <-; cbn [de_c de_pop]; (split; [easy|]; split; [exact HL|]; right; auto).
      + apply HT in E as (A & B & C). split; [easy|]. split; [now rewrite B|]. exact C.
    - apply HT in E as (A & B & C). split; [easy|]. split; [now rewrite B|]. exact C.
  Qed.

  (** a rejected candidate never evicts anybody *)
  Lemma reject_single asked c s s' r : 1 <= llambda -> sized s -> covers s ->
    step asked None s (OReject c) = (s', r) ->
    r = Ok tt /\ (forall x, loss x (de_c s') = loss x (de_c s)) /\
    (de_pop s' = de_pop s \/
     (exists m, dget (lineage c (de_c s)) (de_pop s) = Some m /\ loss m (de_c s) = None /\
        de_pop s' = dset (lineage c (de_c s)) c (de_pop s)) \/
     (dget (lineage c (de_c s)) (de_pop s) = None /\ length (de_pop s) < llambda /\ de_pop s' = dset c c (de_pop s))).
  Proof.
    intros Hpos Hs Hc E. cbn [de_step] in E. unfold de_tell in E.
    destruct (dget (lineage c (de_c s)) (de_pop s)) as [m|] eqn:Em.
    - destruct (lo_le None (loss m (de_c s))) eqn:El.
      + injection E as <- <-. split; [easy|]. split; [easy|]. right. left. exists m. split; [easy|].
        destruct (loss m (de_c s)); easy.
      + destruct propagate; injection E as <- <-; cbn [de_pop]; (split; [easy|]; split; [easy|]; auto).
    - destruct (tna_single _ _ _ _ _ Hpos Hs Hc E) as (A & B & C). split; [easy|]. split; [now rewrite B|].
      destruct C as [(C1 & C2 & _)|(C1 & w & x & M & [(F & _)|(_ & ->)])]; auto.
      destruct (loss x (de_c s)); easy.
  Qed.

  (** *** a told loss stays covered *)
  Lemma tell_covers asked c l0 l s s' r : 1 <= llambda -> sized s -> covers s -> (l0 <= l)%Q ->
    step asked None s (OTell c l0 l) = (s', r) -> covered (Some l) s'.
  Proof.
    intros Hpos Hs Hc Hl E. destruct (tell_single _ _ _ _ _ _ _ Hpos Hs Hc E) as (_ & HL & H).
    assert (Hself : le_loss (loss c (de_c s')) (Some l)) by (rewrite HL, Nat.eqb_refl; exact Hl).
    destruct (if asked then _ else _) as [m|] eqn:Em.
    - destruct asked; [|easy]. destruct H as [[_ Hp]|[Hlt Hp]].
      + exists (lineage c (de_c s)), c. rewrite Hp, dget_dset, Nat.eqb_refl. auto.
      + exists (lineage c (de_c s)), m. rewrite Hp. split; [easy|]. now apply lt_le_loss.
    - destruct H as [[_ Hp]|(_ & w & m & Hw & _ & [[_ Hp]|[Hle Hp]])].
      + exists c, c. rewrite Hp, dget_dset, Nat.eqb_refl. auto.
      + exists c, c. rewrite Hp, dget_dset, Nat.eqb_refl. auto.
      + exists w, m. rewrite Hp. auto.
  Qed.

  (** *** bookkeeping when each candidate is told at most once *)
  Record told_inv (s : dest) (out fin : list nat) : Prop := {
    ti_key : forall k, dmem k (de_pop s) = true -> known k (de_c s) = true;
    ti_val : forall k m, dget k (de_pop s) = Some m -> known m (de_c s) = true;
    ti_out : forall x, In x out -> known x (de_c s) = true;
    ti_fin : forall x, In x fin -> known x (de_c s) = true;
    ti_disj : forall x, In x out -> In x fin -> False;
    ti_loss : forall x, loss x (de_c s) <> None -> In x fin;
    ti_keys : forall k, dmem k (de_pop s) = true -> In k fin \/ (In k out /\ lineage k (de_c s) = k);
    ti_vals : forall k m, dget k (de_pop s) = Some m -> In m out -> m = k /\ lineage k (de_c s) = k }.

  Lemma in_others x c out : In x (filter (fun x => negb (x =? c)) out) <-> In x out /\ x <> c.
  Proof. rewrite filter_In, negb_true_iff, Nat.eqb_neq. tauto. Qed.

  (** the told candidate is not already a key when it comes in by itself *)
  Lemma not_key s out fin c asked : told_inv s out fin -> ~ In c fin ->
    (asked = false -> ~ In c out) ->
    (if asked : bool then dget (lineage c (de_c s)) (de_pop s) else None) = None ->
    dmem c (de_pop s) = false.
  Proof.
    intros HI Hf Ho E. destruct (dmem c (de_pop s)) eqn:Em; [|easy]. exfalso.
    destruct (ti_keys _ _ _ HI c Em) as [|[Hout Hlin]]; [easy|]. destruct asked.
    - rewrite Hlin in E. unfold dmem in Em. rewrite E in Em. discriminate.
    - now apply Ho.
  Qed.

  Lemma told_inv_put s s' out fin c k : told_inv s out fin -> known c (de_c s) = true ->
    (k = c \/ dmem k (de_pop s) = true) ->
    (forall x, known x (de_c s') = known x (de_c s)) ->
    (forall x, In x out -> lineage x (de_c s') = lineage x (de_c s)) ->
    (forall x, x <> c -> loss x (de_c s') = loss x (de_c s)) ->
    (de_pop s' = de_pop s \/ de_pop s' = dset k c (de_pop s) \/
     exists w, k = c /\ NoDup (dkeys (de_pop s)) /\ de_pop s' = dset c c (ddel w (de_pop s))) ->
    told_inv s' (filter (fun x => negb (x =? c)) out) (c :: fin).
  Proof.
    intros HI Hkc Hk HK HLin HLo Hpop.
    assert (Hkeys : forall x, dmem x (de_pop s') = true -> x = c \/ dmem x (de_pop s) = true).
    { intros x. destruct Hpop as [->|[->|(w & -> & Hn & ->)]]; [auto| |].
      - rewrite dmem_dset, orb_true_iff, Nat.eqb_eq. intros [->|]; auto.
      - rewrite dmem_dset, orb_true_iff, Nat.eqb_eq. intros [->|H]; [auto|].
        rewrite dmem_ddel in H by easy. apply andb_true_iff in H. tauto. }
    assert (Hget : forall x m, dget x (de_pop s') = Some m -> m = c \/ dget x (de_pop s) = Some m).
    { intros x m. destruct Hpop as [->|[->|(w & -> & Hn & ->)]]; [auto| |].
      - rewrite dget_dset. destruct (x =? k); [intros [= <-]|]; auto.
      - rewrite dget_dset. destruct (x =? c); [intros [= <-]; auto|].
        rewrite dget_ddel by easy. destruct (x =? w); [easy|auto]. }
    destruct HI. constructor.
    - intros x H. rewrite HK. destruct (Hkeys x H) as [->|]; auto.
    - intros x m H. rewrite HK. destruct (Hget _ _ H) as [->|]; eauto.
    - intros x H. apply in_others in H as [H _]. rewrite HK. auto.
    - intros x [<-|H]; rewrite HK; auto.
    - intros x H [<-|H']; apply in_others in H as [H Hne]; [easy|eauto].
    - intros x H. destruct (Nat.eq_dec x c) as [->|]; [now left|]. right. apply ti_loss0. now rewrite <- HLo.
    - intros x H. destruct (Hkeys x H) as [->|H']; [left; now left|].
      destruct (Nat.eq_dec x c) as [->|Hne]; [left; now left|].
      destruct (ti_keys0 x H') as [|[A B]]; [left; now right|]. right. rewrite HLin by easy.
      split; [now apply in_others|easy].
    - intros x m H Ho. apply in_others in Ho as [Ho Hne]. destruct (Hget _ _ H) as [->|H']; [easy|].
      destruct (ti_vals0 _ _ H' Ho) as [-> B]. now rewrite HLin by easy.
  Qed.

  Lemma told_step s out fin o s' r : 1 <= llambda -> sized s -> covers s -> op_ok (de_c s) o ->
    de_told_once out fin o -> told_inv s out fin ->
    step (is_asked out o) None s o = (s', r) ->
    told_inv s' (outstanding_after out o r) (done_after fin o).
  Proof.
    intros Hpos Hs Hc Hok Hto HI E. pose proof HI as [].
    assert (Hprop : forall k p c l, dget k (de_pop s) = Some p -> k = lineage c (de_c s) ->
      forall x, known x (Cands (dset p k (ca_lineage (de_c s))) (ca_parent (de_c s)) l) = known x (de_c s) /\
        (In x out -> lineage x (Cands (dset p k (ca_lineage (de_c s))) (ca_parent (de_c s)) l) = lineage x (de_c s))).
    { intros k p c l Hp Hk x. split.
      - unfold known. cbn. rewrite dmem_dset. destruct (Nat.eqb_spec x p) as [->|]; [|easy].
        symmetry. exact (ti_val0 _ _ Hp).
      - intros Hx. unfold lineage at 1. cbn. rewrite dget_dset. destruct (Nat.eqb_spec x p) as [->|]; [|easy].
        destruct (ti_vals0 _ _ Hp Hx) as [-> B]. easy. }
    destruct o as [u|u lin par|c l0 l|c].
    - (* ask *)
      cbn in Hok. cbn [de_step] in E. cbn [done_after].
      assert (Hfresh : forall x, known x (de_c s) = true -> x <> u) by (intros x Hx ->; congruence).
      assert (Hnew : forall lin par x, known x (new_cand u lin par (de_c s)) = (x =? u) || known x (de_c s)) by (intros; apply known_new).
      assert (Hlin : forall lin par x, x <> u -> lineage x (new_cand u lin par (de_c s)) = lineage x (de_c s)).
      { intros lin par x Hx. rewrite lineage_new by easy. now destruct (Nat.eqb_spec x u). }
      unfold de_ask in E. destruct (Nat.ltb_spec (length (de_pop s)) llambda).
      + injection E as <- <-. cbn [outstanding_after]. constructor; cbn [de_c de_pop].
        * intros k. rewrite dmem_dset, Hnew, !orb_true_iff. intros [|]; auto.
        * intros k m. rewrite dget_dset, Hnew. destruct (k =? u); [intros [= <-]; now rewrite Nat.eqb_refl|].
          intros Hm. rewrite (ti_val0 _ _ Hm). apply orb_true_r.
        * intros x [<-|Hx]; rewrite Hnew; [now rewrite Nat.eqb_refl|]. rewrite (ti_out0 _ Hx). apply orb_true_r.
        * intros x Hx. rewrite Hnew, (ti_fin0 _ Hx). apply orb_true_r.
        * intros x [<-|Hx] Hf; [|eauto]. now apply (Hfresh u); auto.
        * intros x Hx. apply ti_loss0. exact Hx.
        * intros k. rewrite dmem_dset, orb_true_iff, Nat.eqb_eq. intros Hk.
          destruct (Nat.eq_dec k u) as [->|Hne].
          { right. split; [now left|]. rewrite lineage_new by easy. now rewrite Nat.eqb_refl. }
          destruct Hk as [|Hk]; [easy|]. destruct (ti_keys0 k Hk) as [|[A B]]; [now left|]. right.
          split; [now right|]. now rewrite Hlin.
        * intros k m. rewrite dget_dset. destruct (Nat.eqb_spec k u) as [->|Hne].
          { intros [= <-] _. split; [easy|]. rewrite lineage_new by easy. now rewrite Nat.eqb_refl. }
          intros Hm [<-|Hx].
          { exfalso. apply (Hfresh u); auto. eapply ti_val0; eauto. }
          destruct (ti_vals0 _ _ Hm Hx) as [-> B]. split; [easy|]. now rewrite Hlin.
      + destruct (uq_ask (de_q s)) as [[lin q]|e]; [|injection E as <- <-; exact HI].
        destruct (dget lin (de_pop s)) as [p|]; injection E as <- <-; cbn [outstanding_after].
        2: { constructor; auto. }
        constructor; cbn [de_c de_pop].
        * intros k Hk. rewrite Hnew, (ti_key0 _ Hk). apply orb_true_r.
        * intros k m Hm. rewrite Hnew, (ti_val0 _ _ Hm). apply orb_true_r.
        * intros x [<-|Hx]; rewrite Hnew; [now rewrite Nat.eqb_refl|]. rewrite (ti_out0 _ Hx). apply orb_true_r.
        * intros x Hx. rewrite Hnew, (ti_fin0 _ Hx). apply orb_true_r.
        * intros x [<-|Hx] Hf; [|eauto]. now apply (Hfresh u); auto.
        * intros x Hx. apply ti_loss0. exact Hx.
        * intros k Hk. destruct (ti_keys0 k Hk) as [|[A B]]; [now left|]. right.
          split; [now right|]. rewrite Hlin; auto.
        * intros k m Hm [<-|Hx].
          { exfalso. apply (Hfresh u); auto. eapply ti_val0; eauto. }
          destruct (ti_vals0 _ _ Hm Hx) as [-> B]. split; [easy|]. rewrite Hlin; auto.
    - (* new *)
      injection E as <- <-. cbn in Hok |- *.
      assert (Hfresh : forall x, known x (de_c s) = true -> x <> u) by (intros x Hx ->; congruence).
      assert (Hlin : forall x, x <> u -> lineage x (new_cand u lin par (de_c s)) = lineage x (de_c s)).
      { intros x Hx. rewrite lineage_new by easy. now destruct (Nat.eqb_spec x u). }
      constructor; cbn [de_c de_pop].
      + intros k Hk. rewrite known_new, (ti_key0 _ Hk). apply orb_true_r.
      + intros k m Hm. rewrite known_new, (ti_val0 _ _ Hm). apply orb_true_r.
      + intros x Hx. rewrite known_new, (ti_out0 _ Hx). apply orb_true_r.
      + intros x Hx. rewrite known_new, (ti_fin0 _ Hx). apply orb_true_r.
      + auto.
      + intros x Hx. apply ti_loss0. exact Hx.
      + intros k Hk. destruct (ti_keys0 k Hk) as [|[A B]]; [now left|]. right. rewrite Hlin; auto.
      + intros k m Hm Hx. destruct (ti_vals0 _ _ Hm Hx) as [-> B]. rewrite Hlin; auto.
    - (* tell *)
      pose proof (tell_single _ _ _ _ _ _ _ Hpos Hs Hc E) as (Hr & HL & H). subst r. cbn [outstanding_after done_after].
      cbn in Hok.
      set (asked := is_asked out (OTell c l0 l)) in *.
      assert (Hc' : (forall x, known x (de_c s') = known x (de_c s)) /\
                    (forall x, In x out -> lineage x (de_c s') = lineage x (de_c s))).
      { cbn [de_step] in E. destruct asked.
        - unfold de_tell in E. cbn [de_c de_pop de_q] in E.
          change (lineage c (set_cand_loss c l0 (de_c s))) with (lineage c (de_c s)) in E.
          destruct (dget (lineage c (de_c s)) (de_pop s)) as [p|] eqn:Ep.
          + destruct (lo_le _ _); [injection E as <-; auto|].
            destruct propagate; injection E as <-; [|auto]. cbn [de_c].
            split; intros x; apply (Hprop _ _ _ (dset c l0 (ca_loss (de_c s))) Ep eq_refl x).
          + destruct (tna_single c (Some l) (DESt (set_cand_loss c l0 (de_c s)) (de_pop s) (de_q s)) s' (Ok tt) Hpos Hs Hc E) as (_ & B & _).
            rewrite B. auto.
        - destruct (tna_single c (Some l) (DESt (set_cand_loss c l0 (de_c s)) (de_pop s) (de_q s)) s' (Ok tt) Hpos Hs Hc E) as (_ & B & _).
          rewrite B. auto. }
      destruct Hc' as [HK HLin].
      assert (HLo : forall x, x <> c -> loss x (de_c s') = loss x (de_c s)).
      { intros x Hx. rewrite HL. now destruct (Nat.eqb_spec x c). }
      destruct (if asked then _ else _) as [m|] eqn:Em.
      + destruct asked; [|easy]. eapply (told_inv_put s s' out fin c (lineage c (de_c s))); eauto using dget_mem.
        destruct H as [[_ ->]|[_ ->]]; auto.
      + eapply (told_inv_put s s' out fin c c); eauto.
        destruct H as [[_ ->]|(_ & w & m & _ & _ & [[_ ->]|[_ ->]])]; auto.
        right. right. exists w. split; [easy|]. split; [apply Hs|easy].
    - (* reject *)
      pose proof (reject_single _ _ _ _ _ Hpos Hs Hc E) as (Hr & HL & H). subst r. cbn [outstanding_after done_after].
      cbn in Hok.
      assert (Hc' : (forall x, known x (de_c s') = known x (de_c s)) /\
                    (forall x, In x out -> lineage x (de_c s') = lineage x (de_c s))).
      { cbn [de_step] in E. unfold de_tell in E.
        destruct (dget (lineage c (de_c s)) (de_pop s)) as [p|] eqn:Ep.
        - destruct (lo_le _ _); [injection E as <-; auto|].
          destruct propagate; injection E as <-; [|auto]. cbn [de_c].
          split; intros x; apply (Hprop _ _ _ (ca_loss (de_c s)) Ep eq_refl x).
        - destruct (tna_single _ _ _ _ _ Hpos Hs Hc E) as (_ & B & _). rewrite B. auto. }
      destruct Hc' as [HK HLin].
      destruct H as [Hp|[(m & Hm & _ & Hp)|(_ & _ & Hp)]].
      + eapply (told_inv_put s s' out fin c c); eauto.
      + eapply (told_inv_put s s' out fin c (lineage c (de_c s))); eauto using dget_mem.
      + eapply (told_inv_put s s' out fin c c); eauto.
  Qed.

  Lemma told_reach (allowed : list nat -> list nat -> ev_op -> Prop) s out fin : 1 <= llambda ->
    (forall out fin o, allowed out fin o -> de_told_once out fin o) ->
    de_reach llambda propagate allowed true s out fin -> sized s /\ covers s /\ told_inv s out fin.
  Proof.
    intros Hpos Hal H. induction H as [|s out fin o mo s' r H IH Ho Ha Hm E].
    - split; [split; cbn; [constructor|lia]|]. split; [easy|]. constructor; cbn; easy.
    - specialize (Hm eq_refl). subst mo. destruct IH as (A & B & C).
      destruct (general_step _ _ _ _ _ _ E A B). split; [easy|]. split; [easy|].
      eapply (told_step s); eauto.
  Qed.

  Lemma covered_step L asked o s s' r out fin : 1 <= llambda -> sized s -> covers s -> told_inv s out fin ->
    op_ok (de_c s) o -> de_told_once out fin o -> asked = is_asked out o ->
    step asked None s o = (s', r) -> covered L s -> covered L s'.
  Proof.
    intros Hpos Hs Hc HI Hok Hto Hasked E (k & m & Hk & Hm). destruct o as [u|u lin par|c l0 l|c].
    - cbn [de_step] in E. unfold de_ask in E. destruct (_ <? _).
      + injection E as <- <-. exists k, m. cbn [de_pop de_c]. rewrite dget_dset.
        destruct (Nat.eqb_spec k u) as [->|]; [|split; easy].
        apply dget_mem, (ti_key _ _ _ HI) in Hk. cbn in Hok. congruence.
      + destruct (uq_ask (de_q s)) as [[lin q]|e]; [|injection E as <- <-; exists k, m; auto].
        destruct (dget lin (de_pop s)); injection E as <- <-; exists k, m; auto.
    - injection E as <- <-. exists k, m. auto.
    - destruct Hto as [Hfin Hl]. destruct (tell_single _ _ _ _ _ _ _ Hpos Hs Hc E) as (_ & HL & H).
      assert (Hnone : loss c (de_c s) = None).
      { destruct (loss c (de_c s)) eqn:El; [|easy]. exfalso. apply Hfin, (ti_loss _ _ _ HI). now rewrite El. }
      assert (Hdec : le_loss (loss m (de_c s')) L).
      { rewrite HL. destruct (Nat.eqb_spec m c) as [->|]; [|exact Hm]. rewrite Hnone in Hm. now destruct L. }
      assert (Hself : forall x, le_loss (Some l) x -> le_loss (loss c (de_c s')) x).
      { intros x Hx. rewrite HL, Nat.eqb_refl. eapply le_loss_trans; [|exact Hx]. exact Hl. }
      destruct (if asked then _ else _) as [p|] eqn:Em.
      + destruct asked; [|easy]. destruct H as [[Hle Hp]|[_ Hp]].
        * destruct (Nat.eq_dec k (lineage c (de_c s))) as [->|Hne].
          -- exists (lineage c (de_c s)), c. rewrite Hp, dget_dset, Nat.eqb_refl. split; [easy|].
             rewrite Hk in Em. injection Em as <-. apply Hself. eapply le_loss_trans; eauto.
          -- exists k, m. rewrite Hp, dget_dset. destruct (Nat.eqb_spec k (lineage c (de_c s))); [easy|auto].
        * exists k, m. rewrite Hp. auto.
      + assert (Hnk : dmem c (de_pop s) = false).
        { eapply not_key; eauto. intros Ha Ho. rewrite Ha in Hasked. cbn in Hasked. symmetry in Hasked.
          assert (X : existsb (Nat.eqb c) out = true) by (apply existsb_exists; exists c; split; [easy|apply Nat.eqb_refl]).
          congruence. }
        assert (Hkc : k =? c = false).
        { apply Nat.eqb_neq. intros ->. apply dget_mem in Hk. congruence. }
        destruct H as [[_ Hp]|(_ & w & x & Hw & Hmax & [[Hlt Hp]|[Hle Hp]])].
        * exists k, m. rewrite Hp, dget_dset, Hkc. auto.
        * destruct (Nat.eq_dec k w) as [->|Hne].
          -- exists c, c. rewrite Hp, dget_dset, Nat.eqb_refl. split; [easy|]. rewrite Hw in Hk. injection Hk as ->.
             apply Hself. eapply le_loss_trans; [|exact Hdec]. now apply lt_le_loss.
          -- exists k, m. rewrite Hp, dget_dset, Hkc. rewrite dget_ddel by apply Hs.
             destruct (Nat.eqb_spec k w); [easy|auto].
        * exists k, m. rewrite Hp. auto.
    - destruct (reject_single _ _ _ _ _ Hpos Hs Hc E) as (_ & HL & H).
      destruct H as [Hp|[(p & Hpk & Hpn & Hp)|(Hpk & _ & Hp)]].
      + exists k, m. rewrite Hp, HL. auto.
      + destruct (Nat.eq_dec k (lineage c (de_c s))) as [->|Hne].
        * rewrite Hk in Hpk. injection Hpk as <-. rewrite Hpn in Hm. destruct L; [easy|].
          exists (lineage c (de_c s)), c. rewrite Hp, dget_dset, Nat.eqb_refl. split; [easy|]. now destruct (loss c (de_c s')).
        * exists k, m. rewrite Hp, dget_dset, HL. destruct (Nat.eqb_spec k (lineage c (de_c s))); [easy|auto].
      + exists k, m. rewrite HL. split; [|exact Hm]. rewrite Hp, dget_dset.
        destruct (Nat.eqb_spec k c) as [->|]; [|easy].
        exfalso. apply dget_mem in Hk as Hmem. destruct (ti_keys _ _ _ HI c Hmem) as [Hf|[_ Hlin]].
        * eapply (ti_disj _ _ _ HI); eauto.
        * rewrite Hlin in Hpk. congruence.
  Qed.

  (** *** the queue as two disjoint lists *)
  Definition wfq (q : uq) : Prop := NoDup (uq_contents q).
  Notation waiting u q := (In u (uq_told q)).
  Notation pending u q := (In u (os_iter (uq_asked q))).

  Lemma wfq_iff q : wfq q <-> NoDup (uq_told q) /\ os_wf (uq_asked q) /\ forall x, waiting x q -> pending x q -> False.
  Proof.
    unfold wfq, uq_contents, os_wf. generalize (uq_told q) (os_iter (uq_asked q)). clear.
    intros a b. induction a as [|x a IH]; cbn.
    - split; [intros H; split; [constructor|auto]|tauto].
    - rewrite !NoDup_cons_iff, in_app_iff, IH. firstorder congruence.
  Qed.

  Lemma wfq_tell u q : wfq q -> ~ waiting u q ->
    wfq (uq_tell u q) /\ (forall x, waiting x (uq_tell u q) <-> waiting x q \/ x = u) /\
    (forall x, pending x (uq_tell u q) <-> pending x q /\ x <> u).
  Proof.
    intros H Hu. apply wfq_iff in H as (A & B & C).
    assert (HW : forall x, waiting x (uq_tell u q) <-> waiting x q \/ x = u).
    { intros x. unfold uq_tell. cbn [uq_told]. rewrite in_app_iff. cbn. intuition. }
    assert (HP : os_wf (uq_asked (uq_tell u q)) /\ forall x, pending x (uq_tell u q) <-> pending x q /\ x <> u).
    { unfold uq_tell. cbn [uq_asked]. destruct (os_mem u (uq_asked q)) eqn:E.
      - pose proof (os_discard_spec u _ B) as D. unfold os_mem in E. unfold os_discard in *. rewrite E in *.
        destruct D as [_ D]. unfold os_wf. rewrite D. split; [now apply spec_remove_nodup|]. intros x. apply in_spec_remove.
      - split; [exact B|]. intros x. split; [|tauto]. intros Hx. split; [exact Hx|]. intros ->.
        apply dmem_in in Hx. unfold os_mem in E. congruence. }
    destruct HP as [HP1 HP2]. split; [|split; assumption]. apply wfq_iff. split; [|split; [exact HP1|]].
    - unfold uq_tell. cbn [uq_told]. now apply NoDup_app_snoc.
    - intros x. rewrite HW, HP2. intros [Hx| ->] [Hy Hne]; [eauto|easy].
  Qed.

  Lemma wfq_add u q : wfq q -> ~ waiting u q ->
    let q' := UQ (uq_told q) (os_add u (uq_asked q)) in
    wfq q' /\ (forall x, waiting x q' <-> waiting x q) /\ (forall x, pending x q' <-> pending x q \/ x = u).
  Proof.
    intros H Hu q'. apply wfq_iff in H as (A & B & C).
    assert (HP : forall x, pending x q' <-> pending x q \/ x = u) by (intros x; unfold q'; cbn [uq_asked]; rewrite in_os_add; tauto).
    split; [|split; [easy|exact HP]]. apply wfq_iff. split; [exact A|]. split; [now apply os_add_wf|].
    intros x Hx. rewrite HP. intros [H'| ->]; eauto.
  Qed.

  Lemma wfq_ask q t l : wfq q -> uq_told q = t :: l ->
    exists q', uq_ask q = Ok (t, q') /\ wfq q' /\ (forall x, waiting x q' <-> waiting x q /\ x <> t) /\
      (forall x, pending x q' <-> pending x q \/ x = t).
  Proof.
    intros H Ht. apply wfq_iff in H as (A & B & C). unfold uq_ask. rewrite Ht in *. eexists. split; [reflexivity|].
    inversion A as [|? ? A1 A2]; subst.
    assert (HW : forall x, In x l <-> In x (t :: l) /\ x <> t).
    { intros x. cbn. split; [intros Hx; split; [auto|intros ->; easy]|intros [[Hx|Hx] Hne]; [congruence|exact Hx]]. }
    assert (HP : forall x, In x (os_iter (os_add t (uq_asked q))) <-> pending x q \/ x = t) by (intros x; rewrite in_os_add; tauto).
    split; [|cbn [uq_told uq_asked]; split; [exact HW|exact HP]].
    apply wfq_iff. cbn [uq_told uq_asked]. split; [exact A2|]. split; [now apply os_add_wf|].
    intros x Hx. rewrite HP. intros [H'| ->]; [|easy]. eapply C; eauto. now right.
  Qed.

  Lemma wfq_discard u q q' : wfq q -> uq_discard u q = Ok q' ->
    wfq q' /\ (forall x, waiting x q' <-> waiting x q /\ x <> u) /\ (forall x, pending x q' <-> pending x q /\ x <> u).
  Proof.
    intros H E. apply wfq_iff in H as (A & B & C). unfold uq_discard in E.
    assert (HX : (forall x, waiting x q' <-> waiting x q /\ x <> u) /\ (forall x, pending x q' <-> pending x q /\ x <> u)
       /\ NoDup (uq_told q') /\ os_wf (uq_asked q')).
    { destruct (os_mem u (uq_asked q)) eqn:Em.
      - pose proof (os_discard_spec u _ B) as D. destruct (os_discard u (uq_asked q)) as [a|]; [|easy]. cbn in E.
        injection E as <-. cbn [uq_told uq_asked]. destruct D as [D1 D2]. unfold os_wf. rewrite D2. repeat split.
        + intros; assumption.
        + intros ->. eauto.
        + tauto.
        + now apply in_spec_remove in H.
        + now apply in_spec_remove in H.
        + intros H. now apply in_spec_remove.
        + exact A.
        + now apply spec_remove_nodup.
      - pose proof (list_remove1_spec u _ A) as D. destruct (list_remove1 u (uq_told q)) as [l|]; [|easy].
        injection E as <-. cbn [uq_told uq_asked]. destruct D as [D1 ->]. repeat split.
        + now apply in_spec_remove in H.
        + now apply in_spec_remove in H.
        + intros H. now apply in_spec_remove.
        + exact H.
        + intros ->. apply dmem_in in H. unfold os_mem in Em. congruence.
        + tauto.
        + now apply spec_remove_nodup.
        + exact B. }
    destruct HX as (W & P & N & O). split; [|auto]. apply wfq_iff. split; [exact N|]. split; [exact O|].
    intros x. rewrite W, P. intros [? ?] [? ?]. eauto.
  Qed.

  (** *** with fewer than [llambda] outstanding candidates *)
  Record workers_inv (s : dest) (out fin : list nat) : Prop := {
    wi_wf : wfq (de_q s);
    wi_queue : forall u, (waiting u (de_q s) \/ pending u (de_q s)) <-> dmem u (de_pop s) = true;
    wi_pending : forall u, pending u (de_q s) <-> dmem u (de_pop s) = true /\ exists c, In c out /\ lineage c (de_c s) = u;
    wi_inj : forall c c', In c out -> In c' out -> lineage c (de_c s) = lineage c' (de_c s) -> c = c';
    wi_lin : forall c, In c out -> lineage c (de_c s) = c \/ In (lineage c (de_c s)) fin }.

  Lemma workers_put s s' out fin c : workers_inv s out fin -> ~ In c fin ->
    (forall x, In x out -> lineage x (de_c s') = lineage x (de_c s)) ->
    (let k := lineage c (de_c s) in
     In c out /\ dmem k (de_pop s) = true /\ de_q s' = uq_tell k (de_q s) /\
       (forall x, dmem x (de_pop s') = dmem x (de_pop s)) \/
     dmem c (de_pop s) = false /\ (In c out -> dmem k (de_pop s) = false) /\
       (de_q s' = uq_tell c (de_q s) /\ (forall x, dmem x (de_pop s') = (x =? c) || dmem x (de_pop s)) \/
        (exists w q, uq_discard w (de_q s) = Ok q /\ de_q s' = uq_tell c q /\
           (forall x, dmem x (de_pop s') = (x =? c) || (negb (x =? w) && dmem x (de_pop s)))) \/
        de_q s' = de_q s /\ de_pop s' = de_pop s)) ->
    workers_inv s' (filter (fun x => negb (x =? c)) out) (c :: fin).
  Proof.
    intros HW Hf Hlin H. pose proof HW as [].
    assert (Hinj : forall x y, In x (filter (fun x => negb (x =? c)) out) -> In y (filter (fun x => negb (x =? c)) out) ->
      lineage x (de_c s') = lineage y (de_c s') -> x = y).
    { intros x y Hx Hy. apply in_others in Hx as [Hx _]. apply in_others in Hy as [Hy _].
      rewrite !Hlin by easy. auto. }
    assert (Hl : forall x, In x (filter (fun x => negb (x =? c)) out) ->
      lineage x (de_c s') = x \/ In (lineage x (de_c s')) (c :: fin)).
    { intros x Hx. apply in_others in Hx as [Hx _]. rewrite Hlin by easy. destruct (wi_lin0 x Hx); [auto|right; now right]. }
    assert (Hnc : forall x, In x out -> x <> c -> lineage x (de_c s) <> c).
    { intros x Hx Hne Heq. destruct (wi_lin0 x Hx) as [H'|H']; [congruence|]. rewrite Heq in H'. easy. }
    destruct H as [(Ho & Hm & Hq & Hp)|(Hnk & Hnl & H)].
    - set (k := lineage c (de_c s)) in *.
      assert (Hpk : pending k (de_q s)) by (apply wi_pending0; split; [easy|]; now exists c).
      assert (Hnw : ~ waiting k (de_q s)) by (apply wfq_iff in wi_wf0 as (_ & _ & D); intros X; eapply (D k); eauto).
      destruct (wfq_tell k _ wi_wf0 Hnw) as (A & B & C).
      constructor; rewrite ?Hq; auto.
      + intros x. rewrite Hp, B, C, <- wi_queue0. destruct (Nat.eq_dec x k) as [->|]; tauto.
      + intros x. rewrite C, Hp, wi_pending0. split.
        * intros [[H1 (y & H2 & H3)] Hne]. split; [easy|]. exists y. rewrite Hlin by easy. split; [|easy].
          apply in_others. split; [easy|]. intros ->. now apply Hne.
        * intros [H1 (y & H2 & H3)]. apply in_others in H2 as [H2 Hne]. rewrite Hlin in H3 by easy.
          split; [split; [easy|]; eauto|]. intros ->. apply Hne. now apply wi_inj0.
    - assert (Hnq : ~ waiting c (de_q s) /\ ~ pending c (de_q s)).
      { pose proof (wi_queue0 c). rewrite Hnk in H0. intuition. }
      destruct H as [[Hq Hp]|[(w & q & Hd & Hq & Hp)|[Hq Hp]]].
      + destruct (wfq_tell c _ wi_wf0 (proj1 Hnq)) as (A & B & C).
        constructor; rewrite ?Hq; auto.
        * intros x. rewrite Hp, B, C, orb_true_iff, Nat.eqb_eq, <- wi_queue0. destruct (Nat.eq_dec x c) as [->|]; tauto.
        * intros x. rewrite C, Hp, orb_true_iff, Nat.eqb_eq, wi_pending0. split.
          -- intros [[H1 (y & H2 & H3)] Hne]. split; [now right|]. exists y. rewrite Hlin by easy. split; [|easy].
             apply in_others. split; [easy|]. intros ->. rewrite H3 in Hnl. rewrite Hnl in H1; easy.
          -- intros [H1 (y & H2 & H3)]. apply in_others in H2 as [H2 Hne]. rewrite Hlin in H3 by easy.
             assert (x <> c) by (intros ->; now apply (Hnc y)). destruct H1 as [|H1]; [easy|].
             split; [split; [easy|]; eauto|easy].
      + destruct (wfq_discard _ _ _ wi_wf0 Hd) as (A0 & B0 & C0).
        assert (Hnw : ~ waiting c q) by (rewrite B0; tauto).
        destruct (wfq_tell c _ A0 Hnw) as (A & B & C).
        constructor; rewrite ?Hq; auto.
        * intros x. rewrite Hp, B, C, B0, C0, orb_true_iff, andb_true_iff, negb_true_iff, Nat.eqb_eq, Nat.eqb_neq, <- wi_queue0.
          destruct (Nat.eq_dec x c) as [->|]; tauto.
        * intros x. rewrite C, C0, Hp, orb_true_iff, andb_true_iff, negb_true_iff, Nat.eqb_eq, Nat.eqb_neq, wi_pending0. split.
          -- intros [[[H1 (y & H2 & H3)] Hw] Hne]. split; [auto|]. exists y. rewrite Hlin by easy. split; [|easy].
             apply in_others. split; [easy|]. intros ->. rewrite H3 in Hnl. rewrite Hnl in H1; easy.
          -- intros [H1 (y & H2 & H3)]. apply in_others in H2 as [H2 Hne]. rewrite Hlin in H3 by easy.
             assert (x <> c) by (intros ->; now apply (Hnc y)). destruct H1 as [|[H1 H4]]; [easy|].
             split; [split; [split; [easy|]; eauto|easy]|easy].
      + constructor; rewrite ?Hq, ?Hp; auto.
        intros x. rewrite wi_pending0. split.
        * intros [H1 (y & H2 & H3)]. split; [easy|]. exists y. rewrite Hlin by easy. split; [|easy].
          apply in_others. split; [easy|]. intros ->. rewrite H3 in Hnl. rewrite Hnl in H1; easy.
        * intros [H1 (y & H2 & H3)]. apply in_others in H2 as [H2 Hne]. rewrite Hlin in H3 by easy. eauto.
  Qed.

  Lemma workers_tna c l s s' r out fin : 1 <= llambda -> sized s -> covers s -> workers_inv s out fin ->
    ~ In c fin -> dmem c (de_pop s) = false -> (In c out -> dmem (lineage c (de_c s)) (de_pop s) = false) ->
    tna None c l s = (s', r) -> r = Ok tt /\ workers_inv s' (filter (fun x => negb (x =? c)) out) (c :: fin).
  Proof.
    intros Hpos Hs Hc HW Hf Hnk Hnl E. destruct (tna_single _ _ _ _ _ Hpos Hs Hc E) as (A & B & C).
    split; [exact A|]. apply workers_put with (s := s); auto; [now rewrite B|]. right. split; [easy|]. split; [easy|].
    destruct C as [(_ & Hp & Hq)|(_ & w & m & _ & [(_ & Hp & q & Hd & Hq)|(_ & ->)])].
    - left. split; [easy|]. intros x. now rewrite Hp, dmem_dset.
    - right. left. exists w, q. split; [easy|]. split; [easy|]. intros x. rewrite Hp, dmem_dset, dmem_ddel by apply Hs. easy.
    - auto.
  Qed.

  Lemma workers_tell c l s s' r out fin : 1 <= llambda -> sized s -> covers s -> workers_inv s out fin ->
    (forall k m, dget k (de_pop s) = Some m -> In m out -> m = k /\ lineage k (de_c s) = k) ->
    (forall k, dmem k (de_pop s) = true -> In k fin \/ (In k out /\ lineage k (de_c s) = k)) ->
    In c out -> ~ In c fin -> de_tell llambda propagate None c l s = (s', r) ->
    r = Ok tt /\ workers_inv s' (filter (fun x => negb (x =? c)) out) (c :: fin).
  Proof.
    intros Hpos Hs Hc HW Hvals Hkeys Hin Hf E. unfold de_tell in E.
    destruct (dget (lineage c (de_c s)) (de_pop s)) as [p|] eqn:Ep.
    - apply dget_mem in Ep as Hmem.
      assert (Hsame : forall x, dmem x (dset (lineage c (de_c s)) c (de_pop s)) = dmem x (de_pop s)).
      { intros x. rewrite dmem_dset. destruct (Nat.eqb_spec x (lineage c (de_c s))) as [->|]; [|easy]. now rewrite Hmem. }
      assert (Hlin : forall x, In x out ->
        lineage x (Cands (dset p (lineage c (de_c s)) (ca_lineage (de_c s))) (ca_parent (de_c s)) (ca_loss (de_c s))) = lineage x (de_c s)).
      { intros x Hx. unfold lineage at 1. cbn [ca_lineage]. rewrite dget_dset. destruct (Nat.eqb_spec x p) as [->|]; [|easy].
        destruct (Hvals _ _ Ep Hx) as [-> B]. symmetry. exact B. }
      destruct (lo_le l (loss p (de_c s))); [|destruct propagate]; injection E as <- <-; (split; [easy|]);
        (eapply workers_put; [exact HW|exact Hf|cbn [de_c]; easy|]; left; cbn [de_q de_pop]; auto).
    - apply (workers_tna c l s s' r); auto.
      + destruct (dmem c (de_pop s)) eqn:Em; [|easy]. exfalso. destruct (Hkeys c Em) as [|[_ Hl]]; [easy|].
        rewrite Hl in Ep. unfold dmem in Em. rewrite Ep in Em. discriminate.
      + intros _. unfold dmem. now rewrite Ep.
  Qed.

  Lemma workers_step s out fin o s' r : 1 <= llambda -> sized s -> covers s -> op_ok (de_c s) o ->
    bounded_workers llambda out fin o -> told_inv s out fin -> workers_inv s out fin ->
    step (is_asked out o) None s o = (s', r) ->
    r = Ok tt /\ workers_inv s' (outstanding_after out o r) (done_after fin o).
  Proof.
    intros Hpos Hs Hc Hok [Hto Hbw] HI [] E.
    destruct o as [u|u lin par|c l0 l|c].
    - (* ask *)
      cbn in Hok. cbn [de_step] in E. cbn [done_after].
      assert (Hfresh : forall x, known x (de_c s) = true -> x <> u) by (intros x Hx ->; congruence).
      assert (Hlin : forall lin par x, In x out -> lineage x (new_cand u lin par (de_c s)) = lineage x (de_c s)).
      { intros lin par x Hx. rewrite lineage_new by easy. destruct (Nat.eqb_spec x u); [|easy].
        apply (ti_out _ _ _ HI), Hfresh in Hx. easy. }
      assert (Hlu : forall lin par, lineage u (new_cand u lin par (de_c s)) = lin).
      { intros lin par. rewrite lineage_new by easy. now rewrite Nat.eqb_refl. }
      assert (Hnot : forall c, In c out -> lineage c (de_c s) <> u).
      { intros c Hin Heq. destruct (wi_lin0 c Hin) as [H|H].
        - apply (ti_out _ _ _ HI) in Hin. apply Hfresh in Hin. congruence.
        - apply (ti_fin _ _ _ HI) in H. apply Hfresh in H. congruence. }
      unfold de_ask in E. destruct (Nat.ltb_spec (length (de_pop s)) llambda) as [Hlt|Hge].
      + injection E as <- <-. split; [easy|]. cbn [outstanding_after].
        assert (Hnu : dmem u (de_pop s) = false).
        { destruct (dmem u (de_pop s)) eqn:Em; [|easy]. apply (ti_key _ _ _ HI), Hfresh in Em. easy. }
        assert (Hnw : ~ waiting u (de_q s)).
        { intros H. assert (X : dmem u (de_pop s) = true) by (apply wi_queue0; now left). congruence. }
        destruct (wfq_add u _ wi_wf0 Hnw) as (A & B & C).
        constructor; cbn [de_c de_pop de_q].
        * exact A.
        * intros x. rewrite B, C, dmem_dset, orb_true_iff, Nat.eqb_eq, <- wi_queue0. tauto.
        * intros x. rewrite C, dmem_dset, orb_true_iff, Nat.eqb_eq, wi_pending0. split.
          -- intros [[H1 (c & H2 & H3)]| ->].
             ++ split; [now right|]. exists c. split; [now right|]. now rewrite Hlin.
             ++ split; [now left|]. exists u. split; [now left|]. apply Hlu.
          -- intros [H1 (c & [<-|H2] & H3)]; [rewrite Hlu in H3; auto|]. rewrite Hlin in H3 by easy.
             destruct H1 as [->|H1]; [now right|]. left. split; [easy|]. eauto.
        * intros c c' [<-|H1] [<-|H2]; rewrite ?Hlu, ?Hlin by easy; try easy; auto.
          -- intros Heq. symmetry in Heq. now apply Hnot in Heq.
          -- intros Heq. now apply Hnot in Heq.
        * intros c [<-|H1]; [left; apply Hlu|]. rewrite Hlin by easy. auto.
      + (* the population is full *)
        assert (Hcase : uq_told (de_q s) = [] \/ exists t rest, uq_told (de_q s) = t :: rest).
        { destruct (uq_told (de_q s)) as [|t rest]; [now left|right; now exists t, rest]. }
        destruct Hcase as [Et|(t & rest & Et)].
        { exfalso. assert (Hle : length (dkeys (de_pop s)) <= length (map (fun c => lineage c (de_c s)) out)).
          { apply NoDup_incl_length; [apply Hs|]. intros k Hk. apply dmem_in in Hk.
            pose proof (proj2 (wi_queue0 k) Hk) as [H|H]; [rewrite Et in H; easy|].
            apply wi_pending0 in H as [_ (c & H1 & <-)]. now apply in_map with (f := fun c => lineage c (de_c s)). }
          unfold dkeys in Hle. rewrite !map_length in Hle. cbn in Hbw. lia. }
        destruct (wfq_ask _ _ _ wi_wf0 Et) as (q & Eq & A & B & C). rewrite Eq in E.
        assert (Hmem : dmem t (de_pop s) = true) by (apply wi_queue0; left; rewrite Et; now left).
        assert (Hnp : ~ pending t (de_q s)).
        { apply wfq_iff in wi_wf0 as (_ & _ & D). intros H. eapply (D t); eauto. rewrite Et. now left. }
        assert (Hfree : forall c, In c out -> lineage c (de_c s) <> t).
        { intros c Hin Heq. apply Hnp, wi_pending0. split; [easy|]. eauto. }
        unfold dmem in Hmem. destruct (dget t (de_pop s)) as [p|] eqn:Ep; [|easy]. apply dget_mem in Ep as Hmem'.
        injection E as <- <-. split; [easy|]. cbn [outstanding_after].
        constructor; cbn [de_c de_pop de_q].
        * exact A.
        * intros x. rewrite B, C. rewrite <- wi_queue0. split; [|destruct (Nat.eq_dec x t) as [->|]; tauto].
          intros [[? ?]|[?| ->]]; auto. left. rewrite Et. now left.
        * intros x. rewrite C, wi_pending0. split.
          -- intros [[H1 (c & H2 & H3)]| ->].
             ++ split; [easy|]. exists c. split; [now right|]. now rewrite Hlin.
             ++ split; [easy|]. exists u. split; [now left|]. apply Hlu.
          -- intros [H1 (c & [<-|H2] & H3)]; [rewrite Hlu in H3; auto|]. rewrite Hlin in H3 by easy.
             left. split; [easy|]. eauto.
        * intros c c' [<-|H1] [<-|H2]; rewrite ?Hlu, ?Hlin by easy; try easy; auto.
          -- intros Heq. symmetry in Heq. now apply Hfree in Heq.
          -- intros Heq. now apply Hfree in Heq.
        * intros c [<-|H1]; [|rewrite Hlin by easy; auto]. rewrite Hlu. right.
          destruct (ti_keys _ _ _ HI t Hmem') as [|[H1 H2]]; [easy|]. exfalso. now apply (Hfree t).
    - (* new *)
      injection E as <- <-. cbn in Hok |- *. split; [easy|].
      assert (Hlin : forall x, In x out -> lineage x (new_cand u lin par (de_c s)) = lineage x (de_c s)).
      { intros x Hx. rewrite lineage_new by easy. destruct (Nat.eqb_spec x u) as [->|]; [|easy].
        apply (ti_out _ _ _ HI) in Hx. congruence. }
      constructor; cbn [de_c de_pop de_q]; auto.
      + intros x. rewrite wi_pending0. split; intros [H1 (c & H2 & H3)]; (split; [easy|]; exists c; split; [easy|]);
          [rewrite Hlin|rewrite Hlin in H3]; easy.
      + intros c c' H1 H2. rewrite !Hlin by easy. auto.
      + intros c H1. rewrite Hlin by easy. auto.
    - (* tell *)
      destruct Hto as [Hf Hl]. cbn [de_step] in E. cbn [outstanding_after done_after].
      set (s1 := DESt (set_cand_loss c l0 (de_c s)) (de_pop s) (de_q s)) in *.
      assert (Hs1 : sized s1) by exact Hs. assert (Hc1 : covers s1) by exact Hc.
      assert (HW1 : workers_inv s1 out fin) by (constructor; auto).
      destruct (is_asked out (OTell c l0 l)) eqn:Ea.
      + cbn in Ea. apply existsb_exists in Ea as (y & Hin & Hy). apply Nat.eqb_eq in Hy. subst y.
        destruct (workers_tell c (Some l) s1 s' r out fin) as [-> HW']; auto.
        * exact (ti_vals _ _ _ HI).
        * exact (ti_keys _ _ _ HI).
      + assert (Hno : ~ In c out).
        { intros H. cbn in Ea. assert (X : existsb (Nat.eqb c) out = true) by (apply existsb_exists; exists c; split; [easy|apply Nat.eqb_refl]).
          congruence. }
        destruct (workers_tna c (Some l) s1 s' r out fin) as [-> HW']; auto; [|easy].
        destruct (dmem c (de_pop s)) eqn:Em; [|easy]. exfalso.
        destruct (ti_keys _ _ _ HI c Em) as [|[? _]]; easy.
    - (* reject *)
      cbn in Hto. cbn [de_step] in E. cbn [outstanding_after done_after].
      destruct (workers_tell c None s s' r out fin) as [-> HW']; auto.
      + constructor; auto.
      + exact (ti_vals _ _ _ HI).
      + exact (ti_keys _ _ _ HI).
      + intros Hf. eapply (ti_disj _ _ _ HI); eauto.
  Qed.

  Lemma workers_reach s out fin : 1 <= llambda ->
    de_reach llambda propagate (bounded_workers llambda) true s out fin ->
    sized s /\ covers s /\ told_inv s out fin /\ workers_inv s out fin.
  Proof.
    intros Hpos H. induction H as [|s out fin o mo s' r H IH Ho Ha Hm E].
    - split; [split; cbn; [constructor|lia]|]. split; [easy|]. split; [constructor; cbn; easy|].
      constructor; cbn; try easy; [apply NoDup_nil|]; intros u; unfold dmem; cbn; intuition discriminate.
    - specialize (Hm eq_refl). subst mo. destruct IH as (A & B & C & D).
      destruct (general_step _ _ _ _ _ _ E A B). split; [easy|]. split; [easy|].
      split; [eapply (told_step s); eauto; apply Ha|]. eapply (workers_step s); eauto.
  Qed.
End DE.

(** ** statements *)
Lemma es_selection popsize off only s c l0 l :
  let s' := fst (es_step popsize (Some off) only by_loss s (OTell c l0 l)) in
  let choices := (es_wait s ++ [c]) ++ (if only then [] else dvals (es_pop s)) in
  (popsize <= length (es_pop s) \/ exists p, parent c (es_c s) = Some p /\ dmem p (es_pop s) = true) ->
  off <= S (length (es_wait s)) ->
  es_wait s' = [] /\ NoDup (dkeys (es_pop s')) /\ length (es_pop s') <= popsize /\
  (forall k m, In (k, m) (es_pop s') -> m = k /\ In m choices) /\
  (forall x y, In x (dvals (es_pop s')) -> In y choices -> ~ In y (dvals (es_pop s')) ->
     le_loss (loss x (es_c s')) (loss y (es_c s'))) /\
  (NoDup choices -> length (es_pop s') = Nat.min popsize (length choices)).
Proof.
  cbv zeta. intros Hp Ho. cbn [es_step fst es_tell es_c es_num_ask es_pop es_q es_wait].
  change (parent c (set_cand_loss c l0 (es_c s))) with (parent c (es_c s)).
  assert (Hcond : (match parent c (es_c s) with Some p => negb (dmem p (es_pop s)) | None => true end
                   && (length (es_pop s) <? popsize))%bool = false).
  { destruct Hp as [Hp|(p & -> & ->)]; [|easy]. apply andb_false_iff. right. now apply Nat.ltb_ge. }
  rewrite Hcond. cbn [es_wait]. rewrite app_length. cbn [length].
  destruct (Nat.leb_spec off (length (es_wait s) + 1)); [|lia].
  match goal with |- context [es_select _ _ _ ?x] => set (s1 := x) end.
  change ((es_wait s ++ [c]) ++ (if only then [] else dvals (es_pop s))) with (es_choices only s1).
  destruct (select_best popsize only by_loss s1 eq_refl) as [A B].
  split; [easy|]. split; [apply select_nodup|]. split; [apply select_size|]. split; [|split; [exact A|exact B]].
  intros k m Hin. split; [now apply select_keyval in Hin|].
  apply (select_members popsize only by_loss). apply in_map_iff. now exists (k, m).
Qed.

Lemma es_waiting popsize off only rank s c l0 l :
  let s' := fst (es_step popsize (Some off) only rank s (OTell c l0 l)) in
  S (length (es_wait s)) < off ->
  (popsize <= length (es_pop s) \/ exists p, parent c (es_c s) = Some p /\ dmem p (es_pop s) = true) ->
  es_pop s' = es_pop s /\ es_wait s' = es_wait s ++ [c].
Proof.
  cbv zeta. intros Ho Hp. cbn [es_step fst es_tell es_c es_num_ask es_pop es_q es_wait].
  change (parent c (set_cand_loss c l0 (es_c s))) with (parent c (es_c s)).
  assert (Hcond : (match parent c (es_c s) with Some p => negb (dmem p (es_pop s)) | None => true end
                   && (length (es_pop s) <? popsize))%bool = false).
  { destruct Hp as [Hp|(p & -> & ->)]; [|easy]. apply andb_false_iff. right. now apply Nat.ltb_ge. }
  rewrite Hcond. cbn [es_wait]. rewrite app_length. cbn [length].
  destruct (Nat.leb_spec off (length (es_wait s) + 1)); [lia|]. easy.
Qed.

Lemma es_size popsize offsprings only rank s :
  es_reach popsize offsprings only rank no_injection s ->
  NoDup (dkeys (es_pop s)) /\ length (es_pop s) <= popsize.
Proof. intros H. apply bounded_reach in H as []. auto. Qed.

Lemma es_queue popsize offsprings only rank s :
  es_reach popsize offsprings only rank any_op s ->
  forall u, in_queue u (es_q s) <-> In u (dkeys (es_pop s)).
Proof. intros H u. rewrite (exact_reach _ _ _ _ _ _ H u). apply dmem_in. Qed.

Lemma es_lineage popsize only rank s o k m :
  es_reach popsize None only rank no_injection s -> op_ok (es_c s) o -> es_told_once s o ->
  dget k (es_pop s) = Some m ->
  let s' := fst (es_step popsize None only rank s o) in
  exists m', dget k (es_pop s') = Some m' /\ le_loss (loss m' (es_c s')) (loss m (es_c s)).
Proof. intros H Hok Hto Hm. apply lineage_step; auto. now apply bounded_reach in H. Qed.

Lemma de_size llambda propagate allowed single s out fin :
  de_reach llambda propagate allowed single s out fin ->
  NoDup (dkeys (de_pop s)) /\ length (de_pop s) <= llambda.
Proof. intros H. now apply general_reach in H as [[A B] _]. Qed.

Lemma de_child llambda propagate allowed s out fin c l0 l m s' r :
  1 <= llambda -> de_reach llambda propagate allowed true s out fin -> In c out ->
  dget (lineage c (de_c s)) (de_pop s) = Some m ->
  de_step llambda propagate (is_asked out (OTell c l0 l)) None s (OTell c l0 l) = (s', r) ->
  r = Ok tt /\
  forall x, dget x (de_pop s') =
    if x =? lineage c (de_c s) then Some (if lo_le (Some l) (loss m (de_c s')) then c else m)
    else dget x (de_pop s).
Proof.
  intros Hpos H Hin Hm E. apply general_reach in H as [A B].
  destruct (tell_single _ _ _ _ _ _ _ _ _ Hpos A B E) as (Hr & _ & H). split; [exact Hr|].
  assert (Ha : is_asked out (OTell c l0 l) = true).
  { apply existsb_exists. exists c. split; [easy|apply Nat.eqb_refl]. }
  rewrite Ha, Hm in H. intros x.
  destruct H as [[Hle Hp]|[Hlt Hp]]; rewrite Hp.
  - apply lo_le_iff in Hle. rewrite Hle, dget_dset. easy.
  - apply lo_le_false in Hlt. rewrite Hlt. destruct (Nat.eqb_spec x (lineage c (de_c s))) as [->|]; easy.
Qed.

Lemma de_injected llambda propagate allowed s out fin c l0 l s' r :
  1 <= llambda -> de_reach llambda propagate allowed true s out fin ->
  (~ In c out \/ dget (lineage c (de_c s)) (de_pop s) = None) ->
  de_step llambda propagate (is_asked out (OTell c l0 l)) None s (OTell c l0 l) = (s', r) ->
  r = Ok tt /\
  (length (de_pop s) < llambda -> de_pop s' = dset c c (de_pop s)) /\
  (length (de_pop s) = llambda -> exists w m, is_worst (de_c s') (de_pop s) w m /\
     (lt_loss (Some l) (loss m (de_c s')) -> de_pop s' = dset c c (ddel w (de_pop s))) /\
     (le_loss (loss m (de_c s')) (Some l) -> de_pop s' = de_pop s)).
Proof.
  intros Hpos H Hin E. apply general_reach in H as [A B].
  destruct (tell_single _ _ _ _ _ _ _ _ _ Hpos A B E) as (Hr & _ & H). split; [exact Hr|].
  assert (Hcase : (if is_asked out (OTell c l0 l) then dget (lineage c (de_c s)) (de_pop s) else None) = None).
  { destruct (is_asked out _) eqn:Ea; [|easy]. destruct Hin as [Hin|Hin]; [|easy]. exfalso. apply Hin.
    cbn in Ea. apply existsb_exists in Ea as (y & Hy & Hc). apply Nat.eqb_eq in Hc. now subst. }
  rewrite Hcase in H.
  destruct H as [[Hlt Hp]|(Hf & w & m & Hw & Hmax & H)].
  - split; [easy|lia].
  - split; [lia|]. intros _. exists w, m. split; [split; [exact Hw|exact Hmax]|].
    destruct H as [[H1 H2]|[H1 H2]]; (split; [|]; intros H3; [|]; try exact H2; exfalso; eapply not_le_lt; eauto).
Qed.

Lemma de_told_covered llambda propagate allowed s out fin c l0 l s' r : 1 <= llambda ->
  de_reach llambda propagate allowed true s out fin -> (l0 <= l)%Q ->
  de_step llambda propagate (is_asked out (OTell c l0 l)) None s (OTell c l0 l) = (s', r) ->
  covered (Some l) s'.
Proof.
  intros Hpos H Hl E. apply general_reach in H as [A B]. eapply tell_covers; eauto.
Qed.

Lemma de_covered_stays llambda propagate s out fin o s' r L : 1 <= llambda ->
  de_reach llambda propagate de_told_once true s out fin -> op_ok (de_c s) o -> de_told_once out fin o ->
  de_step llambda propagate (is_asked out o) None s o = (s', r) ->
  covered L s -> covered L s'.
Proof.
  intros Hpos H Hok Hto E. apply told_reach in H as (A & B & C); auto.
  eapply (covered_step llambda propagate L (is_asked out o)); eauto.
Qed.

Lemma de_no_failure llambda propagate s out fin o s' r : 1 <= llambda ->
  de_reach llambda propagate (bounded_workers llambda) true s out fin -> op_ok (de_c s) o ->
  bounded_workers llambda out fin o ->
  de_step llambda propagate (is_asked out o) None s o = (s', r) -> r = Ok tt.
Proof.
  intros Hpos H Hok Hto E. apply workers_reach in H as (A & B & C & D); auto.
  eapply (workers_step llambda propagate s); eauto.
Qed.

Lemma de_queue llambda propagate s out fin : 1 <= llambda ->
  de_reach llambda propagate (bounded_workers llambda) true s out fin ->
  NoDup (uq_contents (de_q s)) /\ (forall u, In u (uq_contents (de_q s)) <-> In u (dkeys (de_pop s))) /\
  (forall u, In u (os_iter (uq_asked (de_q s))) <->
     In u (dkeys (de_pop s)) /\ exists c, In c out /\ lineage c (de_c s) = u).
Proof.
  intros Hpos H. apply workers_reach in H as (A & B & C & []); auto. split; [exact wi_wf0|]. split.
  - intros u. unfold uq_contents. rewrite in_app_iff, <- dmem_in. apply wi_queue0.
  - intros u. rewrite <- dmem_in. apply wi_pending0.
Qed.

From Coq Require Import Bool Arith List String ZArith QArith Lia Sorting.Permutation.
From Verif Require Import Model.Prelude Model.Planning Model.MLTuning Spec.MLTuning.
Import ListNotations.
Open Scope nat_scope.
Open Scope list_scope.

Lemma get_update d e k : get (update d e) k = match get e k with Some v => Some v | None => get d k end.
Proof.
  unfold update. induction e as [|[k' v] e IH]; [reflexivity|]. cbn [app get]. now destruct (String.eqb k k').
Qed.
Lemma get_in d k : get d k <> None <-> In k (map fst d).
Proof.
  induction d as [|[k' v] d IH]; cbn [get map fst In]; [tauto|].
  destruct (String.eqb_spec k k') as [->|ne]; [split; [now left|discriminate]|]. rewrite IH. split; [tauto|].
  intros [E|I]; [now subst|assumption].
Qed.
Lemma in_arguments k : existsb (String.eqb k) arguments = true <-> In k arguments.
Proof.
  rewrite existsb_exists. split; [intros (x & I & E); apply String.eqb_eq in E; now subst|].
  intros I. exists k. split; [assumption|apply String.eqb_refl].
Qed.
Lemma accepted_iff d : accepted d = true <->
  (forall k, In k arguments -> get d k <> None) /\ (forall k, get d k <> None -> In k arguments).
Proof.
  unfold accepted. rewrite andb_true_iff, !forallb_forall. split.
  - intros [A B]. split.
    + intros k I. specialize (A k I). now destruct (get d k).
    + intros k G. apply get_in in G. apply in_map_iff in G. destruct G as (kv & <- & I). apply in_arguments. now apply B.
  - intros [A B]. split.
    + intros k I. specialize (A k I). now destruct (get d k).
    + intros kv I. apply in_arguments, B, get_in, in_map, I.
Qed.
Lemma accepted_ext d e : (forall k, get d k = get e k) -> accepted d = accepted e.
Proof.
  intros H. apply eq_true_iff_eq. rewrite !accepted_iff. split; intros [A B]; split; intros k I.
  - rewrite <- H. now apply A. - apply B. now rewrite H. - rewrite H. now apply A. - apply B. now rewrite <- H.
Qed.

Lemma filter_disjoint {A} (p q : A -> bool) l : (forall a, p a = true -> q a = true -> False) ->
  Permutation (filter p l ++ filter q l) (filter (fun a => p a || q a) l).
Proof.
  intros H. induction l as [|a l IH]; [constructor|]. cbn [filter].
  destruct (p a) eqn:P, (q a) eqn:K; cbn [orb app]; [exfalso; eauto| | |exact IH].
  - now constructor.
  - rewrite <- Permutation_middle. now constructor.
Qed.
Lemma filter_all {A} (p : A -> bool) l : (forall a, In a l -> p a = true) -> filter p l = l.
Proof.
  induction l as [|a l IH]; intros H; [reflexivity|]. cbn [filter]. rewrite (H a) by now left. f_equal. apply IH. intros b I. apply H. now right.
Qed.
Lemma filter_eq {A} (p q : A -> bool) l : (forall a, In a l -> p a = q a) -> filter p l = filter q l.
Proof. apply filter_ext_in. Qed.
Lemma partition_perm {A} (g : A -> nat) l n : 
  Permutation (List.concat (map (fun k => filter (fun a => g a =? k) l) (seq 0 n))) (filter (fun a => g a <? n) l).
Proof.
  induction n as [|n IH].
  - cbn [seq map List.concat]. rewrite (filter_eq _ (fun _ => false)) by (intros a _; now apply Nat.ltb_ge; lia).
    clear. induction l; [constructor|assumption].
  - rewrite seq_S, map_app, concat_app. cbn [plus map List.concat]. rewrite app_nil_r, IH.
    rewrite filter_disjoint.
    2:{ intros a P K. apply Nat.ltb_lt in P. apply Nat.eqb_eq in K. lia. }
    rewrite (filter_eq _ (fun a => g a <? S n)); [reflexivity|]. intros a _.
    destruct (Nat.ltb_spec (g a) n), (Nat.eqb_spec (g a) n), (Nat.ltb_spec (g a) (S n)); cbn [orb]; lia || reflexivity.
Qed.

Lemma snd_combine (x : list row) : forall k, map snd (combine (seq k (List.length x)) x) = x.
Proof. induction x as [|r x IH]; intros k; [reflexivity|]. cbn [List.length seq combine map snd]. now rewrite IH. Qed.
Lemma fst_combine (x : list row) : forall k, map fst (combine (seq k (List.length x)) x) = seq k (List.length x).
Proof. induction x as [|r x IH]; intros k; [reflexivity|]. cbn [List.length seq combine map fst]. now rewrite IH. Qed.
Lemma keep_split p x : Permutation (keep (fun i => negb (p i)) x ++ keep p x) x.
Proof.
  unfold keep. rewrite <- map_app.
  rewrite (filter_disjoint (fun ir : nat * row => negb (p (fst ir))) (fun ir => p (fst ir))).
  2:{ intros [i r] P K. cbn in *. rewrite K in P. discriminate. }
  rewrite filter_all; [now rewrite snd_combine|]. intros [i r] _. cbn. now destruct (p i).
Qed.
Lemma keep_partition cvn x : 0 < cvn ->
  Permutation (List.concat (map (fun k => keep (fun i => i mod cvn =? k) x) (seq 0 cvn))) x.
Proof.
  intros H. unfold keep.
  rewrite <- (map_map (fun k => filter (fun ir : nat * row => fst ir mod cvn =? k) (combine (seq 0 (List.length x)) x)) (map snd)).
  rewrite <- concat_map, (partition_perm (fun ir : nat * row => fst ir mod cvn)).
  rewrite filter_all; [now rewrite snd_combine|]. intros [i r] _. cbn [fst]. apply Nat.ltb_lt, Nat.mod_upper_bound. lia.
Qed.
Lemma keep_length p x : List.length (keep p x) = List.length (filter p (seq 0 (List.length x))).
Proof.
  unfold keep. rewrite map_length. rewrite <- (fst_combine x 0) at 2.
  generalize (combine (seq 0 (List.length x)) x). induction l as [|[i r] l IH]; [reflexivity|].
  cbn [filter map fst]. destruct (p i); cbn [List.length]; congruence.
Qed.

Lemma blocks_concat d k : forall l : list Q, k * d <= List.length l ->
  List.concat (map (fun i => firstn d (skipn (i * d) l)) (seq 0 k)) = firstn (k * d) l.
Proof.
  induction k as [|k IH]; intros l H; [reflexivity|].
  rewrite seq_S, map_app, concat_app, IH by lia. cbn [plus map List.concat]. rewrite app_nil_r.
  replace (S k * d) with (k * d + d) by lia.
  rewrite <- (firstn_skipn (k * d) l) at 3. rewrite firstn_app, firstn_firstn, firstn_length.
  rewrite Nat.min_r by lia. f_equal. f_equal. lia.
Qed.
Lemma reshape_ok d l : 0 < d -> List.length l mod d = 0 ->
  exists x, reshape d l = Ok x /\ List.concat x = l /\ Forall (fun r => List.length r = d) x /\ List.length x = List.length l / d.
Proof.
  intros H M. unfold reshape. destruct (Nat.eqb_spec d 0) as [|_]; [lia|]. rewrite M. cbn [orb negb Nat.eqb].
  eexists. split; [reflexivity|].
  assert (E : List.length l / d * d = List.length l) by (pose proof (Nat.div_mod (List.length l) d); lia).
  split; [|split].
  - rewrite blocks_concat by lia. rewrite E. apply firstn_all.
  - apply Forall_forall. intros r I. apply in_map_iff in I. destruct I as (i & <- & I). apply in_seq in I.
    rewrite firstn_length, skipn_length. apply Nat.min_l. nia.
  - now rewrite map_length, seq_length.
Qed.
Lemma reshape_err d l : List.length l mod d <> 0 -> reshape d l = Err ValueError.
Proof.
  intros H. unfold reshape. destruct (d =? 0); [reflexivity|]. destruct (Nat.eqb_spec (List.length l mod d) 0); [easy|reflexivity].
Qed.
Lemma grid_length n : List.length (grid n) = n.
Proof. unfold grid. now rewrite map_length, seq_length. Qed.
Lemma labels_sums f x : sums f x (labels f x).
Proof. unfold sums, labels. induction x; cbn; constructor; [reflexivity|assumption]. Qed.

Section F.
Variables (fsin fcos : Q -> Q) (shuffle : list row -> list row) (shuffle_tests : list Q -> list Q).
Variable named : string -> result tables.
Variable St : Type.
Variables (create : learner -> St) (fit : St -> list row -> list Q -> result St)
  (predict : St -> list row -> result (list Q)) (mse : list Q -> list Q -> result Q).
Notation call := (ml_call fsin fcos shuffle shuffle_tests named St create fit predict mse).
Notation make := (make_dataset fsin fcos shuffle shuffle_tests named).

Lemma call_ext dim ds st d e : (forall k, get d k = get e k) -> call dim ds st d = call dim ds st e.
Proof.
  intros H. unfold ml_call, learner_of. rewrite (accepted_ext d e H). now rewrite !H.
Qed.

Lemma make_known d ds f :
  0 < d -> String.prefix "artificial" ds = true -> target fsin fcos ds = Some f ->
  exists x0, List.concat x0 = grid (num_data * d) /\ Forall (fun r => List.length r = d) x0 /\ List.length x0 = num_data /\
  make (Some d) ds =
    let x := shuffle x0 in
    let tb := Tables x (labels fsin x) (map (make_fold cross_val_num f x) (seq 0 cross_val_num)) in
    match reshape d (shuffle_tests (grid num_tests)) with
    | Err e => (Some (tb None), Err e)
    | Ok xt => (Some (tb (Some (xt, labels f xt))), Ok tt)
    end.
Proof.
  intros H P T. unfold make_dataset. rewrite P. cbn [negb].
  destruct (Nat.eqb_spec d 0) as [|_]; [lia|].
  destruct (reshape_ok d (grid (num_data * d)) H) as (x0 & R & C & F & L).
  { rewrite grid_length. apply Nat.mod_mul. lia. }
  rewrite R, T. exists x0. split; [assumption|]. split; [assumption|]. split; [|reflexivity].
  etransitivity; [exact L|]. rewrite grid_length. apply Nat.div_mul. lia.
Qed.

Lemma cv_forget l : forgets create fit -> forall folds es, Forall2 (fold_error create fit predict mse l) folds es ->
  forall s acc, fitted create fit l s ->
  exists v, cross_validation St fit predict mse true s acc folds = Ok v /\ (v == acc + qsum es)%Q.
Proof.
  intros Hf folds es H. induction H as [|fo e folds es (s1 & pr & F1 & P1 & M1) _ IH]; intros s acc Hs.
  - exists acc. split; [reflexivity|]. cbn. ring.
  - cbn [cross_validation negb]. rewrite (Hf l s _ _ Hs), F1. cbn [bind]. rewrite P1. cbn [bind].
    assert (Hs1 : fitted create fit l s1) by (eapply fitted_fit; [apply fitted_new|exact F1]).
    destruct M1 as [M1|[M1 ->]]; rewrite M1.
    + destruct (IH s1 (acc + e)%Q Hs1) as (v & -> & E). exists v. split; [reflexivity|]. rewrite E. unfold qsum. cbn [fold_right]. ring.
    + destruct (IH s1 (acc + penalty)%Q Hs1) as (v & -> & E). exists v. split; [reflexivity|]. rewrite E. unfold qsum. cbn [fold_right].
      change (inject_Z 500000000000000000000) with penalty. ring.
Qed.
End F.

(** Proofs about the tables *)
From Coq Require Import String.
From Coq Require Import ZArith QArith Qpower Bool Arith Lia Lqa List.
From Verif.Model Require Import Prelude MultiValue Tables.
From Verif.Spec Require Import Tables.
From Verif.Proofs Require Import MultiValue.
Import ListNotations.
Open Scope list_scope.
Open Scope nat_scope.

Section Firsts.
  Context {A : Type} (eqb : A -> A -> bool).
  Hypothesis eqb_refl : forall x, eqb x x = true.
  Hypothesis eqb_sym : forall x y, eqb x y = eqb y x.
  Hypothesis eqb_trans : forall x y z, eqb x y = true -> eqb y z = true -> eqb x z = true.
  Lemma filter_filter : forall (f g : A -> bool) l, filter f (filter g l) = filter (fun x => g x && f x) l.
  Proof. intros f g l. induction l as [|x l IH]; [reflexivity|]. cbn. destruct (g x) eqn:G; cbn; [destruct (f x)|]; now rewrite IH. Qed.
  Lemma firsts_snoc : forall l x, firsts eqb (l ++ [x]) = if existsb (fun y => eqb y x) l then firsts eqb l else firsts eqb l ++ [x].
  Proof.
    intros l x. induction l as [|y l IH]; [reflexivity|]. cbn. rewrite IH. destruct (eqb y x) eqn:E; cbn [orb].
    - destruct (existsb _ l); [reflexivity|]. rewrite filter_app. cbn. rewrite E. cbn. now rewrite app_nil_r.
    - destruct (existsb _ l); [reflexivity|]. rewrite filter_app. cbn. rewrite E. reflexivity.
  Qed.
  Lemma firsts_in : forall l x, In x (firsts eqb l) -> In x l.
  Proof. induction l as [|y l IH]; intros x H; [exact H|]. destruct H as [H|H]; [now left|]. right. apply filter_In in H as (H & _). auto. Qed.
  Lemma firsts_exists : forall l x, existsb (fun y => eqb y x) (firsts eqb l) = existsb (fun y => eqb y x) l.
  Proof.
    induction l as [|y l IH]; intros x; [reflexivity|]. cbn. destruct (eqb y x) eqn:E; [reflexivity|]. cbn. rewrite <- IH.
    clear IH. induction (firsts eqb l) as [|z m IHm]; [reflexivity|]. cbn. destruct (eqb y z) eqn:F; cbn.
    - rewrite IHm. destruct (eqb z x) eqn:G; [|reflexivity]. rewrite (eqb_trans _ _ _ F G) in E. discriminate E.
    - now rewrite IHm.
  Qed.
  Inductive apart : list A -> Prop :=
  | apart_nil : apart []
  | apart_cons x l : (forall y, In y l -> eqb x y = false) -> apart l -> apart (x :: l).
  Lemma apart_filter : forall f l, apart l -> apart (filter f l).
  Proof.
    intros f l H. induction H as [|x l H K IH]; [constructor|]. cbn. destruct (f x); [|exact IH]. constructor; [|exact IH].
    intros y I. apply filter_In in I as (I & _). auto.
  Qed.
  Lemma firsts_apart : forall l, apart (firsts eqb l).
  Proof.
    induction l as [|x l IH]; [constructor|]. cbn. constructor; [|apply apart_filter, IH].
    intros y I. apply filter_In in I as (_ & E). now apply negb_true_iff in E.
  Qed.
  Lemma upsert_map : forall (V : Type) (f : V -> V) (dflt : V) (g : A -> V) k keys, apart keys ->
    upsert eqb k f dflt (map (fun x => (x, g x)) keys) =
    if existsb (fun y => eqb y k) keys then map (fun x => (x, if eqb x k then f (g x) else g x)) keys
    else map (fun x => (x, g x)) keys ++ [(k, f dflt)].
  Proof.
    intros V f dflt g k keys H. induction H as [|x l H K IH]; [reflexivity|]. cbn. destruct (eqb x k) eqn:E; cbn [orb].
    - f_equal. apply map_ext_in. intros y I. replace (eqb y k) with false; [reflexivity|]. symmetry.
      destruct (eqb y k) eqn:F; [|reflexivity]. rewrite <- (H y I). symmetry. apply eqb_trans with k; [exact E|]. now rewrite eqb_sym.
    - rewrite IH. destruct (existsb _ l); reflexivity.
  Qed.
End Firsts.

Lemma Qeqb_refl : forall x, Qeq_bool x x = true.
Proof. intros x. apply Qeq_bool_iff. reflexivity. Qed.
Lemma Qeqb_sym : forall x y, Qeq_bool x y = Qeq_bool y x.
Proof. intros x y. apply eq_true_iff_eq. rewrite !Qeq_bool_iff. split; intros H; symmetry; exact H. Qed.
Lemma Qeqb_trans : forall x y z, Qeq_bool x y = true -> Qeq_bool y z = true -> Qeq_bool x z = true.
Proof. intros x y z. rewrite !Qeq_bool_iff. apply Qeq_trans. Qed.
Lemma Neqb_trans : forall x y z, Nat.eqb x y = true -> Nat.eqb y z = true -> Nat.eqb x z = true.
Proof. intros x y z. rewrite !Nat.eqb_eq. congruence. Qed.

Lemma fill_inner_snoc : forall rows d q a,
  map (fun x => (x, at_place (rows ++ [(d, q, a)]) (d, x))) (ratios (rows ++ [(d, q, a)]) d) =
  upsert Qeq_bool q (fun l => l ++ [a]) [] (map (fun x => (x, at_place rows (d, x))) (ratios rows d)).
Proof.
  intros rows d q a. rewrite upsert_map by (exact Qeqb_sym || exact Qeqb_trans || apply firsts_apart).
  assert (P : forall x, at_place (rows ++ [(d, q, a)]) (d, x) = if Qeq_bool x q then at_place rows (d, x) ++ [a] else at_place rows (d, x)).
  { intros x. unfold at_place. rewrite filter_app, map_app. cbn. rewrite Nat.eqb_refl. cbn [andb]. rewrite (Qeqb_sym q x). destruct (Qeq_bool x q); [reflexivity|]. now rewrite app_nil_r. }
  unfold ratios. rewrite filter_app, map_app. cbn [filter map fst snd]. rewrite Nat.eqb_refl. cbn [map fst snd]. rewrite firsts_snoc.
  rewrite firsts_exists by exact Qeqb_trans.
  set (L := map _ (filter _ rows)). destruct (existsb _ L) eqn:E.
  - apply map_ext. intros x. now rewrite P.
  - rewrite map_app. f_equal.
    + apply map_ext_in. intros x I. rewrite P. replace (Qeq_bool x q) with false; [reflexivity|]. symmetry.
      apply firsts_in in I. destruct (Qeq_bool x q) eqn:F; [|reflexivity]. rewrite <- E. symmetry. apply existsb_exists. exists x. auto.
    + cbn. rewrite P, Qeqb_refl. f_equal. f_equal.
      assert (N : at_place rows (d, q) = []); [|now rewrite N]. unfold at_place. cbn [fst snd].
      replace (filter _ rows) with (@nil row); [reflexivity|]. symmetry. revert E. unfold L. clear. induction rows as [|[[d' q'] a'] rows IH]; [reflexivity|]. cbn.
      destruct (d' =? d); cbn; [|exact IH]. intros E. apply orb_false_iff in E as (E1 & E2). rewrite E1. auto.
Qed.

Definition layout (rows : list row) : best := map (fun d => (d, map (fun q => (q, at_place rows (d, q))) (ratios rows d))) (dims rows).
Lemma other_dim : forall rows d q a d', (d' =? d) = false ->
  map (fun x => (x, at_place (rows ++ [(d, q, a)]) (d', x))) (ratios (rows ++ [(d, q, a)]) d') = map (fun x => (x, at_place rows (d', x))) (ratios rows d').
Proof.
  intros rows d q a d' E. unfold ratios. rewrite filter_app. cbn. rewrite Nat.eqb_sym, E, app_nil_r.
  apply map_ext. intros x. f_equal. unfold at_place. rewrite filter_app. cbn. rewrite (Nat.eqb_sym d d'), E. cbn. now rewrite app_nil_r.
Qed.
Lemma dims_snoc : forall rows d q a, dims (rows ++ [(d, q, a)]) = if existsb (fun y => y =? d) (dims rows) then dims rows else dims rows ++ [d].
Proof. intros rows d q a. unfold dims. rewrite map_app. cbn [map fst]. rewrite firsts_snoc, firsts_exists by exact Neqb_trans. reflexivity. Qed.
Lemma fill_layout : forall rows, fill rows = layout rows.
Proof.
  intros rows. induction rows as [|[[d q] a] rows IH] using rev_ind; [reflexivity|].
  assert (S : fill (rows ++ [(d, q, a)]) = upsert Nat.eqb d (upsert Qeq_bool q (fun l => l ++ [a]) []) [] (fill rows)) by (unfold fill; now rewrite fold_left_app).
  transitivity (upsert Nat.eqb d (upsert Qeq_bool q (fun l => l ++ [a]) []) [] (fill rows)); [exact S|]. rewrite IH. clear S. unfold layout at 1.
  rewrite upsert_map by (exact Nat.eqb_sym || exact Neqb_trans || apply firsts_apart).
  unfold layout. change (dims (rows ++ [(d, q, a)])) with (dims ((rows : list row) ++ [(d, q, a)])). rewrite dims_snoc. destruct (existsb _ (dims rows)) eqn:E.
  - apply map_ext. intros d'. destruct (Nat.eqb_spec d' d) as [->|N].
    + f_equal. symmetry. apply fill_inner_snoc.
    + f_equal. symmetry. apply other_dim. now apply Nat.eqb_neq.
  - rewrite map_app. f_equal.
    + apply map_ext_in. intros d' I. f_equal. symmetry. apply other_dim. destruct (d' =? d) eqn:F; [|reflexivity].
      rewrite <- E. symmetry. apply existsb_exists. exists d'. auto.
    + cbn [map]. f_equal. f_equal. symmetry. etransitivity; [apply fill_inner_snoc|]. f_equal.
      replace (ratios rows d) with (@nil Q); [reflexivity|]. unfold ratios. replace (filter _ rows) with (@nil row); [reflexivity|].
      unfold dims in E. rewrite firsts_exists in E by exact Neqb_trans.
      revert E. clear. induction rows as [|[[d' q'] a'] rows IH]; [reflexivity|]. cbn. intros E. apply orb_false_iff in E as (E1 & E2). rewrite E1. auto.
Qed.
Lemma entries_places : forall rows, entries (fill rows) = map (fun k => (fst k, snd k, at_place rows k)) (places rows).
Proof.
  intros rows. rewrite fill_layout. unfold entries, layout, places. rewrite flat_map_concat_map, flat_map_concat_map, concat_map, !map_map. f_equal. apply map_ext. intros d. cbn [fst snd]. now rewrite !map_map.
Qed.

(** the scan *)
Definition far (d : nat) (nod : Q) (k : nat * Q) : Q := distance d nod (fst k) (snd k).
Lemma scan_spec : forall rows d nod ks k0, exists k, fold_left (closer d nod) (map (fun k => (fst k, snd k, at_place rows k)) ks) (Some (far d nod k0, at_place rows k0)) = Some (far d nod k, at_place rows k) /\
  ((k = k0 /\ forall x, In x ks -> (far d nod k <= far d nod x)%Q) \/
   exists l1 l2, ks = l1 ++ k :: l2 /\ (far d nod k < far d nod k0)%Q /\ (forall x, In x l1 -> (far d nod k < far d nod x)%Q) /\ (forall x, In x l2 -> (far d nod k <= far d nod x)%Q)).
Proof.
  intros rows d nod ks. induction ks as [|k1 ks IH]; intros k0.
  - exists k0. split; [reflexivity|]. left. split; [reflexivity|]. intros x [].
  - cbn [map fold_left closer]. fold (far d nod k1). destruct (qlt (far d nod k1) (far d nod k0)) eqn:E.
    + apply qlt_iff in E. destruct (IH k1) as (k & Ek & [(-> & H)|(l1 & l2 & -> & H1 & H2 & H3)]).
      * exists k1. split; [exact Ek|]. right. exists [], ks. repeat split; auto. intros x [].
      * exists k. split; [exact Ek|]. right. exists (k1 :: l1), l2. repeat split; auto; [lra|]. intros x [<-|I]; auto.
    + apply qlt_false in E. destruct (IH k0) as (k & Ek & [(-> & H)|(l1 & l2 & -> & H1 & H2 & H3)]).
      * exists k0. split; [exact Ek|]. left. split; [reflexivity|]. intros x [<-|I]; auto.
      * exists k. split; [exact Ek|]. right. exists (k1 :: l1), l2. repeat split; auto. intros x [<-|I]; auto. lra.
Qed.
Lemma far_pow : forall d nod k, (far d nod k == (qnat d - qnat (fst k)) ^ 2 + (nod - snd k) ^ 2)%Q.
Proof. intros d nod k. unfold far, distance. cbn. ring. Qed.
Lemma recommend_spec : forall rows d nod, rows <> [] -> exists k, closest rows d nod k /\ recommend_method rows d nod = Some (at_place rows k).
Proof.
  intros rows d nod N. unfold recommend_method. rewrite entries_places.
  destruct (places rows) as [|k0 ks] eqn:P.
  { exfalso. destruct rows as [|[[d0 q0] a0] rows]; [congruence|]. unfold places in P. cbn [dims firsts map flat_map fst] in P. unfold ratios in P. cbn [filter fst] in P. rewrite Nat.eqb_refl in P. cbn in P. discriminate P. }
  cbn [map fold_left closer]. fold (far d nod k0).
  destruct (scan_spec rows d nod ks k0) as (k & -> & H). exists k. split; [|reflexivity].
  unfold closest. rewrite P. destruct H as [(-> & H)|(l1 & l2 & -> & H1 & H2 & H3)].
  - exists [], ks. split; [reflexivity|]. split; [intros x []|]. intros x I. cbv beta zeta. rewrite <- !far_pow. auto.
  - exists (k0 :: l1), l2. split; [reflexivity|]. split; intros x I; cbv beta zeta; rewrite <- !far_pow; [|auto]. destruct I as [<-|I]; auto.
Qed.

(** the most frequent *)
Lemma count_occ_eq : forall l a, count l a = count_occ string_dec l a.
Proof.
  intros l a. induction l as [|x l IH]; [reflexivity|]. unfold count in *. cbn. destruct (String.eqb_spec a x) as [E|N]; destruct (string_dec x a); try congruence; cbn; congruence.
Qed.
Definition keep (l : list string) (b : option string) (a : string) : option string :=
  match b with None => Some a | Some x => if count l x <? count l a then Some a else b end.
Lemma keep_spec : forall l o x, exists a, fold_left (keep l) o (Some x) = Some a /\ In a (x :: o) /\ forall y, In y (x :: o) -> count l y <= count l a.
Proof.
  intros l o. induction o as [|z o IH]; intros x; [exists x; split; [reflexivity|]; split; [now left|]; intros y [<-|[]]; lia|]. cbn [fold_left keep].
  destruct (Nat.ltb_spec (count l x) (count l z)) as [H|H].
  - destruct (IH z) as (a & -> & I & M). exists a. split; [reflexivity|]. split; [now right|]. intros y [<-|J]; [|auto]. specialize (M z (or_introl eq_refl)). lia.
  - destruct (IH x) as (a & -> & I & M). exists a. split; [reflexivity|]. split; [destruct I as [I|I]; [now left|right; now right]|].
    intros y [<-|[<-|J]]; [apply M; now left| |apply M; now right]. specialize (M x (or_introl eq_refl)). lia.
Qed.
Lemma most_frequent_spec : forall order l, iterates order -> l <> [] -> exists a, most_frequent order l = Some a /\ a_top l a.
Proof.
  intros order l O N. destruct (O l) as (_ & Oi). unfold most_frequent. change (fold_left _ (order l) None) with (fold_left (keep l) (order l) None).
  destruct (order l) as [|x o] eqn:E.
  - destruct l as [|y l]; [congruence|]. exfalso. destruct (Oi y) as (_ & H). destruct (H (or_introl eq_refl)).
  - cbn [fold_left keep]. destruct (keep_spec l o x) as (a & Ea & I & M). exists a. split; [exact Ea|]. split; [now apply Oi|].
    intros y. rewrite <- !count_occ_eq. destruct (in_dec string_dec y l) as [J|J].
    + apply M. now apply Oi.
    + rewrite count_occ_eq, (proj1 (count_occ_not_In string_dec l y) J). lia.
Qed.
(** an order which starts with a given element *)
Definition ahead (a : string) (l : list string) : list string :=
  let u := nodup string_dec l in if in_dec string_dec a u then a :: remove string_dec a u else u.
Lemma nodup_remove : forall a l, NoDup l -> NoDup (remove string_dec a l).
Proof.
  intros a l H. induction H as [|x l H K IH]; [constructor|]. cbn. destruct (string_dec a x); [exact IH|]. constructor; [|exact IH]. intros I. apply in_remove in I as (I & _). auto.
Qed.
Lemma ahead_iterates : forall a, iterates (ahead a).
Proof.
  intros a l. unfold ahead. pose proof (NoDup_nodup string_dec l) as U. destruct (in_dec string_dec a (nodup string_dec l)) as [I|I].
  - split.
    + constructor; [apply remove_In|now apply nodup_remove].
    + intros x. split.
      * intros [<-|J]; [now apply nodup_In in I|]. apply in_remove in J as (J & _). now apply nodup_In in J.
      * intros J. destruct (string_dec x a) as [->|N]; [now left|]. right. apply in_in_remove; [exact N|]. now apply nodup_In.
  - split; [exact U|]. intros x. apply nodup_In.
Qed.
Lemma keep_top : forall l o x, (forall y, count l y <= count l x) -> fold_left (keep l) o (Some x) = Some x.
Proof.
  intros l o x H. induction o as [|y o IH]; [reflexivity|]. cbn [fold_left keep]. destruct (Nat.ltb_spec (count l x) (count l y)); [specialize (H y); lia|exact IH].
Qed.
Lemma ahead_first : forall a l, a_top l a -> most_frequent (ahead a) l = Some a.
Proof.
  intros a l (I & M). unfold most_frequent. change (fold_left _ (ahead a l) None) with (fold_left (keep l) (ahead a l) None). unfold ahead.
  destruct (in_dec string_dec a (nodup string_dec l)) as [J|J]; [|elim J; now apply nodup_In]. cbn [fold_left keep]. apply keep_top.
  intros y. rewrite !count_occ_eq. apply M.
Qed.

Lemma rows_of_nonempty : forall k, rows_of k <> [].
Proof. intros []; discriminate. Qed.
(** the whole choice *)
Lemma select_spec : forall order k p b, iterates order -> p_continuous p = true -> p_noise p = false -> p_budget p = Some b -> 1 <= p_dim p ->
  exists c, closest (rows_of k) (p_dim p) (qnat b / qnat (p_dim p))%Q c /\
    let algs := allowed (p_workers p) (at_place (rows_of k) c) in
    (algs = [] /\ 1 < p_workers p /\ select order k p = Ok SQPCMA \/
     algs <> [] /\ match k with
                   | F => select order k p = Ok (Mix algs (6 # 10)%Q)
                   | _ => exists a, a_top algs a /\ most_frequent order algs = Some a /\ select order k p = Ok (One a)
                   end).
Proof.
  intros order k p b O C N B D. destruct (recommend_spec (rows_of k) (p_dim p) (qnat b / qnat (p_dim p))%Q (rows_of_nonempty k)) as (c & Hc & R).
  exists c. split; [exact Hc|]. cbv zeta.
  assert (NE : at_place (rows_of k) c <> []).
  { destruct Hc as (l1 & l2 & P & _). assert (I : In c (places (rows_of k))) by (rewrite P; apply in_or_app; right; now left).
    unfold places in I. apply in_flat_map in I as (d & Id & I). apply in_map_iff in I as (q & <- & Iq). unfold ratios in Iq. apply firsts_in in Iq.
    apply in_map_iff in Iq as (r & <- & Ir). apply filter_In in Ir as (Ir & Er). intros Z. unfold at_place in Z. apply map_eq_nil in Z.
    assert (J : In r []); [|destruct J]. rewrite <- Z. apply filter_In. split; [exact Ir|]. cbn [fst snd]. rewrite Er. cbn. apply Qeqb_refl. }
  unfold select. rewrite C, N, B. cbn [andb negb]. destruct (p_dim p) as [|d] eqn:Ed; [lia|]. rewrite R. fold (allowed (p_workers p) (at_place (rows_of k) c)).
  destruct (allowed (p_workers p) (at_place (rows_of k) c)) as [|a algs] eqn:A.
  - left. split; [reflexivity|]. unfold allowed in A. destruct (Nat.ltb_spec 1 (p_workers p)) as [W|W]; [|congruence]. split; [exact W|reflexivity].
  - right. split; [discriminate|]. destruct (most_frequent_spec order (a :: algs) O ltac:(discriminate)) as (x & Ex & Tx).
    destruct k; [reflexivity| | |]; exists x; rewrite Ex; auto.
Qed.
Lemma allowed_ok : forall nw l a, 1 < nw -> In a (allowed nw l) -> no_parallelization a = false.
Proof. intros nw l a H I. unfold allowed in I. apply Nat.ltb_lt in H. rewrite H in I. apply filter_In in I as (_ & E). now apply negb_true_iff in E. Qed.
Lemma closest_unique : forall rows d nod k k', closest rows d nod k -> closest rows d nod k' -> k = k'.
Proof.
  intros rows d nod k k' (l1 & l2 & P & H1 & H2) (m1 & m2 & P' & K1 & K2). cbv zeta in *. rewrite P in P'. clear P. revert m1 P' K1. induction l1 as [|x l1 IH]; intros m1 P' K1.
  - destruct m1 as [|y m1]; cbn in P'; [now injection P'|]. injection P' as <- P'. exfalso.
    assert (A := K1 k (or_introl eq_refl)). assert (B : In k' l2) by (rewrite P'; apply in_or_app; right; now left). specialize (H2 k' B). lra.
  - destruct m1 as [|y m1]; cbn in P'.
    + injection P' as <- P'. exfalso. assert (A := H1 x (or_introl eq_refl)). assert (B : In k m2) by (rewrite <- P'; apply in_or_app; right; now left). specialize (K2 k B). lra.
    + injection P' as <- P'. apply IH with m1; auto.
      * intros z I. apply H1. now right.
      * intros z I. apply K1. now right.
Qed.
Lemma top_exists : forall l, l <> [] -> exists a, a_top l a.
Proof. intros l N. destruct (most_frequent_spec (nodup string_dec) l) as (a & _ & T); [intros m; split; [apply NoDup_nodup|intros x; apply nodup_In]|exact N|]. eauto. Qed.
Lemma reproducible : forall k p b c, k <> F -> p_continuous p = true -> p_noise p = false -> p_budget p = Some b -> 1 <= p_dim p ->
  closest (rows_of k) (p_dim p) (qnat b / qnat (p_dim p))%Q c -> allowed (p_workers p) (at_place (rows_of k) c) <> [] ->
  ((forall o1 o2, iterates o1 -> iterates o2 -> select o1 k p = select o2 k p) <-> exists a, only_top (allowed (p_workers p) (at_place (rows_of k) c)) a).
Proof.
  intros k p b c K C N B D Hc A.
  assert (Sel : forall o, iterates o -> exists a, a_top (allowed (p_workers p) (at_place (rows_of k) c)) a /\ most_frequent o (allowed (p_workers p) (at_place (rows_of k) c)) = Some a /\ select o k p = Ok (One a)).
  { intros o O. destruct (select_spec o k p b O C N B D) as (c' & Hc' & H). rewrite <- (closest_unique _ _ _ _ _ Hc Hc') in H. cbv zeta in H.
    destruct H as [(Z & _)|(_ & H)]; [contradiction|]. destruct k; [congruence|exact H|exact H|exact H]. }
  split.
  - intros H. destruct (top_exists _ A) as (a & T). exists a. split; [exact T|]. intros x Tx.
    destruct (Sel _ (ahead_iterates a)) as (a1 & _ & M1 & S1). destruct (Sel _ (ahead_iterates x)) as (a2 & _ & M2 & S2).
    rewrite (ahead_first _ _ T) in M1. rewrite (ahead_first _ _ Tx) in M2. specialize (H _ _ (ahead_iterates a) (ahead_iterates x)). congruence.
  - intros (a & T & U) o1 o2 O1 O2. destruct (Sel o1 O1) as (a1 & T1 & _ & ->). destruct (Sel o2 O2) as (a2 & T2 & _ & ->). rewrite (U _ T1), (U _ T2). reflexivity.
Qed.

Lemma far_96 : forall (n nod : Q) (c : nat) (q : Q), (96 <= n -> 0 <= nod -> nod <= 72 ->
  2 * n * (96 - qnat c) + 2 * nod * (0.104167 - q) + qnat c * qnat c + q * q > 96 * 96 + 0.104167 * 0.104167 ->
  (n - 96) ^ 2 + (nod - 0.104167) ^ 2 < (n - qnat c) ^ 2 + (nod - q) ^ 2)%Q.
Proof. intros n nod c q H1 H2 H3 H4. assert (P : forall x, (x ^ 2 == x * x)%Q) by (intros; reflexivity). rewrite !P.
  assert (E : ((n - qnat c) * (n - qnat c) + (nod - q) * (nod - q) - ((n - 96) * (n - 96) + (nod - 0.104167) * (nod - 0.104167)) ==
    2 * n * (96 - qnat c) + 2 * nod * (0.104167 - q) + qnat c * qnat c + q * q - (96 * 96 + 0.104167 * 0.104167))%Q) by ring. lra. Qed.
Lemma many_variables : forall order p b, iterates order -> p_continuous p = true -> p_noise p = false -> p_budget p = Some b ->
  96 <= p_dim p -> b <= 72 * p_dim p ->
  select order F p = Ok (if 1 <? p_workers p then SQPCMA else Mix ["PCABO"%string] (6 # 10)%Q).
Proof.
  intros order p b O C N B D H. destruct (select_spec order F p b O C N B ltac:(lia)) as (c & Hc & S). cbv zeta in S.
  assert (D1 : (96 <= qnat (p_dim p))%Q) by (unfold qnat; change 96%Q with (inject_Z 96); rewrite <- Zle_Qle; lia).
  assert (N0 : (0 <= qnat b / qnat (p_dim p))%Q) by (apply Qle_shift_div_l; [lra|]; unfold qnat; change 0%Q with (inject_Z 0); rewrite <- inject_Z_mult, <- Zle_Qle; lia).
  assert (N1 : (qnat b / qnat (p_dim p) <= 72)%Q).
  { apply Qle_shift_div_r; [lra|]. unfold qnat. change 72%Q with (inject_Z 72). rewrite <- inject_Z_mult, <- Zle_Qle. lia. }
  assert (Ec : c = (96, 0.104167%Q)).
  { apply (closest_unique _ _ _ _ _ Hc). clear Hc S. set (n := qnat (p_dim p)) in *. set (nod := (qnat b / n)%Q) in *.
    assert (P : places (rows_of F) = places (rows_of F)) by reflexivity. set (x := places (rows_of F)) in P at 2. vm_compute in x. subst x.
    eexists (removelast (places (rows_of F))), []. split; [vm_compute; reflexivity|]. split; [|intros x []].
    intros x Ix. rewrite P in Ix. cbn [removelast In] in Ix. cbn [fst snd]. fold n. change (qnat 96) with 96%Q.
    clearbody nod. clearbody n. clear - D1 N0 N1 Ix.
    repeat (destruct Ix as [<-|Ix]; [cbn [fst snd]; apply far_96; auto; unfold qnat; cbn [Z.of_nat Pos.of_succ_nat Pos.succ]; unfold inject_Z; lra|]).
    destruct Ix. }
  subst c. assert (E : at_place (rows_of F) (96, 0.104167%Q) = ["PCABO"%string]) by (vm_compute; reflexivity). rewrite E in S. unfold allowed in S.
  destruct (1 <? p_workers p).
  - destruct S as [(_ & _ & S)|(S & _)]; [exact S|]. vm_compute in S. congruence.
  - destruct S as [(S & _)|(_ & S)]; [discriminate S|exact S].
Qed.

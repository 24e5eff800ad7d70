From Coq Require Import QArith Bool List Arith Lia Lqa Permutation Sorting.
From Verif.Model Require Import Prelude MultiValue Nsga2 Hypervolume.
From Verif.Spec Require Import Hypervolume.
From Verif.Proofs Require Import Prelude MultiValue Nsga2 HyperMeasure.
Import ListNotations.
Open Scope nat_scope.

Lemma split_unique {A} (pre pre' post post' : list A) y : NoDup (pre ++ y :: post) -> pre ++ y :: post = pre' ++ y :: post' -> pre = pre' /\ post = post'.
Proof.
  revert pre'. induction pre as [|a pre IH]; intros pre' Hn E; destruct pre' as [|a' pre']; cbn in *.
  - injection E as ->. auto.
  - injection E as -> ->. inversion Hn as [|? ? H _]; subst. exfalso. apply H. apply in_or_app. right. left. reflexivity.
  - injection E as -> E. inversion Hn as [|? ? H _]; subst. exfalso. apply H. apply in_or_app. right. left. reflexivity.
  - injection E as -> E. inversion Hn; subst. destruct (IH pre' H2 E) as [-> ->]. auto.
Qed.
Lemma filter_split {A} (f : A -> bool) : forall l pre y post, filter f l = pre ++ y :: post -> exists l1 l2, l = l1 ++ y :: l2 /\ filter f l1 = pre /\ filter f l2 = post /\ f y = true.
Proof.
  induction l as [|a l IH]; intros pre y post E; [destruct pre; discriminate|]. cbn in E. destruct (f a) eqn:Ea.
  - destruct pre as [|b pre]; cbn in E; injection E as -> E.
    + exists [], l. auto.
    + destruct (IH _ _ _ E) as [l1 [l2 [-> [H1 [H2 H3]]]]]. exists (b :: l1), l2. cbn. rewrite Ea, H1. auto.
  - destruct (IH _ _ _ E) as [l1 [l2 [-> [H1 [H2 H3]]]]]. exists (a :: l1), l2. cbn. rewrite Ea, H1. auto.
Qed.

Section Algorithm.
Variable points : list (list Q).
Variable d : nat.
Notation N := (length points).
Notation c := (coord points).
Notation srt := (sorted_by points).
Hypothesis c_neg : forall i x, x < N -> (c i x <= 0)%Q.
Definition places (i : nat) : list Q := map (c i) (srt i).
Notation vol := (V (coord points) places).

Lemma srt_perm i : Permutation (srt i) (seq 0 N).
Proof. apply sort_perm. Qed.
Lemma srt_in i x : In x (srt i) <-> x < N.
Proof. split; intros H; [apply (Permutation_in _ (srt_perm i)) in H; apply in_seq in H; lia|apply (Permutation_in _ (Permutation_sym (srt_perm i))); apply in_seq; lia]. Qed.
Lemma srt_nodup i : NoDup (srt i).
Proof. eapply Permutation_NoDup; [symmetry; apply srt_perm|apply seq_NoDup]. Qed.
Lemma srt_sorted i : StronglySorted (fun x y => (c i x <= c i y)%Q) (srt i).
Proof.
  pose proof (sort_sorted (fun x y => qle (c i x) (c i y)) ltac:(intros x y; apply qle_total) ltac:(intros x y z; apply qle_tr) (seq 0 N)) as H.
  unfold sorted_by. induction H as [|x s Hs IH Hx]; constructor; [exact IH|]. eapply Forall_impl; [|exact Hx]. intros z Hz. apply qle_iff in Hz. exact Hz.
Qed.
Lemma places_sorted i : StronglySorted Qle (places i).
Proof. unfold places. pose proof (srt_sorted i) as H. induction H as [|x s Hs IH Hx]; cbn; constructor; [exact IH|]. apply Forall_map. exact Hx. Qed.
Lemma places_neg i x : In x (places i) -> (x <= 0)%Q.
Proof. intros H. apply in_map_iff in H as [y [<- Hy]]. apply c_neg. apply srt_in in Hy. exact Hy. Qed.
Lemma on_places i x : x < N -> on_grid c places i x.
Proof. intros H. exists (c i x). split; [|reflexivity]. apply in_map. apply srt_in. exact H. Qed.
Local Notation mono := (V_mono c places places_sorted places_neg).
Local Notation same := (V_same c places places_sorted places_neg).
Local Notation increment := (V_increment c places places_sorted).
Lemma vol_snoc D P x : (vol D (P ++ [x]) == vol D (x :: P))%Q.
Proof. apply same; intros y Hy; [apply in_app_iff in Hy as [Hy|[<-|[]]]; [right; exact Hy|left; reflexivity]|destruct Hy as [<-|Hy]; apply in_or_app; [right; left; reflexivity|left; exact Hy]]. Qed.

Definition chain_of (i : nat) (S : list nat) : list nat := filter (fun y => memb y S) (srt i).
Lemma chain_of_in i S x : In x (chain_of i S) <-> x < N /\ In x S.
Proof. unfold chain_of. rewrite filter_In, srt_in, memb_iff. tauto. Qed.
Lemma chain_of_nodup i S : NoDup (chain_of i S).
Proof. apply NoDup_filter, srt_nodup. Qed.
Lemma chain_of_perm i S : NoDup S -> (forall x, In x S -> x < N) -> Permutation (chain_of i S) S.
Proof. intros H1 H2. apply NoDup_Permutation; [apply chain_of_nodup|exact H1|]. intros x. rewrite chain_of_in. split; [tauto|]. intros H. split; [apply H2; exact H|exact H]. Qed.
Lemma chain_of_ext i S S' : (forall x, In x S <-> In x S') -> chain_of i S = chain_of i S'.
Proof. intros H. unfold chain_of. apply filter_ext. intros x. apply eq_true_iff_eq. rewrite !memb_iff. apply H. Qed.
Lemma chain_of_sorted i S pre y post x : chain_of i S = pre ++ y :: post -> In x pre -> (c i x <= c i y)%Q.
Proof.
  intros E Hx. apply filter_split in E as [l1 [l2 [E [H1 _]]]]. rewrite <- H1 in Hx. apply filter_In in Hx as [Hx _]. pose proof (srt_sorted i) as Hs. rewrite E in Hs.
  clear - Hx Hs. induction l1 as [|a l1 IH]; [destruct Hx|]. cbn in Hs. inversion Hs as [|? ? Hs' HF]; subst. destruct Hx as [-> |Hx]; [|exact (IH Hx Hs')].
  rewrite Forall_forall in HF. apply HF. apply in_or_app. right. left. reflexivity.
Qed.
Definition before (i y x : nat) : Prop := exists pre post, srt i = pre ++ x :: post /\ In y pre.
Lemma before_chain i S pre x post y : chain_of i S = pre ++ x :: post -> In y pre -> before i y x.
Proof. intros E Hy. apply filter_split in E as [l1 [l2 [E [H1 _]]]]. exists l1, l2. split; [exact E|]. rewrite <- H1 in Hy. apply filter_In in Hy. tauto. Qed.
Lemma before_in i S pre x post y : chain_of i S = pre ++ x :: post -> before i y x -> In y S -> In y pre.
Proof.
  intros E [p [q [E2 Hy]]] Hs. apply filter_split in E as [l1 [l2 [E [H1 _]]]]. rewrite E in E2. pose proof (srt_nodup i) as Hn. rewrite E in Hn. destruct (split_unique _ _ _ _ _ Hn E2) as [-> _].
  rewrite <- H1. apply filter_In. split; [exact Hy|]. apply memb_iff. exact Hs.
Qed.
Lemma before_lt i y x : x < N -> y < N -> (c i y < c i x)%Q -> before i y x.
Proof.
  intros Hx Hy Hlt. assert (Hin : In x (srt i)) by (apply srt_in; exact Hx). apply in_split in Hin as [l1 [l2 E]]. exists l1, l2. split; [exact E|].
  assert (Hy' : In y (srt i)) by (apply srt_in; exact Hy). rewrite E in Hy'. apply in_app_iff in Hy' as [H|[<-|H]]; [exact H|lra|].
  exfalso. pose proof (srt_sorted i) as Hs. rewrite E in Hs. clear - Hs H Hlt. induction l1 as [|a l1 IH]; cbn in Hs; inversion Hs as [|? ? Hs' HF]; subst; [|exact (IH Hs')]. rewrite Forall_forall in HF. specialize (HF y H). lra.
Qed.
Lemma before_irr i x : ~ before i x x.
Proof. intros [p [q [E H]]]. pose proof (srt_nodup i) as Hn. rewrite E in Hn. apply NoDup_remove_2 in Hn. apply Hn. apply in_or_app. left. exact H. Qed.

Definition rep (st : hstate) (k : nat) (S : list nat) : Prop := forall i, i < k -> chain st i = chain_of i S.
Definition bnd (st : hstate) (i : nat) : option Q := nth i (h_bounds st) None.
(** cached areas and volumes below the bound are right *)
Definition cache (st : hstate) (S : list nat) (E : nat) : Prop := forall b pre y post, bnd st E = Some b -> chain_of E S = pre ++ y :: post -> (c E y < b)%Q ->
  (h_area st y E == vol E (pre ++ [y]))%Q /\ (h_volume st y E == vol (Datatypes.S E) (pre ++ [y]) + c E y * vol E (pre ++ [y]))%Q.
(** flagged nodes are dominated *)
Definition flagged (st : hstate) (S : list nat) (x : nat) : Prop := exists y, In y S /\ (forall E, 2 <= E <= h_flag st x -> before E y x) /\ forall i, i < h_flag st x -> (c i y <= c i x)%Q.
Definition flags (st : hstate) (S : list nat) : Prop := forall x, In x S -> 2 <= h_flag st x -> flagged st S x.
Definition strict : Prop := forall x i, x < N -> S i < d -> (c i x < 0)%Q.
Definition distinct : Prop := forall x y i, x < N -> y < N -> x <> y -> 2 <= i -> S i < d -> ~ (c i x == c i y)%Q.
Definition good : Prop := strict /\ distinct.
Hypothesis high : 3 < d -> good.
Definition sized (st : hstate) : Prop := length (h_chains st) = d /\ length (h_bounds st) = d.

Definition rec_spec (D : nat) (f : hstate -> result (Q * hstate)) : Prop := forall st S,
  NoDup S -> (forall x, In x S -> x < N) -> S <> [] -> sized st -> D < d -> rep st (Datatypes.S D) S -> (2 <= D \/ good -> flags st S) ->
  (2 <= length S -> forall E, 2 <= E <= D -> cache st S E) ->
  exists q st', f st = Ok (q, st') /\ (q == vol (Datatypes.S D) S)%Q /\ sized st' /\ (forall i, chain st' i = chain st i) /\
    (forall i, D < i -> bnd st' i = bnd st i) /\ (forall x j, D < j -> h_area st' x j = h_area st x j /\ h_volume st' x j = h_volume st x j) /\
    (forall x, ~ In x S -> h_flag st' x = h_flag st x) /\ (forall E, 2 <= E <= D -> cache st' S E) /\ (good -> flags st' S).

(** Bounds *)
Lemma nth_map_seq {A} (f : nat -> A) n i a : i < n -> nth i (map f (seq 0 n)) a = f i.
Proof. intros H. rewrite (nth_indep _ a (f 0)) by (rewrite map_length, seq_length; exact H). rewrite map_nth, seq_nth by exact H. reflexivity. Qed.
Definition lowered (b : option Q) (q : Q) : option Q := if bound_above b q then Some q else b.
Lemma update_bounds_bnd x k st i : sized st -> i < d -> bnd (update_bounds points x k st) i = if i <? k then lowered (bnd st i) (c i x) else bnd st i.
Proof.
  intros [_ Hl] Hi. unfold bnd, update_bounds, at_, with_bounds. cbn [h_bounds]. rewrite nth_map_seq by lia. cbv zeta. unfold lowered. destruct (i <? k); cbn [andb]; [|reflexivity]. destruct (bound_above _ _); reflexivity.
Qed.
Lemma update_bounds_big x k st i : sized st -> d <= i -> bnd (update_bounds points x k st) i = bnd st i.
Proof. intros [_ Hl] Hi. unfold bnd, update_bounds. cbn. rewrite !nth_overflow; [reflexivity|lia|rewrite map_length, seq_length; lia]. Qed.
Lemma lowered_some b q b' : lowered b q = Some b' -> exists b0, b = Some b0 /\ (b' <= b0)%Q /\ (b' <= q)%Q.
Proof.
  unfold lowered, bound_above. destruct b as [b|]; [|discriminate]. destruct (qlt q b) eqn:E; intros [= <-]; exists b.
  - apply qlt_iff in E. repeat split; lra.
  - repeat split; try lra. destruct (Qlt_le_dec q b) as [H|H]; [apply qlt_iff in H; congruence|exact H].
Qed.
(** inserting or removing x with its bounds keeps the cache *)
Lemma cache_change st st' S S' x E : cache st S E -> (forall y, y <> x -> (In y S <-> In y S')) -> bnd st' E = lowered (bnd st E) (c E x) ->
  (forall y, h_area st' y E = h_area st y E /\ h_volume st' y E = h_volume st y E) -> cache st' S' E.
Proof.
  intros HC HS Hb Ha b pre y post Eb Ec Hlt. rewrite Hb in Eb. apply lowered_some in Eb as [b0 [Eb0 [H1 H2]]]. destruct (Ha y) as [A1 A2]. rewrite A1, A2.
  pose proof Ec as Ec'. apply filter_split in Ec as [l1 [l2 [Es [Hp [Hq Hy]]]]].
  assert (Hyx : y <> x) by (intros ->; lra).
  assert (Hx1 : ~ In x l1).
  { intros Hx. pose proof (srt_sorted E) as Hs. rewrite Es in Hs. assert (Hle : (c E x <= c E y)%Q); [|lra].
    clear - Hs Hx. induction l1 as [|a l1 IH]; [destruct Hx|]. cbn in Hs. inversion Hs as [|? ? Hs' HF]; subst. destruct Hx as [-> |Hx]; [|exact (IH Hx Hs')]. rewrite Forall_forall in HF. apply HF. apply in_or_app. right. left. reflexivity. }
  apply (HC b0 pre y (filter (fun z => memb z S) l2) Eb0); [|lra]. unfold chain_of. rewrite Es, filter_app. cbn [filter].
  assert (Hy' : memb y S = true) by (apply memb_iff, HS; [exact Hyx|apply memb_iff; exact Hy]). rewrite Hy'. f_equal. rewrite <- Hp. apply filter_ext_in. intros z Hz. apply eq_true_iff_eq. rewrite !memb_iff. apply HS. intros ->. exact (Hx1 Hz).
Qed.

(** Chains *)
Lemma chain_pop x k st i : sized st -> i < d -> chain (pop x k st) i = if i <? k then unlink x (chain st i) else chain st i.
Proof. intros [Hl _] Hi. unfold chain at 1, pop, at_. cbn. rewrite nth_map_seq by lia. destruct (i <? k); reflexivity. Qed.
Lemma chain_reinsert x k st i : sized st -> i < d -> chain (reinsert points x k st) i = if i <? k then relink points i x (chain st i) else chain st i.
Proof. intros [Hl _] Hi. unfold chain at 1, reinsert, at_. cbn. rewrite nth_map_seq by lia. destruct (i <? k); reflexivity. Qed.
Lemma chain_big st i : sized st -> d <= i -> chain st i = [].
Proof. intros [Hl _] Hi. unfold chain, at_. rewrite nth_overflow; [reflexivity|lia]. Qed.
Lemma unlink_chain i S x : unlink x (chain_of i S) = chain_of i (filter (fun y => negb (y =? x)) S).
Proof.
  unfold unlink, chain_of. induction (srt i) as [|a l IH]; [reflexivity|]. cbn [filter].
  assert (E : memb a (filter (fun y => negb (y =? x)) S) = memb a S && negb (a =? x)) by (apply eq_true_iff_eq; rewrite andb_true_iff, !memb_iff, filter_In; tauto).
  rewrite E. destruct (memb a S); cbn [filter andb]; [destruct (a =? x); cbn [negb]; rewrite IH; reflexivity|exact IH].
Qed.
Lemma relink_chain i S x : x < N -> relink points i x (chain_of i S) = chain_of i (S ++ [x]).
Proof.
  intros Hx. unfold relink, chain_of at 2. apply filter_ext_in. intros y Hy. apply eq_true_iff_eq. rewrite memb_iff, in_app_iff, orb_true_iff, Nat.eqb_eq. change (existsb (Nat.eqb y) (chain_of i S)) with (memb y (chain_of i S)). rewrite memb_iff, chain_of_in. apply srt_in in Hy. cbn. intuition.
Qed.
Lemma sized_pop x k st : sized st -> sized (pop x k st).
Proof. intros [H1 H2]. split; cbn; [rewrite map_length, seq_length; exact H1|exact H2]. Qed.
Lemma sized_reinsert x k st : sized st -> sized (reinsert points x k st).
Proof. intros [H1 H2]. split; cbn; [rewrite map_length, seq_length; exact H1|exact H2]. Qed.
Lemma sized_bounds x k st : sized st -> sized (update_bounds points x k st).
Proof. intros [H1 H2]. split; cbn; [exact H1|rewrite map_length, seq_length; exact H2]. Qed.
Lemma rep_pop st D P x : sized st -> D <= d -> rep st D (P ++ [x]) -> NoDup (P ++ [x]) -> rep (pop x D st) D P.
Proof.
  intros Hs HD HR Hn i Hi. rewrite chain_pop by (assumption || lia). apply Nat.ltb_lt in Hi as Hi'. rewrite Hi', (HR i Hi), unlink_chain. apply chain_of_ext. intros y. rewrite filter_In, in_app_iff, negb_true_iff, Nat.eqb_neq. cbn.
  split; [intros [[H|[H|[]]] H1]; [exact H|congruence]|]. intros H. split; [left; exact H|]. intros ->. apply NoDup_remove_2 in Hn. apply Hn. rewrite app_nil_r. exact H.
Qed.
Lemma rep_reinsert st D P x : sized st -> D <= d -> x < N -> rep st D P -> rep (reinsert points x D st) D (P ++ [x]).
Proof. intros Hs HD Hx HR i Hi. rewrite chain_reinsert by (assumption || lia). apply Nat.ltb_lt in Hi as Hi'. rewrite Hi', (HR i Hi). apply relink_chain. exact Hx. Qed.
Lemma rep_length st D P : 0 < D -> rep st D P -> NoDup P -> (forall x, In x P -> x < N) -> chain_length st (D - 1) = length P.
Proof. intros HD HR Hn Hl. unfold chain_length. rewrite (HR (D - 1)) by lia. apply Permutation_length, chain_of_perm; assumption. Qed.
Lemma hd_rev_snoc {A} (l : list A) x : hd_error (rev (l ++ [x])) = Some x.
Proof. rewrite rev_app_distr. reflexivity. Qed.

(** The loop that removes nodes *)
Lemma pop_loop_spec D : 2 <= D < d -> forall r st, let P := rev r in r <> [] -> NoDup P -> (forall x, In x P -> x < N) -> sized st -> rep st D P ->
  (2 <= length P -> forall E, 2 <= E < D -> cache st P E) ->
  exists pre cur tail st', P = pre ++ cur :: tail /\ pop_loop points D r st = Ok (Some (cur, hd_error (rev pre)), st') /\ rep st' D (pre ++ [cur]) /\ sized st' /\
    (forall i, D <= i -> chain st' i = chain st i) /\ (forall i, D <= i -> bnd st' i = bnd st i) /\ h_area st' = h_area st /\ h_volume st' = h_volume st /\ h_flag st' = h_flag st /\
    (pre = [] \/ exists b p pre', bnd st D = Some b /\ pre = pre' ++ [p] /\ (c D p < b)%Q) /\
    (2 <= length (pre ++ [cur]) -> forall E, 2 <= E < D -> cache st' (pre ++ [cur]) E).
Proof.
  intros HD. induction r as [|x r IH]; intros st P Hne Hn Hl Hs HR HC; [congruence|]. subst P. cbn [rev] in *.
  assert (Hstop : exists pre cur tail st', rev r ++ [x] = pre ++ cur :: tail /\ Ok (Some (x, hd_error r), st) = Ok (Some (cur, hd_error (rev pre)), st') /\ rep st' D (pre ++ [cur]) /\ sized st' /\
    (forall i, D <= i -> chain st' i = chain st i) /\ (forall i, D <= i -> bnd st' i = bnd st i) /\ h_area st' = h_area st /\ h_volume st' = h_volume st /\ h_flag st' = h_flag st /\
    (pre = rev r) /\ (2 <= length (pre ++ [cur]) -> forall E, 2 <= E < D -> cache st' (pre ++ [cur]) E)).
  { exists (rev r), x, [], st. rewrite rev_involutive. auto 15. }
  cbn [pop_loop]. rewrite (rep_length st D (rev r ++ [x]) ltac:(lia) HR Hn Hl). rewrite app_length, rev_length. cbn [length].
  destruct (Nat.ltb_spec 1 (length r + 1)) as [Hlen|Hlen].
  2:{ cbn [bind]. destruct r; [|cbn in Hlen; lia]. destruct Hstop as [pre [cur [tail [st' [H1 [H2 [H3 [H4 [H5 [H6 [H7 [H8 [H9 [H10 H11]]]]]]]]]]]]]].
      exists pre, cur, tail, st'. repeat (split; [assumption|]). split; [left; exact H10|exact H11]. }
  assert (Hpop : exists pre cur tail st', rev r ++ [x] = pre ++ cur :: tail /\
      bind (pop_loop points D r (pop x D (update_bounds points x D st))) (fun r0 => Ok (match fst r0 with None => Some (x, hd_error r) | Some c0 => Some c0 end, snd r0)) = Ok (Some (cur, hd_error (rev pre)), st') /\
      rep st' D (pre ++ [cur]) /\ sized st' /\
    (forall i, D <= i -> chain st' i = chain st i) /\ (forall i, D <= i -> bnd st' i = bnd st i) /\ h_area st' = h_area st /\ h_volume st' = h_volume st /\ h_flag st' = h_flag st /\
    (pre = [] \/ exists b p pre', bnd st D = Some b /\ pre = pre' ++ [p] /\ (c D p < b)%Q) /\
    (2 <= length (pre ++ [cur]) -> forall E, 2 <= E < D -> cache st' (pre ++ [cur]) E)).
  { set (st1 := pop x D (update_bounds points x D st)).
    assert (Hs1 : sized st1) by (apply sized_pop, sized_bounds; exact Hs).
    assert (HR1 : rep st1 D (rev r)) by (apply rep_pop; [apply sized_bounds; exact Hs|lia|exact HR|exact Hn]).
    assert (Hn1 : NoDup (rev r)) by (apply NoDup_remove_1 in Hn; rewrite app_nil_r in Hn; exact Hn).
    assert (HC1 : 2 <= length (rev r) -> forall E, 2 <= E < D -> cache st1 (rev r) E).
    { intros _ E HE. apply (cache_change st st1 (rev r ++ [x]) (rev r) x E); [apply HC; [rewrite app_length, rev_length; cbn; lia|exact HE]| | |intros y; split; reflexivity].
      - intros y Hy. rewrite in_app_iff. cbn. split; [intros [H|[H|[]]]; [exact H|congruence]|auto].
      - unfold st1. change (bnd (pop x D (update_bounds points x D st)) E) with (bnd (update_bounds points x D st) E). rewrite update_bounds_bnd by (assumption || lia). destruct (Nat.ltb_spec E D); [reflexivity|lia]. }
    assert (Hb1 : forall i, D <= i -> bnd st1 i = bnd st i).
    { intros i Hi. unfold st1. change (bnd (pop x D (update_bounds points x D st)) i) with (bnd (update_bounds points x D st) i). destruct (Nat.lt_ge_cases i d); [|apply update_bounds_big; assumption]. rewrite update_bounds_bnd by assumption. destruct (Nat.ltb_spec i D); [lia|reflexivity]. }
    assert (Hc1 : forall i, D <= i -> chain st1 i = chain st i).
    { intros i Hi. destruct (Nat.lt_ge_cases i d) as [Hid|Hid]; [|rewrite !chain_big by assumption; reflexivity]. unfold st1. rewrite chain_pop by (try apply sized_bounds; assumption). destruct (Nat.ltb_spec i D); [lia|reflexivity]. }
    destruct r as [|x2 r2]; [cbn in Hlen; lia|].
    destruct (IH st1 ltac:(discriminate) Hn1 ltac:(intros y Hy; apply Hl, in_or_app; left; exact Hy) Hs1 HR1 HC1) as [pre [cur [tail [st' [H1 [H2 [H3 [H4 [H5 [H6 [H7 [H8 [H9 [H10 H11]]]]]]]]]]]]]].
    exists pre, cur, (tail ++ [x]), st'. split; [rewrite H1, <- app_assoc; reflexivity|]. rewrite H2. cbn [bind fst snd]. split; [reflexivity|]. split; [exact H3|]. split; [exact H4|].
    split; [intros i Hi; rewrite (H5 i Hi); apply Hc1; exact Hi|]. split; [intros i Hi; rewrite (H6 i Hi); apply Hb1; exact Hi|]. split; [rewrite H7; reflexivity|]. split; [rewrite H8; reflexivity|]. split; [rewrite H9; reflexivity|].
    split; [|exact H11]. destruct H10 as [H10|[b [p [pre' [B1 B2]]]]]; [left; exact H10|]. right. exists b, p, pre'. rewrite Hb1 in B1 by lia. split; [exact B1|exact B2]. }
  destruct (above (at_ (h_bounds st) D None) (c D x)) eqn:Ea; [cbn [bind]; exact Hpop|]. destruct r as [|y r]; [cbn in Hlen; lia|]. cbn [hd_error bind].
  destruct (at_least (at_ (h_bounds st) D None) (c D y)) eqn:Eb; [exact Hpop|]. clear Hpop.
  destruct Hstop as [pre [cur [tail [st' [H1 [H2 [H3 [H4 [H5 [H6 [H7 [H8 [H9 [H10 H11]]]]]]]]]]]]]]. exists pre, cur, tail, st'. repeat (split; [assumption|]). split; [|exact H11]. right.
  unfold at_ in Eb. fold (bnd st D) in Eb. destruct (bnd st D) as [b|]; [|discriminate]. exists b, y, (rev r). split; [reflexivity|]. split; [rewrite H10; reflexivity|]. cbn in Eb. apply Qnot_le_lt. intros Hq. apply qle_iff in Hq. congruence.
Qed.

(** areas and volumes of the nodes of a prefix of the chain *)
Definition valid (st : hstate) (D : nat) (P : list nat) : Prop := forall pre y post, P = pre ++ y :: post -> (h_area st y D == vol D (pre ++ [y]))%Q.
Lemma valid_last st D P : valid st D P -> (area_of st (hd_error (rev P)) D == vol D P)%Q.
Proof.
  intros HV. destruct P as [|x P] using rev_ind; [cbn [rev hd_error area_of]; rewrite V_nil; reflexivity|]. rewrite hd_rev_snoc. cbn [area_of]. apply (HV P x []). reflexivity.
Qed.
(** a node that is about to be processed: its flag, if any, comes from a level at least this one and it is dominated by a node before *)
Definition pending (st : hstate) (D : nat) (P : list nat) (x : nat) : Prop := 2 <= h_flag st x -> D <= h_flag st x /\ flagged st P x.
Lemma good_high D : 3 <= D -> D < d -> good.
Proof. intros H1 H2. apply high. lia. Qed.

Lemma skip_spec D f S P0 x rest st : 2 <= D < d -> rec_spec (D - 1) f -> chain_of D S = P0 ++ x :: rest -> (forall y, In y (P0 ++ [x]) -> y < N) -> sized st -> rep st D (P0 ++ [x]) ->
  (good -> flags st P0) -> pending st D P0 x -> valid st D P0 -> (2 <= length (P0 ++ [x]) -> forall E, 2 <= E < D -> cache st (P0 ++ [x]) E) ->
  exists st', skip_dominated f D x (hd_error (rev P0)) st = Ok st' /\ sized st' /\ (forall i, chain st' i = chain st i) /\ (forall i, D <= i -> bnd st' i = bnd st i) /\
    (forall y j, D < j -> h_area st' y j = h_area st y j) /\ (forall y j, D <= j -> h_volume st' y j = h_volume st y j) /\ (forall y, y <> x -> h_area st' y D = h_area st y D) /\
    (forall y, ~ In y (P0 ++ [x]) -> h_flag st' y = h_flag st y) /\ valid st' D (P0 ++ [x]) /\ (forall E, 2 <= E < D -> cache st' (P0 ++ [x]) E) /\ (good -> flags st' (P0 ++ [x])).
Proof.
  intros HD Hf Hch Hl Hs HR HF HX HV HC. set (P := P0 ++ [x]) in *.
  assert (Hnd : NoDup P).
  { pose proof (chain_of_nodup D S) as Hn. rewrite Hch in Hn. unfold P. replace (P0 ++ x :: rest) with ((P0 ++ [x]) ++ rest) in Hn by (rewrite <- app_assoc; reflexivity). clear - Hn. induction (P0 ++ [x]) as [|a l IH]; [constructor|]. cbn in Hn. inversion Hn; subst. constructor; [intros Ha; apply H1, in_or_app; left; exact Ha|auto]. }
  assert (Hx0 : ~ In x P0) by (unfold P in Hnd; apply NoDup_remove_2 in Hnd; rewrite app_nil_r in Hnd; exact Hnd).
  assert (HxP : In x P) by (apply in_or_app; right; left; reflexivity).
  assert (Hsub : forall y, In y P0 -> In y P) by (intros y Hy; apply in_or_app; left; exact Hy).
  (* valid after the area of x is set *)
  assert (Hval : forall st', (forall y, y <> x -> h_area st' y D = h_area st y D) -> (h_area st' x D == vol D P)%Q -> valid st' D P).
  { intros st' H1 H2 pre y post E. destruct post as [|z post] using rev_ind.
    - apply app_inj_tail in E as [<- <-]. exact H2.
    - clear IHpost. unfold P in E. replace (pre ++ y :: post ++ [z]) with ((pre ++ y :: post) ++ [z]) in E by (rewrite <- app_assoc; reflexivity). apply app_inj_tail in E as [E <-].
      rewrite H1 by (intros ->; apply Hx0; rewrite E; apply in_or_app; right; left; reflexivity). apply (HV pre y post E). }
  unfold skip_dominated. destruct (Nat.leb_spec D (h_flag st x)) as [Hflag|Hflag].
  - destruct (HX ltac:(lia)) as [_ [y [Hy [Hbef Hdom]]]].
    assert (Hnull : (vol D P == vol D P0)%Q).
    { unfold P. rewrite vol_snoc. apply (null_dom c places D x y P0 Hy). intros i Hi. apply Hdom. lia. }
    eexists. split; [reflexivity|]. split; [exact Hs|]. split; [reflexivity|]. split; [reflexivity|].
    split; [intros z j Hj; cbn; unfold set2; destruct (Nat.eqb_spec z x), (Nat.eqb_spec j D); try reflexivity; lia|]. split; [reflexivity|].
    split; [intros z Hz; cbn; unfold set2; destruct (Nat.eqb_spec z x); [congruence|reflexivity]|]. split; [reflexivity|]. split; [|split].
    + apply Hval; [intros z Hz; cbn; unfold set2; destruct (Nat.eqb_spec z x); [congruence|reflexivity]|]. cbn. unfold set2. rewrite !Nat.eqb_refl. cbn [andb]. rewrite (valid_last st D P0 HV), Hnull. reflexivity.
    + assert (Hlen : 2 <= length P) by (unfold P; rewrite app_length; cbn; destruct P0; [destruct Hy|cbn; lia]).
      intros E HE b pre z post Eb Ec Hlt. destruct (HC Hlen E HE b pre z post Eb Ec Hlt) as [C1 C2]. cbn. unfold set2. destruct (Nat.eqb_spec E D); [lia|]. rewrite andb_false_r. split; assumption.
    + intros Hg z Hz Hfz. apply in_app_iff in Hz as [Hz|[<-|[]]].
      * destruct (HF Hg z Hz Hfz) as [w [W1 W2]]. exists w. split; [apply Hsub; exact W1|exact W2].
      * exists y. split; [apply Hsub; exact Hy|split; assumption].
  - assert (Hlow : h_flag st x < 2) by (destruct (Nat.lt_ge_cases (h_flag st x) 2) as [H|H]; [exact H|]; destruct (HX H); lia).
    assert (HFP : good -> flags st P).
    { intros Hg z Hz Hfz. apply in_app_iff in Hz as [Hz|[<-|[]]]; [|lia]. destruct (HF Hg z Hz Hfz) as [w [W1 W2]]. exists w. split; [apply Hsub; exact W1|exact W2]. }
    destruct (Hf st P Hnd Hl ltac:(intros E; rewrite E in HxP; destruct HxP) Hs ltac:(lia)) as [q [st1 [R1 [R2 [R3 [R4 [R5 [R6 [R7 [R8 R9]]]]]]]]]].
    { replace (Datatypes.S (D - 1)) with D by lia. exact HR. }
    { intros [H|H]; apply HFP; [apply (good_high D); lia|exact H]. }
    { intros H E HE. apply HC; [exact H|lia]. }
    replace (Datatypes.S (D - 1)) with D in R2 by lia. rewrite R1. cbn [bind fst snd]. set (st2 := with_area (set2 (h_area st1) x D q) st1).
    assert (A1 : forall z, z <> x -> h_area st2 z D = h_area st z D) by (intros z Hz; unfold st2; cbn; unfold set2; destruct (Nat.eqb_spec z x); [congruence|]; apply (R6 z D); lia).
    assert (A2 : (h_area st2 x D == vol D P)%Q) by (unfold st2; cbn; unfold set2; rewrite !Nat.eqb_refl; exact R2).
    assert (A3 : (area_of st2 (hd_error (rev P0)) D == vol D P0)%Q).
    { apply valid_last. intros pre y post E. rewrite A1; [apply (HV pre y post E)|]. intros ->. apply Hx0. rewrite E. apply in_or_app. right. left. reflexivity. }
    assert (B1 : forall z j, D < j -> h_area st2 z j = h_area st z j) by (intros z j Hj; unfold st2; cbn; unfold set2; destruct (Nat.eqb_spec j D); [lia|]; rewrite andb_false_r; apply (R6 z j); lia).
    assert (B2 : forall z j, D <= j -> h_volume st2 z j = h_volume st z j) by (intros z j Hj; apply (R6 z j); lia).
    assert (B3 : forall E, 2 <= E < D -> cache st2 P E).
    { intros E HE b pre z post Eb Ec Hlt. destruct (R8 E ltac:(lia) b pre z post Eb Ec Hlt) as [C1 C2]. unfold st2. cbn. unfold set2. destruct (Nat.eqb_spec E D); [lia|]. rewrite andb_false_r. split; assumption. }
    assert (B4 : forall i, D <= i -> bnd st2 i = bnd st i) by (intros i Hi; apply (R5 i); lia).
    destruct (qle (h_area st2 x D) (area_of st2 (hd_error (rev P0)) D)) eqn:Eq.
    + eexists. split; [reflexivity|]. split; [exact R3|]. split; [exact R4|]. split; [exact B4|]. split; [exact B1|]. split; [exact B2|]. split; [exact A1|].
      split; [intros z Hz; cbn; unfold set1; destruct (Nat.eqb_spec z x) as [-> |]; [contradiction|apply R7; exact Hz]|]. split; [apply (Hval _ A1 A2)|]. split; [exact B3|].
      intros Hg z Hz. cbn [h_flag with_flag]. unfold set1. destruct (Nat.eqb_spec z x) as [-> |Hzx].
      * intros _. apply qle_iff in Eq. rewrite A2, A3 in Eq.
        assert (Hnull : null c places D x P0).
        { unfold null. pose proof (mono D P0 (x :: P0) ltac:(intros w Hw; right; exact Hw)) as Hm. unfold P in Eq. rewrite vol_snoc in Eq. lra. }
        destruct Hg as [Hstr Hdis]. assert (HxN : x < N) by (apply Hl; exact HxP).
        destruct (null_dominated c places places_sorted places_neg D x P0) as [y [Hy Hle]]; [intros i Hi; split; [apply on_places; exact HxN|apply Hstr; [exact HxN|lia]]|exact Hnull|].
        assert (HyN : y < N) by (apply Hl, Hsub; exact Hy).
        exists y. split; [apply Hsub; exact Hy|]. cbn [h_flag with_flag]. unfold set1. rewrite Nat.eqb_refl. split; [|exact Hle]. intros E HE. destruct (Nat.eq_dec E D) as [-> |HED]; [apply (before_chain D S P0 x rest y Hch Hy)|].
        apply before_lt; [exact HxN|exact HyN|]. assert (Hne : y <> x) by (intros ->; exact (Hx0 Hy)). specialize (Hdis y x E HyN HxN Hne ltac:(lia) ltac:(lia)). specialize (Hle E ltac:(lia)). lra.
      * intros Hfz. destruct (R9 Hg z Hz Hfz) as [w [W1 [W2 W3]]]. exists w. split; [exact W1|]. cbn [h_flag with_flag]. unfold set1. destruct (Nat.eqb_spec z x); [congruence|]. split; assumption.
    + eexists. split; [reflexivity|]. split; [exact R3|]. split; [exact R4|]. split; [exact B4|]. split; [exact B1|]. split; [exact B2|]. split; [exact A1|]. split; [exact R7|]. split; [apply (Hval _ A1 A2)|]. split; [exact B3|exact R9].
Qed.

Definition at_node D P x : Q := (vol (S D) P + c D x * vol D P)%Q.
(** processing the next node *)
Lemma at_node_step D S P0 p x rest : chain_of D S = (P0 ++ [p]) ++ x :: rest -> (forall y, In y (chain_of D S) -> y < N) ->
  (at_node D (P0 ++ [p]) p + vol D (P0 ++ [p]) * (c D x - c D p) == at_node D ((P0 ++ [p]) ++ [x]) x)%Q.
Proof.
  intros Hch Hl. unfold at_node. set (P := P0 ++ [p]) in *. assert (Hx : x < N) by (apply Hl; rewrite Hch; apply in_or_app; right; left; reflexivity).
  rewrite !vol_snoc. rewrite (increment D x P (on_places D x Hx)) by (intros y Hy; exact (chain_of_sorted D S P x rest y Hch Hy)). ring.
Qed.

Lemma sweep_spec D f S : 2 <= D < d -> rec_spec (D - 1) f -> forall rest P0 p hv st, let nodes := P0 ++ p :: rest in chain_of D S = nodes -> (forall y, In y nodes -> y < N) -> sized st ->
  rep st D (P0 ++ [p]) -> chain st D = nodes -> (good -> flags st (P0 ++ [p])) -> (forall x, In x rest -> 2 <= h_flag st x -> D <= h_flag st x /\ flagged st nodes x) ->
  (forall E, 2 <= E < D -> cache st (P0 ++ [p]) E) -> valid st D (P0 ++ [p]) -> (forall pre y post, P0 ++ [p] = pre ++ y :: post -> (h_volume st y D == at_node D (pre ++ [y]) y)%Q) ->
  (hv == at_node D (P0 ++ [p]) p)%Q ->
  exists hv' st', sweep points f D hv p rest st = Ok (hv', st') /\ (hv' == at_node D nodes (last nodes p))%Q /\ sized st' /\ rep st' D nodes /\ (forall i, D <= i -> chain st' i = chain st i) /\
    (forall i, D < i -> bnd st' i = bnd st i) /\ (forall x j, D < j -> h_area st' x j = h_area st x j /\ h_volume st' x j = h_volume st x j) /\
    (forall x, ~ In x nodes -> h_flag st' x = h_flag st x) /\ (forall E, 2 <= E < D -> cache st' nodes E) /\ (good -> flags st' nodes) /\
    valid st' D nodes /\ (forall pre y post, nodes = pre ++ y :: post -> (h_volume st' y D == at_node D (pre ++ [y]) y)%Q).
Proof.
  intros HD Hf. induction rest as [|x rest IH]; intros P0 p hv st nodes Hch Hl Hs HR HcD HF HT HC HV HVol Hhv; subst nodes.
  - exists hv, st. split; [reflexivity|]. split; [rewrite last_last; exact Hhv|]. auto 15.
  - set (P := P0 ++ [p]) in *. assert (EP : P0 ++ p :: x :: rest = P ++ x :: rest) by (unfold P; rewrite <- app_assoc; reflexivity). rewrite EP in *. cbn [sweep].
    assert (Hx : x < N) by (apply Hl, in_or_app; right; left; reflexivity).
    set (hv1 := (hv + h_area st p D * (c D x - c D p))%Q).
    assert (Ehv : (hv1 == at_node D (P ++ [x]) x)%Q).
    { unfold hv1. rewrite Hhv. rewrite (HV P0 p [] eq_refl). unfold P. apply (at_node_step D S P0 p x rest); [exact Hch|]. intros y Hy. apply Hl. rewrite <- Hch. exact Hy. }
    set (st1 := with_bounds (update D (fun _ => Some (c D x)) (h_bounds st)) st). set (st2 := reinsert points x D (update_bounds points x D st1)). set (st3 := with_volume (set2 (h_volume st2) x D hv1) st2).
    assert (Hs1 : sized st1) by (destruct Hs; split; [assumption|cbn; rewrite update_length; assumption]).
    assert (Hs2 : sized st2) by (apply sized_reinsert, sized_bounds; exact Hs1).
    assert (Hs3 : sized st3) by exact Hs2.
    assert (HR3 : rep st3 D (P ++ [x])) by (apply rep_reinsert; [apply sized_bounds; exact Hs1|lia|exact Hx|exact HR]).
    assert (Hc3 : forall i, D <= i -> chain st3 i = chain st i).
    { intros i Hi. destruct (Nat.lt_ge_cases i d) as [Hid|Hid]; [|rewrite !chain_big by assumption; reflexivity]. change (chain st3 i) with (chain st2 i). unfold st2. rewrite chain_reinsert by (try apply sized_bounds; assumption). destruct (Nat.ltb_spec i D); [lia|reflexivity]. }
    assert (Hb1 : forall i, i <> D -> bnd st1 i = bnd st i) by (intros i Hi; unfold bnd, st1; cbn; apply update_other; exact Hi).
    assert (Hb3 : forall i, D < i -> bnd st3 i = bnd st i).
    { intros i Hi. change (bnd st3 i) with (bnd (update_bounds points x D st1) i). destruct (Nat.lt_ge_cases i d) as [Hid|Hid].
      - rewrite update_bounds_bnd by assumption. destruct (Nat.ltb_spec i D); [lia|]. apply Hb1. lia.
      - rewrite update_bounds_big by assumption. apply Hb1. lia. }
    assert (HC3 : forall E, 2 <= E < D -> cache st3 (P ++ [x]) E).
    { intros E HE. apply (cache_change st st3 P (P ++ [x]) x E (HC E HE)).
      - intros y Hy. rewrite in_app_iff. cbn. split; [auto|intros [H|[H|[]]]; [exact H|congruence]].
      - change (bnd st3 E) with (bnd (update_bounds points x D st1) E). rewrite update_bounds_bnd by (assumption || lia). destruct (Nat.ltb_spec E D); [|lia]. rewrite Hb1 by lia. reflexivity.
      - intros y. split; [reflexivity|]. unfold st3. cbn. unfold set2. destruct (Nat.eqb_spec E D); [lia|]. rewrite andb_false_r. reflexivity. }
    assert (Hxn : ~ In x P).
    { pose proof (chain_of_nodup D S) as Hn. rewrite Hch in Hn. apply NoDup_remove_2 in Hn. intros H. apply Hn, in_or_app. left. exact H. }
    assert (HV3 : valid st3 D P) by exact HV.
    assert (HX3 : pending st3 D P x).
    { intros H. destruct (HT x (or_introl eq_refl) H) as [T1 [y [T2 [T3 T4]]]]. split; [exact T1|]. exists y. split; [|split; assumption].
      apply (before_in D S P x rest y Hch); [apply T3; exact (conj (proj1 HD) T1)|]. assert (Hys : In y (chain_of D S)) by (rewrite Hch; exact T2). apply chain_of_in in Hys. tauto. }
    assert (HlP : forall y, In y (P ++ [x]) -> y < N) by (intros y Hy; apply Hl; apply in_app_iff in Hy as [Hy|[<-|[]]]; apply in_or_app; [left; exact Hy|right; left; reflexivity]).
    destruct (skip_spec D f S P x rest st3 HD Hf Hch HlP Hs3 HR3 HF HX3 HV3 (fun _ => HC3)) as [st4 [K1 [K2 [K3 [K4 [K5 [K6 [K7 [K8 [K9 [K10 K11]]]]]]]]]]].
    assert (Eprev : hd_error (rev P) = Some p) by apply hd_rev_snoc. rewrite Eprev in K1. fold hv1. fold st1. fold st2. fold st3. rewrite K1. cbn [bind].
    assert (HVol4 : forall pre y post, P ++ [x] = pre ++ y :: post -> (h_volume st4 y D == at_node D (pre ++ [y]) y)%Q).
    { intros pre y post E. rewrite K6 by lia. unfold st3. cbn. unfold set2. rewrite Nat.eqb_refl, andb_true_r. destruct post as [|z post _] using rev_ind.
      - apply app_inj_tail in E as [<- <-]. rewrite Nat.eqb_refl. exact Ehv.
      - replace (pre ++ y :: post ++ [z]) with ((pre ++ y :: post) ++ [z]) in E by (rewrite <- app_assoc; reflexivity). apply app_inj_tail in E as [E <-].
        destruct (Nat.eqb_spec y x) as [-> |]; [exfalso; apply Hxn; rewrite E; apply in_or_app; right; left; reflexivity|]. apply (HVol pre y post E). }
    assert (EP2 : (P ++ [x]) ++ rest = P ++ x :: rest) by (rewrite <- app_assoc; reflexivity).
    destruct (IH P x hv1 st4) as [hv' [st' [I1 [I2 [I3 [I4 [I5 [I6 [I7 [I8 [I9 [I10 [I11 I12]]]]]]]]]]]]]; try assumption.
    + intros i Hi. rewrite K3. apply HR3. exact Hi.
    + rewrite K3, Hc3 by lia. exact HcD.
    + intros y Hy Hfy. assert (Hyn : ~ In y (P ++ [x])).
      { pose proof (chain_of_nodup D S) as Hn. rewrite Hch, <- EP2 in Hn. clear - Hn Hy. induction (P ++ [x]) as [|a l IHl]; [intros []|]. cbn in Hn. inversion Hn; subst. intros [-> |H]; [apply H1, in_or_app; right; exact Hy|exact (IHl H2 H)]. }
      rewrite (K8 y Hyn) in Hfy. destruct (HT y (or_intror Hy) Hfy) as [T1 [w T2]]. split; [rewrite (K8 y Hyn); exact T1|]. exists w. rewrite (K8 y Hyn). exact T2.
    + exists hv', st'. split; [exact I1|]. split; [rewrite I2; destruct (@exists_last _ (x :: rest) ltac:(discriminate)) as [u [z ->]]; rewrite app_assoc, !last_last; reflexivity|]. split; [exact I3|]. split; [exact I4|].
      split; [intros i Hi; rewrite (I5 i Hi), K3; apply Hc3; exact Hi|]. split; [intros i Hi; rewrite (I6 i Hi), K4 by lia; apply Hb3; exact Hi|].
      split. { intros y j Hj. destruct (I7 y j Hj) as [J1 J2]. rewrite J1, J2, K5, K6 by lia. split; [reflexivity|]. unfold st3. cbn. unfold set2. destruct (Nat.eqb_spec j D); [lia|]. rewrite andb_false_r. reflexivity. }
      split. { intros y Hy. rewrite (I8 y Hy). rewrite K8; [reflexivity|]. intros H. apply Hy. rewrite <- EP2. apply in_or_app. left. exact H. }
      auto.
Qed.

Lemma after_split : forall pre x post, ~ In x pre -> after x (pre ++ x :: post) = post.
Proof. induction pre as [|a pre IH]; intros x post H; cbn; [rewrite Nat.eqb_refl; reflexivity|]. destruct (Nat.eqb_spec a x) as [-> |]; [exfalso; apply H; left; reflexivity|]. apply IH. intros Hx. apply H. right. exact Hx. Qed.
Lemma level_spec D f : 2 <= D -> rec_spec (D - 1) f -> rec_spec D (level points f D).
Proof.
  intros HD2 Hf st S Hn Hl Hne Hs HDd HR HF HC. assert (HD : 2 <= D < d) by lia.
  set (nodes := chain_of D S). assert (Hnodes : chain st D = nodes) by (apply HR; lia).
  assert (Hperm : Permutation nodes S) by (apply chain_of_perm; assumption).
  assert (Hin : forall x, In x nodes <-> In x S) by (intros x; split; apply Permutation_in; [exact Hperm|symmetry; exact Hperm]).
  assert (HnN : NoDup nodes) by (apply chain_of_nodup).
  assert (HlN : forall x, In x nodes -> x < N) by (intros x Hx; apply Hl, Hin; exact Hx).
  assert (Hext : forall i, chain_of i nodes = chain_of i S) by (intros i; apply chain_of_ext; exact Hin).
  unfold level. rewrite Hnodes. set (st0 := with_flag _ st).
  assert (Hfl0 : forall x, In x S -> 2 <= h_flag st0 x -> D <= h_flag st0 x /\ h_flag st0 x = h_flag st x).
  { intros x Hx. unfold st0. cbn [h_flag with_flag]. change (existsb (Nat.eqb x) nodes) with (memb x nodes). assert (E : memb x nodes = true) by (apply memb_iff, Hin; exact Hx). rewrite E. cbn [andb]. destruct (Nat.ltb_spec (h_flag st x) D); intros H'; [lia|]. split; [lia|reflexivity]. }
  assert (Hfl1 : forall x, ~ In x S -> h_flag st0 x = h_flag st x).
  { intros x Hx. unfold st0. cbn [h_flag with_flag]. change (existsb (Nat.eqb x) nodes) with (memb x nodes). destruct (memb x nodes) eqn:E; [|reflexivity]. apply memb_iff, Hin in E. contradiction. }
  destruct (pop_loop_spec D HD (rev nodes) st0) as [pre [cur [tail [st1 [P1 [P2 [P3 [P4 [P5 [P6 [P7 [P8 [P9 [P10 P11]]]]]]]]]]]]]].
  { intros E. apply Hne. apply (f_equal (@rev nat)) in E. rewrite rev_involutive in E. cbn in E. rewrite E in Hperm. apply Permutation_nil in Hperm. exact Hperm. }
  { rewrite rev_involutive. exact HnN. }
  { rewrite rev_involutive. exact HlN. }
  { exact Hs. }
  { rewrite rev_involutive. intros i Hi. change (chain st0 i) with (chain st i). rewrite Hext. apply HR. lia. }
  { rewrite rev_involutive. intros Hlen E HE. rewrite (Permutation_length Hperm) in Hlen. pose proof (HC Hlen E ltac:(lia)) as Hc. intros b p y q Eb Ec Hlt. rewrite Hext in Ec. exact (Hc b p y q Eb Ec Hlt). }
  rewrite rev_involutive in P1. rewrite P2. cbn [bind]. set (P := pre ++ [cur]) in *.
  assert (EP : nodes = P ++ tail) by (rewrite P1; unfold P; rewrite <- app_assoc; reflexivity).
  assert (HlP : forall y, In y P -> y < N) by (intros y Hy; apply HlN; rewrite EP; apply in_or_app; left; exact Hy).
  assert (HnP : NoDup P) by (rewrite EP in HnN; clear - HnN; induction P as [|a l IH]; [constructor|]; cbn in HnN; inversion HnN; subst; constructor; [intros Ha; apply H1, in_or_app; left; exact Ha|auto]).
  assert (Hcur : cur < N) by (apply HlP; apply in_or_app; right; left; reflexivity).
  assert (Hcurn : ~ In cur pre) by (unfold P in HnP; apply NoDup_remove_2 in HnP; rewrite app_nil_r in HnP; exact HnP).
  rewrite (rep_length st1 D P ltac:(lia) P3 HnP HlP).
  (* the nodes before are valid *)
  assert (Hcachepre : pre <> [] -> (valid st1 D pre) /\ forall a y b, pre = a ++ y :: b -> (h_volume st1 y D == at_node D (a ++ [y]) y)%Q).
  { intros Hpre. destruct P10 as [P10|[b [p [pre' [B1 [B2 B3]]]]]]; [contradiction|].
    assert (Hlen : 2 <= length S) by (rewrite <- (Permutation_length Hperm), P1, B2, !app_length; cbn; lia).
    assert (Hy : forall a y b', pre = a ++ y :: b' -> (h_area st1 y D == vol D (a ++ [y]))%Q /\ (h_volume st1 y D == at_node D (a ++ [y]) y)%Q).
    { intros a y b' E. rewrite P7, P8. apply (HC Hlen D ltac:(lia) b a y (b' ++ cur :: tail) B1).
      - fold nodes. rewrite P1, E, <- app_assoc. reflexivity.
      - rewrite B2 in E. destruct b' as [|z b' _] using rev_ind; [apply app_inj_tail in E as [_ <-]; exact B3|].
        replace (a ++ y :: b' ++ [z]) with ((a ++ y :: b') ++ [z]) in E by (rewrite <- app_assoc; reflexivity). apply app_inj_tail in E as [E <-].
        assert (Hle : (c D y <= c D p)%Q); [|lra]. apply (chain_of_sorted D S pre' p (cur :: tail)); [fold nodes; rewrite P1, B2, <- app_assoc; reflexivity|]. rewrite E. apply in_or_app. right. left. reflexivity. }
    split; [intros a y b' E; apply (Hy a y b' E)|intros a y b' E; apply (Hy a y b' E)]. }
  (* flags *)
  assert (Hwit : forall x a b, nodes = a ++ x :: b -> 2 <= h_flag st0 x -> D <= h_flag st0 x /\ flagged st0 a x).
  { intros x a b E H. assert (HxS : In x S) by (apply Hin; rewrite E; apply in_or_app; right; left; reflexivity). destruct (Hfl0 x HxS H) as [H1 H2]. split; [exact H1|].
    destruct (HF (or_introl HD2) x HxS ltac:(lia)) as [y [Y1 [Y2 Y3]]]. rewrite <- H2 in Y2, Y3. exists y. split; [|split; assumption]. apply (before_in D S a x b y E); [apply Y2; lia|exact Y1]. }
  assert (Hflags : flags st1 pre).
  { intros x Hx H. unfold flagged. rewrite P9 in *. apply in_split in Hx as [a [b E]]. destruct (Hwit x a (b ++ cur :: tail) ltac:(rewrite P1, E, <- app_assoc; reflexivity) H) as [_ [y [Y1 Y2]]]. exists y. split; [rewrite E; apply in_or_app; left; exact Y1|exact Y2]. }
  assert (Hpend : pending st1 D pre cur).
  { intros H. unfold flagged. rewrite P9 in *. exact (Hwit cur pre tail P1 H). }
  (* the starting volume *)
  match goal with |- context [bind ?X] => assert (Hstart : exists hv st2, X = Ok (hv, st2) /\ (hv == at_node D P cur)%Q /\ h_chains st2 = h_chains st1 /\ h_bounds st2 = h_bounds st1 /\ h_volume st2 = h_volume st1 /\ h_flag st2 = h_flag st1 /\
    (forall y j, D < j -> h_area st2 y j = h_area st1 y j) /\ (2 <= length P -> h_area st2 = h_area st1) /\ valid st2 D pre) end.
  { destruct (Nat.ltb_spec 1 (length P)) as [Hlen|Hlen].
    - destruct P10 as [P10|[b [p [pre' [B1 [B2 B3]]]]]]; [unfold P in Hlen; rewrite P10 in Hlen; cbn in Hlen; lia|]. destruct (Hcachepre ltac:(rewrite B2; destruct pre'; discriminate)) as [C1 C2].
      assert (Hp : hd_error (rev pre) = Some p) by (rewrite B2; apply hd_rev_snoc). rewrite Hp. eexists _, st1. split; [reflexivity|]. split; [|auto 10].
      rewrite (C2 pre' p [] B2), (C1 pre' p [] B2). unfold P. rewrite B2. apply (at_node_step D S pre' p cur tail); [fold nodes; rewrite P1, B2; reflexivity|]. intros y Hy. apply HlN. exact Hy.
    - assert (Epre : pre = []) by (destruct pre; [reflexivity|unfold P in Hlen; rewrite app_length in Hlen; cbn in Hlen; lia]).
      eexists _, _. split; [reflexivity|]. split; [|split; [reflexivity|split; [reflexivity|split; [reflexivity|split; [reflexivity|split; [|split]]]]]].
      + unfold at_node, P. rewrite Epre. cbn [app]. rewrite (V_single c places places_sorted D cur (on_places D cur Hcur)). ring.
      + intros y j Hj. unfold configure_area. cbn [h_area with_area]. destruct (Nat.leb_spec j D); [lia|]. rewrite andb_false_r. unfold set2. destruct (Nat.eqb_spec j 0); [lia|]. rewrite andb_false_r. reflexivity.
      + intros H. unfold P in H, Hlen. rewrite Epre in H. cbn in H. lia.
      + rewrite Epre. intros a y b E. destruct a; discriminate. }
  destruct Hstart as [hv [st2 [S1 [S2 [S3 [S4 [S5 [S6 [S7 [S8 S9]]]]]]]]]]. rewrite S1. cbn [bind fst snd].
  set (st3 := with_volume (set2 (h_volume st2) cur D hv) st2).
  assert (Hch2 : forall i, chain st3 i = chain st1 i) by (intros i; unfold chain, st3; cbn; rewrite S3; reflexivity).
  assert (Hb2 : forall i, bnd st3 i = bnd st1 i) by (intros i; unfold bnd, st3; cbn; rewrite S4; reflexivity).
  assert (Hf2 : h_flag st3 = h_flag st1) by (unfold st3; cbn; exact S6).
  assert (Hs3 : sized st3) by (destruct P4 as [X1 X2]; unfold sized, st3; cbn; rewrite S3, S4; split; assumption).
  destruct (skip_spec D f S pre cur tail st3 HD Hf P1 HlP Hs3) as [st4 [K1 [K2 [K3 [K4 [K5 [K6 [K7 [K8 [K9 [K10 K11]]]]]]]]]]].
  { intros i Hi. rewrite Hch2. apply P3. exact Hi. }
  { intros _. unfold flags, flagged. rewrite Hf2. exact Hflags. }
  { unfold pending, flagged. rewrite Hf2. exact Hpend. }
  { exact S9. }
  { intros Hlen E HE. pose proof (P11 Hlen E HE) as HCE. intros b a y q Eb Ec Hlt. rewrite Hb2 in Eb. destruct (HCE b a y q Eb Ec Hlt) as [C1 C2]. unfold st3. cbn. rewrite (S8 Hlen). unfold set2. destruct (Nat.eqb_spec E D); [lia|]. rewrite andb_false_r, S5. split; assumption. }
  rewrite K1. cbn [bind]. assert (Eaft : after cur nodes = tail) by (rewrite P1; apply after_split; exact Hcurn). rewrite Eaft.
  destruct (sweep_spec D f S HD Hf tail pre cur hv st4) as [hv' [st5 [I1 [I2 [I3 [I4 [I5 [I6 [I7 [I8 [I9 [I10 [I11 I12]]]]]]]]]]]]].
  { exact P1. }
  { rewrite <- P1. exact HlN. }
  { exact K2. }
  { intros i Hi. rewrite K3, Hch2. apply P3. exact Hi. }
  { rewrite K3, Hch2, P5 by lia. rewrite <- P1. exact Hnodes. }
  { exact K11. }
  { intros x Hx Hfx. assert (HxP : ~ In x P) by (intros H; rewrite EP in HnN; clear - HnN H Hx; induction P as [|a l IHl]; [destruct H|]; cbn in HnN; inversion HnN; subst; destruct H as [-> |H]; [apply H2, in_or_app; right; exact Hx|exact (IHl H3 H)]).
    assert (Ex : h_flag st4 x = h_flag st0 x) by (rewrite (K8 x HxP), Hf2, P9; reflexivity). rewrite Ex in Hfx. apply in_split in Hx as [a [b E]].
    destruct (Hwit x (pre ++ cur :: a) b ltac:(rewrite P1, E, <- app_assoc; reflexivity) Hfx) as [W1 [y [W2 W3]]]. split; [rewrite Ex; exact W1|]. exists y. rewrite Ex. split; [rewrite E; apply in_app_iff in W2 as [W2|[<-|W2]]; apply in_or_app; [left; exact W2|right; left; reflexivity|right; right; apply in_or_app; left; exact W2]|exact W3]. }
  { exact K10. }
  { exact K9. }
  { intros a y b E. rewrite K6 by lia. unfold st3. cbn. unfold set2. rewrite Nat.eqb_refl, andb_true_r. destruct b as [|z b _] using rev_ind.
    - apply app_inj_tail in E as [<- <-]. rewrite Nat.eqb_refl. exact S2.
    - replace (a ++ y :: b ++ [z]) with ((a ++ y :: b) ++ [z]) in E by (rewrite <- app_assoc; reflexivity). apply app_inj_tail in E as [E _].
      destruct (Nat.eqb_spec y cur) as [-> |]; [exfalso; apply Hcurn; rewrite E; apply in_or_app; right; left; reflexivity|]. rewrite S5. apply (proj2 (Hcachepre ltac:(rewrite E; destruct a; discriminate)) a y b E). }
  { exact S2. }
  rewrite I1. cbn [bind fst snd]. eexists _, st5. split; [reflexivity|]. rewrite <- P1 in *.
  assert (Hq : (hv' - h_area st5 (last nodes cur) D * c D (last nodes cur) == vol (Datatypes.S D) S)%Q).
  { rewrite I2. destruct nodes as [|z nodes'] eqn:En using rev_ind; [destruct pre; discriminate P1|]. rewrite last_last. rewrite (I11 nodes' z [] eq_refl). unfold at_node. rewrite (V_perm c places places_sorted places_neg (Datatypes.S D) _ _ Hperm). ring. }
  split; [exact Hq|]. split; [exact I3|]. split.
  { intros i. destruct (Nat.lt_ge_cases i D) as [Hi|Hi]; [rewrite (I4 i Hi), Hext; symmetry; apply HR; lia|]. rewrite (I5 i Hi), K3, Hch2, P5 by lia. reflexivity. }
  split; [intros i Hi; rewrite (I6 i Hi), K4, Hb2, P6 by lia; reflexivity|]. split.
  { intros x j Hj. destruct (I7 x j Hj) as [J1 J2]. rewrite J1, J2, K5, K6 by lia. unfold st3. cbn. rewrite S7 by lia. unfold set2. destruct (Nat.eqb_spec j D); [lia|]. rewrite andb_false_r, S5, P7, P8. split; reflexivity. }
  split. { intros x Hx. assert (Hxn : ~ In x nodes) by (rewrite Hin; exact Hx). rewrite (I8 x Hxn), K8 by (intros H; apply Hxn; rewrite EP; apply in_or_app; left; exact H). rewrite Hf2, P9. apply Hfl1. exact Hx. }
  split.
  { intros E HE b a y q Eb Ec Hlt. destruct (Nat.eq_dec E D) as [-> |HED].
    - split; [apply (I11 a y q Ec)|apply (I12 a y q Ec)].
    - apply (I9 E ltac:(lia) b a y q Eb); [rewrite Hext; exact Ec|exact Hlt]. }
  intros Hg x Hx Hfx. destruct (I10 Hg x (proj2 (Hin x) Hx) Hfx) as [y [Y1 Y2]]. exists y. split; [apply Hin; exact Y1|exact Y2].
Qed.

(** Two dimensions *)
Lemma vol1_step P y h : (forall x, In x P -> x < N) -> y < N -> P <> [] -> (vol 1 P == - h)%Q -> (exists x, In x P /\ (c 0 x == h)%Q) -> (forall x, In x P -> (h <= c 0 x)%Q) ->
  (vol 1 (P ++ [y]) == - qmin h (c 0 y))%Q.
Proof.
  intros Hl Hy Hne Hv [x [Hx Hxh]] Hmin. rewrite vol_snoc. unfold qmin. destruct (qlt (c 0 y) h) eqn:E.
  - apply qlt_iff in E. assert (H1 : (vol 1 (y :: P) == vol 1 [y])%Q).
    { apply Qle_antisym; [|apply mono; intros z [<-|[]]; left; reflexivity]. clear - E Hmin c_neg. induction P as [|z P IH]; [lra|].
      pose proof (null_dom c places 1 z y (y :: P) (or_introl eq_refl)) as Hnull. unfold null in Hnull.
      assert (Hz : (vol 1 (z :: y :: P) == vol 1 (y :: P))%Q) by (apply Hnull; intros i Hi; assert (i = 0) by lia; subst i; specialize (Hmin z (or_introl eq_refl)); lra).
      rewrite (V_perm c places places_sorted places_neg 1 (y :: z :: P) (z :: y :: P)) by apply perm_swap. rewrite Hz. apply IH. intros w Hw. apply Hmin. right. exact Hw. }
    rewrite H1, (V_single c places places_sorted 0 y (on_places 0 y Hy)). cbn [V]. ring.
  - etransitivity; [apply (null_dom c places 1 y x P Hx)|exact Hv]. intros i Hi. assert (i = 0) by lia. subst i. assert ((h <= c 0 y)%Q) by (apply Qnot_lt_le; intros H; apply qlt_iff in H; congruence). lra.
Qed.
Lemma plane_loop_spec S : forall rest P0 p h hv, chain_of 1 S = P0 ++ p :: rest -> (vol 1 (P0 ++ [p]) == - h)%Q -> (exists x, In x (P0 ++ [p]) /\ (c 0 x == h)%Q) -> (forall x, In x (P0 ++ [p]) -> (h <= c 0 x)%Q) ->
  (hv + h * c 1 p == vol 2 (P0 ++ [p]))%Q -> (plane_loop points h hv p rest == vol 2 (P0 ++ p :: rest))%Q.
Proof.
  induction rest as [|y rest IH]; intros P0 p h hv Hch H1 H2 H3 H4; cbn [plane_loop]; [exact H4|].
  assert (EP : P0 ++ p :: y :: rest = (P0 ++ [p]) ++ y :: rest) by (rewrite <- app_assoc; reflexivity). rewrite EP in *. set (P := P0 ++ [p]) in *.
  assert (HlN : forall x, In x (chain_of 1 S) -> x < N) by (intros x Hx; apply chain_of_in in Hx; tauto). rewrite Hch in HlN.
  assert (Hl : forall x, In x P -> x < N) by (intros x Hx; apply HlN, in_or_app; left; exact Hx).
  assert (Hy : y < N) by (apply HlN, in_or_app; right; left; reflexivity).
  assert (Hne : P <> []) by (unfold P; destruct P0; discriminate).
  pose proof (vol1_step P y h Hl Hy Hne H1 H2 H3) as Hv. apply IH; [exact Hch|exact Hv| | |].
  - unfold qmin. destruct (qlt (c 0 y) h); [exists y; split; [apply in_or_app; right; left; reflexivity|reflexivity]|]. destruct H2 as [x [Hx Hxh]]. exists x. split; [apply in_or_app; left; exact Hx|exact Hxh].
  - intros x Hx. unfold qmin. destruct (qlt (c 0 y) h) eqn:E; apply in_app_iff in Hx as [Hx|[<-|[]]]; try (specialize (H3 x Hx)); try lra; [apply qlt_iff in E; lra|]. apply Qnot_lt_le. intros H. apply qlt_iff in H. congruence.
  - rewrite vol_snoc. rewrite (increment 1 y P (on_places 1 y Hy)) by (intros x Hx; exact (chain_of_sorted 1 S P y rest x Hch Hx)). rewrite <- H4. rewrite vol_snoc in Hv. rewrite Hv, H1. ring.
Qed.
Lemma plane_spec : rec_spec 1 (fun st => bind (plane points st) (fun q => Ok (q, st))).
Proof.
  intros st S Hn Hl Hne Hs Hd HR HF HC. unfold plane. rewrite (HR 1) by lia.
  assert (Hperm : Permutation (chain_of 1 S) S) by (apply chain_of_perm; assumption).
  destruct (chain_of 1 S) as [|x l] eqn:E; [apply Permutation_nil in Hperm; contradiction|]. cbn [bind]. eexists _, st. split; [reflexivity|].
  assert (Hx : x < N) by (apply Hl; eapply Permutation_in; [exact Hperm|left; reflexivity]).
  split; [|split; [exact Hs|]; split; [reflexivity|]; split; [reflexivity|]; split; [split; reflexivity|]; split; [reflexivity|]; split; [intros E' HE; lia|intros Hg; apply HF; right; exact Hg]].
  rewrite (plane_loop_spec S l [] x (c 0 x) 0 E).
  - cbn [app]. apply V_perm; [apply places_sorted|apply places_neg|exact Hperm].
  - cbn [app]. rewrite (V_single c places places_sorted 0 x (on_places 0 x Hx)). cbn [V]. ring.
  - exists x. split; [left; reflexivity|reflexivity].
  - intros y [<-|[]]. lra.
  - cbn [app]. rewrite (V_single c places places_sorted 1 x (on_places 1 x Hx)), (V_single c places places_sorted 0 x (on_places 0 x Hx)). cbn [V]. ring.
Qed.

Lemma nonempty_length D st S : 0 < D -> rep st (Datatypes.S D) S -> NoDup S -> (forall x, In x S -> x < N) -> S <> [] -> Nat.eqb (chain_length st (D - 1)) 0 = false.
Proof.
  intros HD HR Hn Hl Hne. apply Nat.eqb_neq. rewrite (rep_length st D S); [destruct S; [congruence|discriminate]|exact HD| |exact Hn|exact Hl]. intros i Hi. apply HR. lia.
Qed.
Lemma recursive_spec : forall D, 1 <= D -> rec_spec D (recursive points D).
Proof.
  induction D as [|D IH]; intros HD; [lia|]. intros st S Hn Hl Hne Hs Hd HR HF HC. cbn [recursive]. rewrite (nonempty_length (Datatypes.S D) st S ltac:(lia) HR Hn Hl Hne). destruct D as [|D].
  - exact (plane_spec st S Hn Hl Hne Hs Hd HR HF HC).
  - apply (level_spec (Datatypes.S (Datatypes.S D)) (recursive points (Datatypes.S D)) ltac:(lia)); try assumption. replace (Datatypes.S (Datatypes.S D) - 1) with (Datatypes.S D) by lia. apply IH. lia.
Qed.
End Algorithm.

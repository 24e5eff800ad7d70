From Coq Require Import List Arith ZArith QArith Qround Qabs Sorted Bool Lia Lqa.
From Verif.Model Require Import Prelude MultiValue Layers.
From Verif.Spec Require Import Layers.
From Verif.Proofs Require Import Prelude MultiValue.
Import ListNotations.
Open Scope nat_scope.

(** * Ordering *)
Definition zsorted (a : list Z) : Prop := StronglySorted Z.le a.

Lemma zsorted_nth a : zsorted a -> forall i j, i <= j -> j < length a -> (nth i a 0 <= nth j a 0)%Z.
Proof.
  induction 1 as [|x a Ha IH Hx]; intros i j Hij Hj; cbn in *; [lia|].
  destruct i as [|i], j as [|j]; try lia.
  - rewrite Forall_forall in Hx. apply Hx, nth_In. lia.
  - apply IH; lia.
Qed.

(** [bisect_right] splits a sorted list between the elements at most [x] and the rest *)
Lemma bisect_loop_spec a x : zsorted a -> forall fuel lo hi, hi - lo < fuel -> lo <= hi -> hi <= length a ->
  (forall i, i < lo -> (nth i a 0 <= x)%Z) -> (forall i, hi <= i -> i < length a -> (x < nth i a 0)%Z) ->
  let r := bisect_loop fuel a x lo hi in
  r <= length a /\ (forall i, i < r -> (nth i a 0 <= x)%Z) /\ (forall i, r <= i -> i < length a -> (x < nth i a 0)%Z).
Proof.
  intros Hs. induction fuel as [|fuel IH]; intros lo hi Hf Hlh Hh Hlo Hhi; [lia|]. cbn [bisect_loop].
  destruct (Nat.ltb_spec lo hi) as [Hlt|Hge].
  - assert (Hm : lo <= (lo + hi) / 2 < hi).
    { split; [apply Nat.div_le_lower_bound; lia|apply Nat.div_lt_upper_bound; lia]. }
    set (mid := (lo + hi) / 2) in *. destruct (Z.ltb_spec x (nth mid a 0%Z)) as [Hx|Hx].
    + apply IH; try lia; auto. intros i Hi1 Hi2.
      pose proof (zsorted_nth a Hs mid i Hi1 Hi2). lia.
    + apply IH; try lia; auto. intros i Hi. destruct (Nat.lt_ge_cases i lo) as [|]; [auto|].
      pose proof (zsorted_nth a Hs i mid ltac:(lia) ltac:(lia)). lia.
  - cbn. assert (lo = hi) by lia. subst. auto.
Qed.
Lemma bisect_right_spec a x : zsorted a ->
  let r := bisect_right a x in
  r <= length a /\ (forall i, i < r -> (nth i a 0 <= x)%Z) /\ (forall i, r <= i -> i < length a -> (x < nth i a 0)%Z).
Proof. intros Hs. apply bisect_loop_spec; auto; lia. Qed.

Definition lv (x : lnode) : Z := level_value (ln_level x).

Lemma reindex_who k l : map who (reindex k l) = map who l.
Proof. revert k. induction l as [|x l IH]; intros k; cbn; [easy|]. now rewrite IH. Qed.
Lemma reindex_lv k l : map lv (reindex k l) = map lv l.
Proof. revert k. induction l as [|x l IH]; intros k; cbn; [easy|]. now rewrite IH. Qed.
Lemma reindex_indexed l : forall k j x, nth_error (reindex k l) j = Some x -> ln_index x = k + j.
Proof.
  induction l as [|y l IH]; intros k [|j] x; cbn; try discriminate.
  - intros [= <-]. cbn. lia.
  - intros H. apply IH in H. lia.
Qed.

Lemma by_level_lv l : by_level l <-> zsorted (map lv l).
Proof.
  unfold by_level, zsorted. induction l as [|x l IH]; cbn; [split; constructor|]. split; intros H; inversion H; subst.
  - constructor; [now apply IH|]. rewrite Forall_map. assumption.
  - constructor; [now apply IH|]. rewrite Forall_map in *. assumption.
Qed.

Definition at_levels (z : Z) (l : list (nat * level)) : list (nat * level) :=
  filter (fun x => (level_value (snd x) =? z)%Z) l.
Lemma at_level_who z l : at_level z l = at_levels z (map who l).
Proof. unfold at_level, at_levels. induction l as [|x l IH]; cbn; [easy|]. destruct (_ =? _)%Z; cbn; now rewrite IH. Qed.

Lemma zsorted_app a b : zsorted a -> zsorted b -> (forall x y, In x a -> In y b -> (x <= y)%Z) -> zsorted (a ++ b).
Proof.
  unfold zsorted. induction 1 as [|x a Ha IH Hx]; intros Hb Hab; cbn; [easy|].
  constructor; [apply IH; auto; intros; apply Hab; auto; now right|].
  rewrite Forall_app. split; [easy|]. apply Forall_forall. intros y Hy. apply Hab; auto. now left.
Qed.
Lemma zsorted_app_inv a b : zsorted (a ++ b) -> zsorted a /\ zsorted b.
Proof.
  unfold zsorted. induction a as [|x a IH]; cbn; intros H; [split; [constructor|easy]|].
  inversion H as [|? ? H1 H2]; subst. destruct (IH H1) as [A B]. split; [|easy]. constructor; [easy|].
  now apply Forall_app in H2.
Qed.
Lemma last_nth {A} (l : list A) d d' : l <> [] -> last l d = nth (length l - 1) l d'.
Proof.
  induction l as [|x l IH]; intros H; [easy|]. destruct l as [|y l]; [easy|].
  change (last (x :: y :: l) d) with (last (y :: l) d). rewrite IH by easy. cbn. now rewrite Nat.sub_0_r.
Qed.
Lemma filter_none {A} (f : A -> bool) l : (forall x, In x l -> f x = false) -> filter f l = [].
Proof. induction l as [|x l IH]; intros H; cbn; [easy|]. rewrite (H x (or_introl eq_refl)). apply IH. intros; apply H; now right. Qed.

Record layers_inv (ls : list lnode) : Prop := {
  li_ne : ls <> [];
  li_sorted : by_level ls;
  li_index : indexed ls }.

Lemma map_lv ls : map (fun x => level_value (ln_level x)) ls = map lv ls.
Proof. reflexivity. Qed.

(** adding one layer: it comes after the layers of its level and before higher ones *)
Lemma add_layer_spec o ls : layers_inv ls ->
  exists ls', add_layer o false ls = Ok ls' /\ layers_inv ls' /\
    (forall z, at_level z ls' = at_level z (ls ++ [o])) /\
    length ls' = S (length ls) /\ (forall r l, ls = r :: l -> (lv r <= lv o)%Z -> exists r' l', ls' = r' :: l' /\ who r' = who r) /\
    exists k, map who ls' = insert_at k (who o) (map who ls).
Proof.
  intros [Hne Hs Hi]. destruct ls as [|root ls0] eqn:E; [easy|]. rewrite <- E in *. clear E.
  unfold add_layer. destruct ls as [|r l] eqn:El; [easy|]. rewrite <- El in *.
  assert (Hlast : last ls r = nth (length ls - 1) ls r) by (apply last_nth; congruence).
  apply by_level_lv in Hs.
  destruct (Z.leb_spec (level_value (ln_level (last ls r))) (level_value (ln_level o))) as [Hle|Hgt].
  - exists (ls ++ [with_index (length ls) o]). split; [easy|]. split; [|split; [|split; [|split]]].
    + constructor.
      * now destruct ls.
      * apply by_level_lv. rewrite map_app. apply zsorted_app; [easy|repeat constructor|].
        cbn. intros x y Hx [<-|[]]. apply (In_nth _ _ 0%Z) in Hx as (i & Hi1 & <-).
        rewrite map_length in Hi1. pose proof (zsorted_nth _ Hs i (length ls - 1) ltac:(lia)) as H.
        rewrite map_length in H. specialize (H ltac:(lia)). rewrite Hlast in Hle.
        change 0%Z with (lv (LNode 0 ROOT 0)) in H. rewrite !map_nth in H.
        rewrite (nth_indep ls _ r) in H by lia. rewrite (nth_indep ls _ r (n := length ls - 1)) in H by lia.
        change 0%Z with (lv (LNode 0 ROOT 0)). rewrite map_nth, (nth_indep ls _ r) by lia.
        unfold lv in *. cbn. lia.
      * intros k x Hk. destruct (Nat.lt_ge_cases k (length ls)) as [H|H].
        -- rewrite nth_error_app1 in Hk by easy. eauto.
        -- rewrite nth_error_app2 in Hk by easy. destruct (k - length ls) as [|j] eqn:Ej; cbn in Hk.
           ++ injection Hk as <-. cbn. lia.
           ++ now destruct j.
    + intros z. rewrite !at_level_who, !map_app. reflexivity.
    + rewrite app_length. cbn. lia.
    + intros r0 l0 Hr _. rewrite Hr. cbn. eauto.
    + exists (length ls). unfold insert_at. rewrite map_app, firstn_all2, skipn_all2 by (rewrite map_length; lia). reflexivity.
  - destruct (bisect_right_spec _ (lv o) Hs) as (Hb1 & Hb2 & Hb3). rewrite map_lv. change (level_value (ln_level o)) with (lv o).
    set (ind := bisect_right (map lv ls) (lv o)) in *. rewrite map_length in *.
    exists (reindex 0 (insert_at ind o ls)). split; [easy|].
    assert (Hfirst : forall x, In x (firstn ind ls) -> (lv x <= lv o)%Z).
    { intros x Hx. apply (In_nth _ _ r) in Hx as (i & Hi1 & <-). rewrite firstn_length in Hi1.
      specialize (Hb2 i ltac:(lia)). change 0%Z with (lv (LNode 0 ROOT 0)) in Hb2. rewrite map_nth in Hb2.
      rewrite (nth_indep ls _ r) in Hb2 by lia.
      rewrite <- (firstn_skipn ind ls), app_nth1 in Hb2 by (rewrite firstn_length; lia). exact Hb2. }
    assert (Hskip : forall x, In x (skipn ind ls) -> (lv o < lv x)%Z).
    { intros x Hx. apply (In_nth _ _ r) in Hx as (i & Hi1 & <-). rewrite skipn_length in Hi1.
      specialize (Hb3 (ind + i) ltac:(lia) ltac:(lia)). change 0%Z with (lv (LNode 0 ROOT 0)) in Hb3. rewrite map_nth in Hb3.
      rewrite (nth_indep ls _ r) in Hb3 by lia.
      rewrite <- (firstn_skipn ind ls), app_nth2 in Hb3 by (rewrite firstn_length; lia).
      rewrite firstn_length in Hb3. replace (ind + i - Nat.min ind (length ls)) with i in Hb3 by lia. exact Hb3. }
    split; [|split; [|split; [|split]]].
    + constructor.
      * intros Hnil. apply (f_equal (@length _)) in Hnil.
        assert (Hl : length (map who (reindex 0 (insert_at ind o ls))) = 0) by (now rewrite map_length).
        rewrite reindex_who, map_length in Hl. unfold insert_at in Hl. rewrite app_length in Hl. cbn in Hl. lia.
      * apply by_level_lv. rewrite reindex_lv. unfold insert_at.
        rewrite map_app. cbn [map]. rewrite <- (firstn_skipn ind ls), map_app in Hs.
        apply zsorted_app_inv in Hs as [Hs1 Hs2]. apply zsorted_app; [easy| |].
        -- constructor; [easy|]. rewrite Forall_map, Forall_forall. intros x Hx. specialize (Hskip x Hx). lia.
        -- intros x y Hx. apply in_map_iff in Hx as (x' & <- & Hx). specialize (Hfirst _ Hx).
           intros [<-|Hy]; [easy|]. apply in_map_iff in Hy as (y' & <- & Hy). specialize (Hskip _ Hy). lia.
      * intros k x Hk. apply reindex_indexed in Hk. lia.
    + intros z. rewrite !at_level_who, reindex_who. unfold insert_at, at_levels.
      rewrite !map_app, !filter_app. cbn [map filter]. destruct (Z.eqb_spec (level_value (snd (who o))) z) as [Hz|Hz].
      * change (level_value (snd (who o))) with (lv o) in Hz.
        assert (Hn : filter (fun x => (level_value (snd x) =? z)%Z) (map who (skipn ind ls)) = []).
        { apply filter_none. intros x Hx. apply in_map_iff in Hx as (x' & <- & Hx). specialize (Hskip _ Hx).
          apply Z.eqb_neq. unfold lv in *. cbn. lia. }
        rewrite Hn. rewrite <- (firstn_skipn ind ls) at 2. rewrite map_app, filter_app, Hn, app_nil_r. reflexivity.
      * rewrite app_nil_r. rewrite <- filter_app, <- map_app, firstn_skipn. reflexivity.
    + assert (Hl : length (map who (reindex 0 (insert_at ind o ls))) = S (length ls)).
      { rewrite reindex_who, map_length. unfold insert_at. rewrite app_length, firstn_length. cbn [length].
        rewrite skipn_length. lia. }
      now rewrite map_length in Hl.
    + intros r0 l0 Hr Hle. destruct ind as [|ind'] eqn:Ei.
      * exfalso. specialize (Hskip r0). rewrite Hr in Hskip. specialize (Hskip (or_introl eq_refl)). lia.
      * rewrite Hr. unfold insert_at. cbn. eauto.
    + exists ind. rewrite reindex_who. unfold insert_at. rewrite map_app. cbn [map]. now rewrite firstn_map, skipn_map.
Qed.

Lemma add_layers_spec os : forall ls, layers_inv ls ->
  exists ls', add_layers os ls = Ok ls' /\ layers_inv ls' /\
    (forall z, at_level z ls' = at_level z (ls ++ os)) /\ length ls' = length ls + length os /\
    (forall r l, ls = r :: l -> (forall o, In o os -> (lv r <= lv o)%Z) -> exists r' l', ls' = r' :: l' /\ who r' = who r).
Proof.
  induction os as [|o os IH]; intros ls Hls; cbn [add_layers].
  - exists ls. rewrite app_nil_r. split; [easy|]. split; [easy|]. split; [easy|]. split; [cbn; lia|]. intros r l -> _. eauto.
  - destruct (add_layer_spec o ls Hls) as (ls1 & E & Hinv & Hat & Hlen & Hroot & _). rewrite E. cbn [bind].
    destruct (IH ls1 Hinv) as (ls2 & E2 & Hinv2 & Hat2 & Hlen2 & Hroot2). exists ls2.
    split; [easy|]. split; [easy|]. split; [|split].
    + intros z. rewrite Hat2. change (ls ++ o :: os) with (ls ++ [o] ++ os). rewrite app_assoc.
      rewrite !at_level_who in *. specialize (Hat z). rewrite !at_level_who in Hat. rewrite !map_app in *. unfold at_levels in *.
      rewrite !filter_app in *. now rewrite Hat.
    + cbn. lia.
    + intros r l Hr Hle. destruct (Hroot r l Hr) as (r1 & l1 & -> & Hw); [apply Hle; now left|].
      destruct (Hroot2 r1 l1 eq_refl) as (r2 & l2 & -> & Hw2).
      * intros o' Ho'. assert (lv r1 = lv r). { unfold lv. injection Hw as _ ->. reflexivity. }
        rewrite H. apply Hle. now right.
      * exists r2, l2. split; [easy|]. congruence.
Qed.

Lemma root_inv id : layers_inv (new_root id).
Proof.
  constructor; cbn; [easy|repeat constructor|]. intros [|k] x; cbn; [now intros [= <-]|now destruct k].
Qed.
Lemma level_nonneg x : (0 <= lv x)%Z.
Proof. unfold lv. now destruct (ln_level x). Qed.

(** copying adds the layers in the order of the original: it gives the same sequence *)
Lemma add_layers_sorted os : forall ls, layers_inv ls -> by_level (ls ++ os) ->
  exists ls', add_layers os ls = Ok ls' /\ map who ls' = map who ls ++ map who os.
Proof.
  induction os as [|o os IH]; intros ls Hls Hs; cbn [add_layers].
  - exists ls. cbn. now rewrite app_nil_r.
  - assert (Hadd : add_layer o false ls = Ok (ls ++ [with_index (length ls) o])).
    { unfold add_layer. destruct ls as [|r l] eqn:E; [now destruct Hls|]. rewrite <- E in *.
      apply by_level_lv in Hs. rewrite map_app in Hs. cbn [map] in Hs.
      assert (Hle : (level_value (ln_level (last ls r)) <= level_value (ln_level o))%Z).
      { rewrite (last_nth ls r r) by congruence.
        pose proof (zsorted_nth _ Hs (length ls - 1) (length ls) ltac:(lia)) as H.
        rewrite app_length, map_length in H. cbn [length] in H. specialize (H ltac:(lia)).
        rewrite app_nth1 in H by (rewrite map_length, E; cbn; lia).
        rewrite app_nth2 in H by (rewrite map_length; lia). rewrite map_length, Nat.sub_diag in H. cbn [nth] in H.
        change 0%Z with (lv (LNode 0 ROOT 0)) in H. rewrite map_nth in H.
        rewrite (nth_indep ls _ r) in H by (rewrite E; cbn; lia). exact H. }
      apply Z.leb_le in Hle. now rewrite Hle. }
    rewrite Hadd. cbn [bind]. destruct (add_layer_spec o ls Hls) as (ls1 & E1 & Hinv & _).
    rewrite Hadd in E1. injection E1 as <-.
    destruct (IH _ Hinv) as (ls' & E' & Hw).
    + apply by_level_lv. apply by_level_lv in Hs. rewrite !map_app in *. cbn [map] in *. rewrite <- app_assoc. exact Hs.
    + exists ls'. split; [easy|]. rewrite Hw, map_app, <- app_assoc. reflexivity.
Qed.
Lemma copy_layers_spec rename ls : layers_inv ls ->
  exists ls', copy_layers rename ls = Ok ls' /\ layers_inv ls' /\
    map who ls' = map (fun x => (rename (ln_id x), ln_level x)) ls.
Proof.
  intros [Hne Hs Hi]. destruct ls as [|r l]; [easy|]. unfold copy_layers.
  set (cp := fun x => LNode (rename (ln_id x)) (ln_level x) 0).
  assert (H1 : layers_inv [cp r]).
  { constructor; [easy|repeat constructor|]. intros [|k] x; cbn; [now intros [= <-]|now destruct k]. }
  destruct (add_layers_sorted (map cp l) [cp r] H1) as (ls' & E & Hw).
  - apply by_level_lv. apply by_level_lv in Hs. cbn [app map] in *. now rewrite map_map.
  - exists ls'. split; [exact E|]. split.
    + destruct (add_layers_spec (map cp l) [cp r] H1) as (ls2 & E2 & Hinv & _). rewrite E in E2. now injection E2 as <-.
    + rewrite Hw. cbn. now rewrite map_map.
Qed.

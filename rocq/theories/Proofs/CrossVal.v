(** Lemmas on experiments with a special evaluation. *)
From Coq Require Import Arith QArith Bool Lia List.
From Verif.Model Require Import Prelude MultiValue Pareto Hypervolume HypervolumePareto Experiment CrossVal.
From Verif.Spec Require Import Pareto CrossVal.
From Verif.Proofs Require Import MultiValue Pareto HypervolumePareto.
Import ListNotations.
Open Scope nat_scope.

Lemma all_ok_ok {A} (l : list (result A)) l' : all_ok l = Ok l' <-> Forall2 (fun r a => r = Ok a) l l'.
Proof.
  revert l'. induction l as [|r l IH]; intros l'; cbn.
  - split; [intros H; inversion H; constructor|intros H; inversion H; reflexivity].
  - destruct r as [a|e]; cbn.
    + destruct (all_ok l) as [l0|e] eqn:E; cbn.
      * split.
        -- intros H. inversion H. subst. constructor; [reflexivity|]. apply IH. reflexivity.
        -- intros H. inversion H as [|? b ? l1 H1 H2]; subst. inversion H1. subst. apply IH in H2. congruence.
      * split; [discriminate|]. intros H. inversion H as [|? b ? l1 H1 H2]; subst. apply IH in H2. discriminate.
    + split; [discriminate|]. intros H. inversion H as [|? b ? l1 H1 H2]; subst. discriminate.
Qed.

Lemma nth_error_product {A B C} (f : A -> B -> C) (ys : list B) xs i j x y :
  nth_error xs i = Some x -> nth_error ys j = Some y ->
  nth_error (flat_map (fun a => map (f a) ys) xs) (i * length ys + j) = Some (f x y).
Proof.
  revert i. induction xs as [|a xs IH]; intros i Hx Hy; [destruct i; discriminate|].
  assert (Hj : j < length ys) by (apply nth_error_Some; congruence). destruct i; cbn.
  - inversion Hx. subst. rewrite nth_error_app1 by (rewrite map_length; exact Hj). apply map_nth_error. exact Hy.
  - rewrite nth_error_app2 by (rewrite map_length; lia). rewrite map_length.
    replace (length ys + i * length ys + j - length ys) with (i * length ys + j) by lia. apply IH; assumption.
Qed.
Lemma length_product {A B C} (f : A -> B -> C) (ys : list B) xs : length (flat_map (fun a => map (f a) ys) xs) = length xs * length ys.
Proof. induction xs as [|a xs IH]; cbn; [reflexivity|]. rewrite app_length, map_length, IH. reflexivity. Qed.
Lemma Forall2_nth {A B} (R : A -> B -> Prop) l l' i x : Forall2 R l l' -> nth_error l i = Some x -> exists y, nth_error l' i = Some y /\ R x y.
Proof.
  intros H. revert i. induction H as [|a b l l' H0 H1 IH]; intros i Hi; [destruct i; discriminate|].
  destruct i; cbn in *; [inversion Hi; subst; exists b; auto|apply IH; exact Hi].
Qed.
Lemma Forall2_len {A B} (R : A -> B -> Prop) l l' : Forall2 R l l' -> length l = length l'.
Proof. induction 1; cbn; congruence. Qed.

Lemma fold_min l : forall x, (exists y, (y = x \/ In y l) /\ fold_left (fun b y => if qlt y b then y else b) l x = y) /\
  (fold_left (fun b y => if qlt y b then y else b) l x <= x)%Q /\
  (forall y, In y l -> (fold_left (fun b y => if qlt y b then y else b) l x <= y)%Q).
Proof.
  induction l as [|a l IH]; intros x; cbn.
  - split; [exists x; auto|]. split; [apply Qle_refl|intros y []].
  - destruct (qlt a x) eqn:E.
    + apply qlt_iff in E. destruct (IH a) as [[y [H1 H2]] [H3 H4]]. split; [exists y; split; [destruct H1 as [->|H1]; auto|exact H2]|]. split.
      * eapply Qle_trans; [exact H3|apply Qlt_le_weak; exact E].
      * intros z [<-|Hz]; auto.
    + apply qlt_false in E. destruct (IH x) as [[y [H1 H2]] [H3 H4]]. split; [exists y; split; [destruct H1 as [->|H1]; auto|exact H2]|]. split; [exact H3|].
      intros z [<-|Hz]; [eapply Qle_trans; eassumption|auto].
Qed.
Lemma py_min_ok ev l q : py_min (map ev l) = Ok q -> smallest ev l q.
Proof.
  destruct l as [|p l]; [discriminate|]. cbn [py_min map]. intros H. inversion H as [H0]. clear H.
  destruct (fold_min (map ev l) (ev p)) as [[y [H1 H2]] [H3 H4]]. split.
  - rewrite H2. destruct H1 as [->|H1]; [exists p; cbn; auto|]. apply in_map_iff in H1 as [r [Hr1 Hr2]]. exists r. cbn. auto.
  - intros r [<-|Hr]; [exact H3|]. apply H4. apply in_map. exact Hr.
Qed.
Lemma py_min_some ev (l : list point) : l <> [] -> exists q, py_min (map ev l) = Ok q.
Proof. destruct l; [congruence|]. intros _. eexists. reflexivity. Qed.

(** points of the front come from the recommendations *)
Lemma filter_sub f p : In p (pf_pareto (if pf_needs_filtering f then pf_filter f else f)) -> In p (pf_pareto f).
Proof. destruct (pf_needs_filtering f); [|auto]. cbn. intros H. apply filter_In in H. tauto. Qed.
Lemma get_front_state size subset draws f : fst (pf_get_front size subset draws f) = if pf_needs_filtering f then pf_filter f else f.
Proof. unfold pf_get_front. destruct size as [n|]; [|reflexivity]. destruct (length _ <=? n); reflexivity. Qed.
Lemma calc_sub b p s q : In q (pf_pareto (hp_pf (fst (calc_hypervolume b p s)))) -> In q (pf_pareto (hp_pf s)) \/ q = p.
Proof.
  unfold calc_hypervolume. destruct (compute b _) as [v|e]; [|cbn; auto].
  destruct (best_below (hp_best s) v); [cbn; rewrite in_app_iff; cbn; intuition|].
  destruct (pf_get_front None SRandom [] (hp_pf s)) as [f r] eqn:E.
  assert (Hf : f = if pf_needs_filtering (hp_pf s) then pf_filter (hp_pf s) else hp_pf s) by (rewrite <- (get_front_state None SRandom []), E; reflexivity).
  assert (Hq : In q (pf_pareto (hp_pf (hp_with_pf f s))) -> In q (pf_pareto (hp_pf s)) \/ q = p) by (cbn; intros H; left; rewrite Hf in H; apply filter_sub; exact H).
  destruct r as [front|e]; [|exact Hq]. destruct (distance _ _) as [d|]; [|exact Hq]. destruct (qle 0 d); exact Hq.
Qed.
Lemma add_sub p s q : In q (pf_pareto (hp_pf (fst (hp_add p s)))) -> In q (pf_pareto (hp_pf s)) \/ q = p.
Proof.
  unfold hp_add. destruct (hp_auto s) as [|a].
  - destruct (hp_bounds s) as [b|].
    + destruct (over _ _).
      * set (s1 := if best_below (hp_best s) _ then _ else s). assert (Hs : hp_pf s1 = hp_pf s) by (unfold s1; destruct (best_below _ _); reflexivity).
        cbn [fst]. destruct (best_below (hp_best s1) 0%Q); cbn; rewrite Hs; [rewrite in_app_iff; cbn; intuition|auto].
      * destruct (hp_no s); [cbn; rewrite in_app_iff; cbn; intuition|apply calc_sub].
    + destruct (pt_losses p); [cbn; auto|]. cbn [fst]. destruct (best_below _ _); cbn; [rewrite in_app_iff; cbn; intuition|auto].
  - cbn [hp_bounds]. destruct (hp_bounds s) as [b|]; [destruct (vall_lt _ _)|]; cbn; rewrite ?in_app_iff; cbn; intuition.
Qed.
Lemma extend_sub ps : forall o s q, In q (pf_pareto (hp_pf (fst (hp_extend o ps s)))) -> In q (pf_pareto (hp_pf s)) \/ In q ps.
Proof.
  induction ps as [|p ps IH]; intros o s q H; [left; exact H|]. cbn [hp_extend] in H.
  assert (Ha := add_sub p s q). destruct (hp_add p s) as [s1 [l|e]]; cbn [fst] in *.
  - apply IH in H as [H|H]; [apply Ha in H as [H|H]; cbn; auto|cbn; auto].
  - apply Ha in H as [H|H]; cbn; auto.
Qed.

Lemma choice_short l draw : length (choice l draw) <= length draw.
Proof.
  induction draw as [|i draw IH]; [cbn; lia|]. cbn [choice flat_map]. rewrite app_length. unfold choice in IH.
  destruct (nth_error l i); cbn; lia.
Qed.

(** a few incomparable recommendations are all added, and no volume is computed *)
Lemma vmax_above (b : list Q) : forall a l, vle a b -> length l = length b -> vle a (vmax b l) /\ vle l (vmax b l) /\ length (vmax b l) = length b.
Proof.
  unfold vle. induction b as [|y b IH]; intros a l H Hl; inversion H as [|x ? a' ? H1 H2]; subst; destruct l as [|z l]; cbn in *; try lia.
  - repeat constructor.
  - destruct (IH a' l H2 ltac:(lia)) as [I1 [I2 I3]]. split; [|split].
    + constructor; [eapply Qle_trans; [exact H1|apply qmax_ge_l]|exact I1].
    + constructor; [apply qmax_ge_r|exact I2].
    + change (S (length (vmax b l)) = S (length b)). congruence.
Qed.
Lemma vall_lt_dom (b : list Q) : forall a l, vle a b -> length l = length b -> 0 < length b -> vall_lt b l = true -> dom a l.
Proof.
  intros a l H Hl Hpos Hlt. split.
  - clear Hpos. revert l Hl Hlt. unfold vle. induction H as [|x y a b H1 H2 IH]; intros l Hl Hlt; destruct l as [|z l]; cbn in *; try lia; constructor.
    + apply andb_true_iff in Hlt as [Hlt _]. apply qlt_iff in Hlt. eapply Qle_trans; [exact H1|apply Qlt_le_weak; exact Hlt].
    + apply IH; [lia|]. apply andb_true_iff in Hlt as [_ Hlt]. exact Hlt.
  - destruct H as [|x y a b H1 H2]; destruct l as [|z l]; cbn in *; try lia. exists 0, x, z. split; [reflexivity|]. split; [reflexivity|].
    apply andb_true_iff in Hlt as [Hlt _]. apply qlt_iff in Hlt. cbn in Hlt. eapply Qle_lt_trans; eassumption.
Qed.
Lemma extend_auto d ps : forall o done auto b, 0 < d -> same_dimension d (done ++ ps) -> incomparable (done ++ ps) -> length ps <= auto ->
  length b = d -> done <> [] -> (forall q, In q done -> vle (pt_losses q) b) ->
  exists auto' b' l, hp_extend o ps (HP auto (Some b) None (PF done true) false) = (HP auto' (Some b') None (PF (done ++ ps) true) false, Ok l).
Proof.
  induction ps as [|p ps IH]; intros o done auto b Hd Hs Hi Ha Hb Hne Hq.
  - exists auto, b, o. rewrite app_nil_r. reflexivity.
  - destruct auto as [|auto]; [cbn in Ha; lia|]. cbn [hp_extend]. unfold hp_add. cbn [hp_auto hp_bounds hp_best hp_pf hp_no].
    assert (Hp : length (pt_losses p) = d) by (apply Hs, in_or_app; right; left; reflexivity).
    destruct (vall_lt b (pt_losses p)) eqn:E.
    + exfalso. destruct done as [|q done]; [congruence|].
      assert (Hin : In p ((q :: done) ++ p :: ps)) by (apply in_or_app; right; left; reflexivity).
      apply (Hi p Hin q (or_introl eq_refl)). eapply vall_lt_dom; [apply Hq; left; reflexivity| | |exact E]; lia.
    + unfold pf_add. cbn [pf_pareto].
      replace (done ++ p :: ps) with ((done ++ [p]) ++ ps) in * by (rewrite <- app_assoc; reflexivity).
      assert (Hx : exists q0, In q0 done) by (destruct done as [|q0 done]; [congruence|exists q0; left; reflexivity]).
      destruct Hx as [q0 Hq0].
      apply IH; auto.
      * cbn in Ha. lia.
      * destruct (vmax_above b _ (pt_losses p) (Hq q0 Hq0)) as [_ [_ H]]; lia.
      * destruct done; discriminate.
      * intros q Hin. apply in_app_or in Hin as [Hin|[<-|[]]].
        -- apply (vmax_above b _ (pt_losses p) (Hq q Hin)). lia.
        -- apply (vmax_above b _ (pt_losses p) (Hq q0 Hq0)). lia.
Qed.
Lemma vle_refl a : vle a a.
Proof. induction a; constructor; [apply Qle_refl|assumption]. Qed.
Lemma extend_few d recs : 0 < d -> same_dimension d recs -> incomparable recs -> length recs <= AUTO_BOUND -> recs <> [] ->
  exists auto b l, hp_extend (HypervolumePareto.Fin 0%Q) recs (hp_init None AUTO_BOUND false) = (HP auto b None (PF recs true) false, Ok l).
Proof.
  intros Hd Hs Hi Hl Hne. destruct recs as [|p ps]; [congruence|].
  unfold hp_init, AUTO_BOUND in *. cbn [hp_extend]. unfold hp_add at 1. cbn [hp_auto hp_bounds hp_best hp_pf hp_no]. unfold pf_add, pf_init. cbn [pf_pareto app].
  destruct (extend_auto d ps (HypervolumePareto.Fin 0%Q) [p] 14 (pt_losses p)) as [a [b [l H]]]; auto.
  - cbn [length] in Hl. lia.
  - apply Hs. left. reflexivity.
  - discriminate.
  - intros q [<-|[]]. apply vle_refl.
  - exists a, (Some b), l. exact H.
Qed.
Lemma filter_incomparable d recs : same_dimension d recs -> incomparable recs -> pf_pareto (pf_filter (PF recs true)) = recs.
Proof.
  intros Hs Hi. cbn. assert (H : forall l, (forall p, In p l -> In p recs) ->
    filter (fun param => negb (existsb (fun other => dominates other param) recs)) l = l).
  { induction l as [|p l IH]; intros Hl; [reflexivity|]. cbn.
    destruct (existsb (fun other => dominates other p) recs) eqn:E.
    - exfalso. apply existsb_exists in E as [q [H1 H2]]. apply dominates_iff in H2; [|rewrite (Hs q H1), (Hs p); [reflexivity|apply Hl; left; reflexivity]].
      apply (Hi p (Hl p (or_introl eq_refl)) q H1 H2).
    - cbn. f_equal. apply IH. intros; apply Hl; right; assumption. }
  apply H. auto.
Qed.

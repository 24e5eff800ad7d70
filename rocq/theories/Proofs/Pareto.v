From Coq Require Import List Arith QArith Bool Lia Lqa Permutation.
From Verif.Model Require Import Prelude MultiValue Pareto.
From Verif.Spec Require Import Pareto.
From Verif.Proofs Require Import Prelude MultiValue.
Import ListNotations.
Open Scope nat_scope.

Lemma vall_le_iff a : forall b, length a = length b -> vall_le a b = true <-> vle a b.
Proof.
  unfold vall_le, vle. induction a as [|x a IH]; intros [|y b]; cbn; try discriminate.
  - intros _. split; [constructor|easy].
  - intros [= H]. rewrite andb_true_iff, qle_iff, (IH b H). split.
    + intros []. now constructor.
    + intros HF. now inversion HF.
Qed.
Lemma vany_lt_iff a : forall b, vany_lt a b = true <->
  exists i x y, nth_error a i = Some x /\ nth_error b i = Some y /\ (x < y)%Q.
Proof.
  unfold vany_lt. induction a as [|x a IH]; intros [|y b]; cbn.
  - split; [easy|]. now intros ([|i] & ? & ? & ? & _).
  - split; [easy|]. now intros ([|i] & ? & ? & ? & _).
  - split; [easy|]. now intros ([|i] & ? & ? & _ & ? & _).
  - rewrite orb_true_iff, qlt_iff, IH. split.
    + intros [H|(i & u & v & A & B & C)]; [now exists 0, x, y|now exists (S i), u, v].
    + intros ([|i] & u & v & A & B & C); cbn in *.
      * left. injection A as <-. injection B as <-. easy.
      * right. now exists i, u, v.
Qed.
Lemma dominates_iff p q : length (pt_losses p) = length (pt_losses q) ->
  dominates p q = true <-> dom (pt_losses p) (pt_losses q).
Proof. intros H. unfold dominates, dom. rewrite andb_true_iff, vall_le_iff, vany_lt_iff by exact H. easy. Qed.

Lemma vle_refl a : vle a a.
Proof. induction a; constructor; [apply Qle_refl|easy]. Qed.
Lemma vle_trans a b c : vle a b -> vle b c -> vle a c.
Proof.
  intros H. revert c. induction H as [|x y a b Hx H IH]; intros c Hc; inversion Hc; subst; constructor.
  - eapply Qle_trans; eauto.
  - apply IH; assumption.
Qed.
Lemma vle_nth a b i x y : vle a b -> nth_error a i = Some x -> nth_error b i = Some y -> (x <= y)%Q.
Proof.
  intros H. revert i. induction H as [|u v a b Hu H IH]; intros [|i]; cbn; try easy.
  - now intros [= <-] [= <-].
  - apply IH.
Qed.
Lemma vle_length a b : vle a b -> length a = length b.
Proof. induction 1; cbn; congruence. Qed.
Lemma dom_irrefl a : ~ dom a a.
Proof. intros [_ (i & x & y & A & B & C)]. rewrite A in B. injection B as <-. now apply Qlt_irrefl in C. Qed.
Lemma vle_dom a b c : vle a b -> dom b c -> dom a c.
Proof.
  intros H [H1 (i & x & y & A & B & C)]. split; [eapply vle_trans; eauto|].
  destruct (nth_error a i) as [z|] eqn:E.
  - exists i, z, y. split; [easy|]. split; [easy|]. pose proof (vle_nth _ _ _ _ _ H E A). lra.
  - apply nth_error_None in E. assert (i < length b) by (apply nth_error_Some; congruence).
    apply vle_length in H. lia.
Qed.
Lemma dom_trans a b c : dom a b -> dom b c -> dom a c.
Proof. intros [H _]. now apply vle_dom. Qed.

(** every point is dominated by an undominated one, or undominated *)
Lemma nondominated_below d l : same_dimension d l -> forall p, In p l ->
  exists q, In q l /\ undominated l q /\ vle (pt_losses q) (pt_losses p) /\
            (q = p \/ dom (pt_losses q) (pt_losses p)).
Proof.
  intros Hd. pose (below p := filter (fun q => dominates q p) l).
  assert (Hb : forall p q, In p l -> In q (below p) <-> In q l /\ dom (pt_losses q) (pt_losses p)).
  { intros p q Hp. unfold below. rewrite filter_In. split; intros [A B]; (split; [easy|]).
    - apply dominates_iff; [now rewrite (Hd q A), (Hd p Hp)|easy].
    - apply dominates_iff; [now rewrite (Hd q A), (Hd p Hp)|easy]. }
  assert (Hlt : forall n p, In p l -> length (below p) <= n ->
     exists q, In q l /\ undominated l q /\ vle (pt_losses q) (pt_losses p) /\ (q = p \/ dom (pt_losses q) (pt_losses p))).
  { induction n as [|n IH]; intros p Hp Hn.
    - exists p. split; [easy|]. split; [|split; [apply vle_refl|auto]]. intros q Hq Hdom.
      assert (Hin : In q (below p)) by (apply Hb; auto). destruct (below p); [easy|cbn in Hn; lia].
    - destruct (below p) as [|q r] eqn:E.
      + exists p. split; [easy|]. split; [|split; [apply vle_refl|auto]]. intros q Hq Hdom.
        assert (Hin : In q (below p)) by (apply Hb; auto). now rewrite E in Hin.
      + assert (Hq : In q (below p)) by (rewrite E; now left). apply Hb in Hq as [Hq1 Hq2]; [|easy].
        destruct (IH q Hq1) as (x & X1 & X2 & X3 & X4).
        * assert (Hle : length (below q) < length (below p)); [|rewrite E in Hle; cbn in Hle; cbn in Hn; lia].
          assert (Hincl : forall x, In x (below q) -> In x (below p)).
          { intros x Hx. apply Hb in Hx as [Hx1 Hx2]; [|easy]. apply Hb; [easy|]. split; [easy|]. eapply dom_trans; eauto. }
          unfold below in *. clear - Hincl Hq1 Hq2 Hd Hp. 
          assert (Hgen : forall m, (forall x, In x m -> In x l) ->
             length (filter (fun x => dominates x q) m) <= length (filter (fun x => dominates x p) m) /\
             (In q m -> length (filter (fun x => dominates x q) m) < length (filter (fun x => dominates x p) m))).
          { induction m as [|x m IHm]; intros Hm; [split; [cbn; lia|easy]|].
            destruct IHm as [A B]; [intros; apply Hm; now right|]. cbn [filter].
            assert (Hx : dominates x q = true -> dominates x p = true).
            { intros H. assert (X : In x (filter (fun x => dominates x p) l)); [|apply filter_In in X; apply X].
              apply Hincl. apply filter_In. split; [apply Hm; now left|easy]. }
            split.
            - destruct (dominates x q); [rewrite (Hx eq_refl); cbn; lia|]. destruct (dominates x p); cbn; lia.
            - intros [->|Hin].
              + assert (Hqq : dominates q q = false).
                { destruct (dominates q q) eqn:E; [|easy]. apply dominates_iff in E; [|easy]. now apply dom_irrefl in E. }
                assert (Hqp : dominates q p = true) by (apply dominates_iff; [now rewrite (Hd q Hq1), (Hd p Hp)|easy]).
                rewrite Hqq, Hqp. cbn. lia.
              + specialize (B Hin). destruct (dominates x q); [rewrite (Hx eq_refl); cbn; lia|]. destruct (dominates x p); cbn; lia. }
          apply (Hgen l (fun x H => H)). exact Hq1.
        * exists x. split; [easy|]. split; [easy|]. split; [eapply vle_trans; [exact X3|apply Hq2]|].
          right. eapply vle_dom; eauto. }
  intros p Hp. now apply (Hlt (length (below p))).
Qed.

Lemma keeps_filter {A} (P : A -> Prop) (f : A -> bool) l :
  (forall x, In x l -> f x = true <-> P x) -> keeps P l (filter f l).
Proof.
  induction l as [|x l IH]; intros H; cbn; [constructor|].
  assert (Hx := H x (or_introl eq_refl)).
  destruct (f x); constructor; try apply IH; try (intros; apply H; now right).
  - now apply Hx.
  - intros HP. apply Hx in HP. discriminate.
Qed.
Lemma keeps_in {A} (P : A -> Prop) l l' : keeps P l l' -> forall x, In x l' <-> In x l /\ P x.
Proof.
  induction 1 as [|x l l' Hx HK IH|x l l' Hx HK IH]; intros y; cbn.
  - tauto.
  - rewrite IH. intuition (subst; auto).
  - rewrite IH. split; [tauto|]. intros [[->|H] HP]; [easy|auto].
Qed.
Lemma keeps_unique {A} (P : A -> Prop) l a b : keeps P l a -> keeps P l b -> a = b.
Proof.
  intros H. revert b. induction H; intros b Hb; inversion Hb; subst; auto; try easy. f_equal. auto.
Qed.
Lemma keeps_app {A} (P : A -> Prop) l1 l1' l2 l2' : keeps P l1 l1' -> keeps P l2 l2' -> keeps P (l1 ++ l2) (l1' ++ l2').
Proof. induction 1; cbn; auto; constructor; auto. Qed.
(** only elements without [P] are dropped, some may remain *)
Inductive drops {A} (P : A -> Prop) : list A -> list A -> Prop :=
| drops_nil : drops P [] []
| drops_keep x l l' : drops P l l' -> drops P (x :: l) (x :: l')
| drops_drop x l l' : ~ P x -> drops P l l' -> drops P (x :: l) l'.
Lemma drops_mono {A} (P Q : A -> Prop) l l' : (forall x, Q x -> P x) -> drops P l l' -> drops Q l l'.
Proof. intros H. induction 1; constructor; auto. Qed.
Lemma drops_snoc {A} (P : A -> Prop) l l' x : drops P l l' -> drops P (l ++ [x]) (l' ++ [x]).
Proof. induction 1; cbn; constructor; auto. constructor. Qed.
Lemma keeps_drops {A} (P : A -> Prop) l l' : keeps P l l' -> drops P l l'.
Proof. induction 1; constructor; auto. Qed.
Lemma drops_keeps {A} (P : A -> Prop) l a b : drops P l a -> keeps P a b -> keeps P l b.
Proof.
  intros H. revert b. induction H; intros b Hb.
  - exact Hb.
  - inversion Hb; subst; constructor; auto.
  - constructor; auto.
Qed.
Lemma drops_in {A} (P : A -> Prop) l l' : drops P l l' -> forall x, In x l' -> In x l.
Proof. induction 1; cbn; intuition. Qed.
Lemma drops_keep_in {A} (P : A -> Prop) l l' : drops P l l' -> forall x, In x l -> P x -> In x l'.
Proof. induction 1; cbn; intuition (subst; auto; try tauto). Qed.
Lemma keeps_all {A} (P : A -> Prop) l : (forall x, In x l -> P x) -> keeps P l l.
Proof. induction l; intros H; constructor; [apply H; now left|apply IHl; intros; apply H; now right]. Qed.
Lemma keeps_ext {A} (P Q : A -> Prop) l l' : (forall x, In x l -> (P x <-> Q x)) -> keeps P l l' -> keeps Q l l'.
Proof.
  intros H HP. induction HP as [|x l l' Hx HP IH|x l l' Hx HP IH]; constructor;
    try (rewrite <- (H x (or_introl eq_refl)); exact Hx); try (apply IH; intros; apply H; now right).
Qed.

(** the state: filtered or not, it loses only dominated points *)
Record front_inv (all : list point) (s : pfront) : Prop := {
  fi_drops : drops (undominated all) all (pf_pareto s);
  fi_clean : pf_needs_filtering s = false -> keeps (undominated all) all (pf_pareto s) }.

Lemma filter_inv d all s : same_dimension d all -> front_inv all s ->
  keeps (undominated all) all (pf_pareto (pf_filter s)).
Proof.
  intros Hd [HP _]. cbn [pf_filter pf_pareto].
  assert (Hin := drops_in _ _ _ HP).
  eapply drops_keeps; [exact HP|].
  apply keeps_filter. intros p Hp. rewrite negb_true_iff. split.
  - intros Hno q Hq Hdom. destruct (nondominated_below d all Hd q Hq) as (q' & Hq' & Hu & Hle & _).
    assert (Hdom' : dom (pt_losses q') (pt_losses p)) by (eapply vle_dom; eauto).
    assert (existsb (fun other => dominates other p) (pf_pareto s) = true); [|congruence].
    apply existsb_exists. exists q'. split; [eapply drops_keep_in; eauto|].
    apply dominates_iff; [|easy]. now rewrite (Hd q'), (Hd p) by auto.
  - intros Hu. destruct (existsb _ _) eqn:E; [|easy]. apply existsb_exists in E as (q & Hq & Hdom).
    apply dominates_iff in Hdom; [|now rewrite (Hd q), (Hd p) by auto]. exfalso. eapply Hu; eauto.
Qed.

Lemma get_front_state size subset draws s :
  fst (pf_get_front size subset draws s) = if pf_needs_filtering s then pf_filter s else s.
Proof. unfold pf_get_front. destruct size; [|easy]. now destruct (_ <=? _). Qed.

Lemma front_inv_step d all s : same_dimension d all -> front_inv all s ->
  keeps (undominated all) all (pf_pareto (if pf_needs_filtering s then pf_filter s else s)).
Proof.
  intros Hd H. destruct (pf_needs_filtering s) eqn:E; [now apply (filter_inv d)|now apply H].
Qed.

Lemma added_snoc ops o : pf_added (ops ++ [o]) = pf_added ops ++ match o with PAdd p => [p] | _ => [] end.
Proof. unfold pf_added. rewrite flat_map_app. cbn. now rewrite app_nil_r. Qed.
Lemma run_snoc ops o : pf_run (ops ++ [o]) = pf_step (pf_run ops) o.
Proof. unfold pf_run. now rewrite fold_left_app. Qed.

Lemma run_inv d ops : same_dimension d (pf_added ops) -> front_inv (pf_added ops) (pf_run ops).
Proof.
  induction ops as [|o ops IH] using rev_ind; intros Hd.
  - cbn. constructor; cbn; constructor.
  - rewrite added_snoc in *. rewrite run_snoc.
    assert (Hd0 : same_dimension d (pf_added ops)) by (intros p Hp; apply Hd, in_or_app; now left).
    specialize (IH Hd0). destruct o as [p|size subset draws].
    + cbn [pf_step pf_add]. constructor; cbn [pf_add pf_pareto pf_needs_filtering]; [|discriminate].
      apply drops_snoc. eapply drops_mono; [|apply IH].
      intros x Hx q Hq. apply Hx, in_or_app. now left.
    + rewrite app_nil_r. cbn [pf_step]. rewrite get_front_state.
      assert (HK := front_inv_step d _ _ Hd0 IH). constructor; [now apply keeps_drops|easy].
Qed.

Theorem get_front_full d ops : same_dimension d (pf_added ops) ->
  exists front, snd (pf_get_front None SRandom [] (pf_run ops)) = Ok front /\
                keeps (undominated (pf_added ops)) (pf_added ops) front.
Proof.
  intros Hd. eexists. split; [reflexivity|]. apply (front_inv_step d); [easy|now apply (run_inv d)].
Qed.

Definition full_front (ops : list pf_op) : list point :=
  let s := pf_run ops in pf_pareto (if pf_needs_filtering s then pf_filter s else s).
Lemma full_front_keeps d ops : same_dimension d (pf_added ops) ->
  keeps (undominated (pf_added ops)) (pf_added ops) (full_front ops).
Proof. intros Hd. apply (front_inv_step d); [easy|now apply (run_inv d)]. Qed.

Lemma choice_in l draw p : In p (choice l draw) -> In p l.
Proof.
  unfold choice. rewrite in_flat_map. intros (i & _ & H).
  destruct (nth_error l i) eqn:E; [|easy]. destruct H as [<-|[]]. now apply nth_error_In in E.
Qed.
Lemma choice_length l draw : (forall i, In i draw -> i < length l) -> length (choice l draw) = length draw.
Proof.
  induction draw as [|i draw IH]; intros H; [easy|]. cbn [choice flat_map].
  destruct (nth_error l i) eqn:E.
  - rewrite app_length. cbn. f_equal. apply IH. intros; apply H; now right.
  - apply nth_error_None in E. specialize (H i (or_introl eq_refl)). lia.
Qed.

Lemma get_front_in size subset draws s l :
  snd (pf_get_front size subset draws s) = Ok l ->
  l = pf_pareto (if pf_needs_filtering s then pf_filter s else s) /\
    match size with None => True | Some n => length l <= n end \/
  exists n, size = Some n /\ n < length (pf_pareto (if pf_needs_filtering s then pf_filter s else s)) /\
    exists draw, In draw draws /\ l = choice (pf_pareto (if pf_needs_filtering s then pf_filter s else s)) draw.
Proof.
  unfold pf_get_front. set (s' := if pf_needs_filtering s then _ else _).
  assert (Hpick : forall scores t, match argminQ scores with
     | None => Err ValueError
     | Some i => match nth_error (map (choice (pf_pareto s')) draws) i with Some t => Ok t | None => Err IndexError end
     end = Ok t -> exists draw, In draw draws /\ t = choice (pf_pareto s') draw).
  { intros scores t. destruct (argminQ scores); [|discriminate]. destruct (nth_error _ n) eqn:E; [|discriminate].
    intros [= <-]. apply nth_error_In, in_map_iff in E as (draw & <- & Hin). eauto. }
  destruct size as [n|]; cbn [snd]; [|intros [= <-]; auto].
  destruct (Nat.leb_spec (length (pf_pareto s')) n) as [Hle|Hlt]; cbn [snd].
  - intros [= <-]. auto.
  - intros H. right. exists n. split; [easy|]. split; [easy|].
    destruct subset as [|score|[hv|]|]; try discriminate; try exact (Hpick _ _ H).
    + destruct draws as [|dr draws']; [discriminate|]. cbn in H. injection H as <-. exists dr. split; [now left|easy].
    + destruct (map _ draws) as [|[|a b] ts] eqn:E; try discriminate. exact (Hpick (map (fun _ => 0%Q) ([] :: ts)) l H).
Qed.

(** scores: the smallest one wins *)
Lemma argmin_from_spec l : forall i best bv (all : list Q),
  nth_error all best = Some bv -> (forall k x, k < i -> nth_error all k = Some x -> (bv <= x)%Q) ->
  best < i -> (forall k, nth_error all (i + k) = nth_error l k) ->
  let r := argmin_from i best bv l in
  exists v, nth_error all r = Some v /\ forall k x, nth_error all k = Some x -> (v <= x)%Q.
Proof.
  induction l as [|x l IH]; intros i best bv all Hb Hmin Hlt Hrest; cbn.
  - exists bv. split; [easy|]. intros k x Hk. destruct (Nat.lt_ge_cases k i) as [H|H]; [eauto|].
    specialize (Hrest (k - i)). replace (i + (k - i)) with k in Hrest by lia. rewrite Hk in Hrest. now destruct (k - i).
  - assert (Hx := Hrest 0). rewrite Nat.add_0_r in Hx. cbn in Hx.
    assert (Hrest' : forall k, nth_error all (S i + k) = nth_error l k).
    { intros k. specialize (Hrest (S k)). now replace (i + S k) with (S i + k) in Hrest by lia. }
    destruct (qlt x bv) eqn:E.
    + apply qlt_iff in E. apply IH; auto. intros k y Hk Hy. destruct (Nat.eq_dec k i) as [->|].
      * rewrite Hx in Hy. injection Hy as <-. apply Qle_refl.
      * assert (bv <= y)%Q by (apply (Hmin k); [lia|easy]). lra.
    + apply qlt_false in E. apply IH; auto. intros k y Hk Hy. destruct (Nat.eq_dec k i) as [->|].
      * rewrite Hx in Hy. injection Hy as <-. easy.
      * apply (Hmin k); [lia|easy].
Qed.
Lemma argminQ_spec l i : argminQ l = Some i -> exists v, nth_error l i = Some v /\ forall x, In x l -> (v <= x)%Q.
Proof.
  destruct l as [|x l]; [discriminate|]. cbn [argminQ]. intros [= <-].
  destruct (argmin_from_spec l 1 0 x (x :: l)) as (v & Hv & Hmin); auto.
  - intros [|k] y Hk Hy; [|lia]. cbn in Hy. injection Hy as <-. apply Qle_refl.
  - exists v. split; [easy|]. intros y Hy. apply In_nth_error in Hy as [k Hk]. eauto.
Qed.
Lemma get_front_best_score n score draws s l :
  n < length (pf_pareto (if pf_needs_filtering s then pf_filter s else s)) ->
  snd (pf_get_front (Some n) (SScored score) draws s) = Ok l ->
  let front := pf_pareto (if pf_needs_filtering s then pf_filter s else s) in
  forall draw, In draw draws -> (score front l <= score front (choice front draw))%Q.
Proof.
  intros Hn. unfold pf_get_front. set (s' := if pf_needs_filtering s then _ else _) in *. cbv zeta.
  destruct (Nat.leb_spec (length (pf_pareto s')) n); [lia|]. cbn [snd].
  destruct (argminQ _) as [i|] eqn:E; [|discriminate]. apply argminQ_spec in E as (v & Hv & Hmin).
  destruct (nth_error (map (choice _) draws) i) as [t|] eqn:E; [|discriminate]. intros [= <-] draw Hd.
  rewrite nth_error_map, E in Hv. cbn in Hv. injection Hv as <-. apply Hmin.
  rewrite map_map. apply in_map_iff. eauto.
Qed.

(** epsilon indicator *)
Lemma vmax_diff_ge a b i x y : nth_error a i = Some x -> nth_error b i = Some y -> (x - y <= vmax_diff a b)%Q.
Proof.
  intros Hx Hy. assert (Hin : In (x, y) (combine a b)).
  { revert b i Hx Hy. induction a as [|u a IH]; intros [|v b] [|i]; cbn; try discriminate.
    - intros [= ->] [= ->]. now left.
    - intros. right. eauto. }
  unfold vmax_diff. destruct (combine a b) as [|xy l]; [easy|].
  assert (Hacc : forall l m, (m <= fold_left (fun m xy => qmax m (fst xy - snd xy)) l m)%Q).
  { clear. induction l as [|z l IH]; intros m; cbn; [apply Qle_refl|].
    eapply Qle_trans; [|apply IH]. apply qmax_ge_l. }
  assert (Hfold : forall l m, In (x, y) l -> (x - y <= fold_left (fun m xy => qmax m (fst xy - snd xy)) l m)%Q).
  { clear - Hacc. induction l as [|z l IH]; intros m; [easy|]. intros [->|H]; cbn.
    - eapply Qle_trans; [|apply Hacc]. apply qmax_ge_r.
    - now apply IH. }
  destruct Hin as [->|Hin]; [apply Hacc|now apply Hfold].
Qed.
Lemma vmax_diff_nonneg a b : length a = length b -> ~ dom a b -> a <> [] -> (0 <= vmax_diff a b)%Q.
Proof.
  intros Hl Hd Hne. destruct (vall_le a b) eqn:E.
  - apply vall_le_iff in E; [|easy]. destruct a as [|x a]; [easy|]. destruct b as [|y b]; [easy|].
    assert (H : ~ (x < y)%Q). { intros H. apply Hd. split; [easy|]. exists 0, x, y. easy. }
    pose proof (vmax_diff_ge (x :: a) (y :: b) 0 x y eq_refl eq_refl). apply Qnot_lt_le in H. lra.
  - unfold vall_le in E.
    assert (Hex : exists i x y, nth_error a i = Some x /\ nth_error b i = Some y /\ (y < x)%Q).
    { clear - E. revert b E. induction a as [|x a IH]; intros [|y b]; cbn; try discriminate.
      destruct (qle x y) eqn:Q; cbn.
      - intros H. destruct (IH b H) as (i & u & v & A & B & C). now exists (S i), u, v.
      - intros _. apply qle_false in Q. now exists 0, x, y. }
    destruct Hex as (i & x & y & A & B & C). pose proof (vmax_diff_ge _ _ _ _ _ A B). lra.
Qed.
Lemma eps_best_zero tentative v : (forall pa, In pa tentative -> (0 <= vmax_diff (pt_losses pa) (pt_losses v))%Q) ->
  eps_best tentative v = 0%Q.
Proof.
  unfold eps_best. induction tentative as [|pa l IH]; intros H; [easy|]. cbn [fold_left].
  assert (Hm : qmin 0 (vmax_diff (pt_losses pa) (pt_losses v)) = 0%Q).
  { unfold qmin. destruct (qlt _ _) eqn:E; [|easy]. apply qlt_iff in E. specialize (H pa (or_introl eq_refl)). lra. }
  rewrite Hm. apply IH. intros; apply H; now right.
Qed.
Lemma eps_score_zero front tentative : (forall v, In v front -> eps_best tentative v = 0%Q) ->
  (eps_score front tentative == 0)%Q.
Proof.
  intros H. unfold eps_score.
  assert (Hg : forall l score, (forall v, In v l -> eps_best tentative v = 0%Q) -> (score == 0)%Q ->
            (fold_left (fun score v => score + qmax score (eps_best tentative v)) l score == 0)%Q).
  { clear. induction l as [|v l IH]; intros score H H0; cbn; [easy|]. apply IH; [intros; apply H; now right|].
    rewrite (H v (or_introl eq_refl)). unfold qmax. destruct (qlt _ _); lra. }
  now apply Hg.
Qed.
Lemma argmin_from_const l : forall i best bv, (forall x, In x l -> (bv <= x)%Q) -> argmin_from i best bv l = best.
Proof.
  induction l as [|x l IH]; intros i best bv H; cbn; [easy|].
  assert (E : qlt x bv = false) by (apply qlt_false; apply H; now left). rewrite E. apply IH. intros; apply H; now right.
Qed.
Lemma eps_first_draw d ops n draw draws : d <> 0 -> same_dimension d (pf_added ops) -> n < length (full_front ops) ->
  snd (pf_get_front (Some n) (SScored eps_score) (draw :: draws) (pf_run ops)) = Ok (choice (full_front ops) draw).
Proof.
  intros Hd0 Hd Hn. assert (HK := full_front_keeps d ops Hd). unfold pf_get_front. fold (full_front ops).
  change (pf_pareto (if pf_needs_filtering (pf_run ops) then pf_filter (pf_run ops) else pf_run ops)) with (full_front ops).
  destruct (Nat.leb_spec (length (full_front ops)) n); [lia|]. cbn [snd].
  assert (Hzero : forall t, In t (map (choice (full_front ops)) (draw :: draws)) -> (eps_score (full_front ops) t == 0)%Q).
  { intros t Ht. apply in_map_iff in Ht as (dr & <- & _). apply eps_score_zero. intros v Hv. apply eps_best_zero.
    intros pa Hpa. apply choice_in in Hpa. apply (keeps_in _ _ _ HK) in Hpa as [Hpa Hu]. apply (keeps_in _ _ _ HK) in Hv as [Hv Huv].
    apply vmax_diff_nonneg; [now rewrite (Hd pa), (Hd v)|now apply Huv|]. intros E. apply Hd0. now rewrite <- (Hd pa Hpa), E. }
  cbn [map argminQ]. rewrite argmin_from_const; [easy|].
  intros x Hx. apply in_map_iff in Hx as (t & <- & Ht). rewrite (Hzero _ (or_introl eq_refl)), (Hzero t); [apply Qle_refl|now right].
Qed.

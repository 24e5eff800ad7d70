From Coq Require Import QArith Bool List Arith Lia Lqa Permutation Sorting Qminmax.
From Verif.Model Require Import Prelude MultiValue Nsga2 Pareto Hypervolume HypervolumePareto.
From Verif.Spec Require Import Hypervolume Pareto HypervolumePareto.
From Verif.Proofs Require Import Prelude MultiValue Pareto HyperMeasure Hypervolume HyperUnion.
Import ListNotations.
Open Scope nat_scope.

(** Volumes *)
Lemma union_cover r A B : below r B -> incl A B -> (forall x, In x B -> exists y, In y A /\ Forall2 Qle y x) -> (union_volume r A == union_volume r B)%Q.
Proof.
  intros Hb Hi Hc. assert (H : forall B', incl B' B -> (union_volume r (B' ++ A) == union_volume r A)%Q).
  { induction B' as [|x B' IH]; intros HB'; [reflexivity|]. cbn [app]. destruct (Hc x (HB' x (or_introl eq_refl))) as [y [Hy Hyx]].
    rewrite (union_dominated r (B' ++ A) x y).
    - apply IH. intros z Hz. apply HB'. right. exact Hz.
    - intros z Hz. apply Hb. apply in_app_iff in Hz as [Hz|Hz]; [apply HB'; right; exact Hz|apply Hi; exact Hz].
    - apply in_or_app. right. exact Hy.
    - exact Hyx.
    - apply Hb, HB'. left. reflexivity. }
  rewrite <- (H B (incl_refl B)). apply union_same.
  - intros z Hz. apply Hb. apply in_app_iff in Hz as [Hz|Hz]; [exact Hz|apply Hi; exact Hz].
  - intros z Hz. apply in_app_iff in Hz as [Hz|Hz]; [exact Hz|apply Hi; exact Hz].
  - intros z Hz. apply in_or_app. left. exact Hz.
Qed.
Lemma union_more r A B p : below r (B ++ [p]) -> incl A B -> (union_volume r A == union_volume r B)%Q -> (union_volume r (A ++ [p]) == union_volume r (B ++ [p]))%Q.
Proof.
  intros Hb Hi E. assert (Hi' : incl (A ++ [p]) (B ++ [p])) by (apply incl_app; [apply incl_appl; exact Hi|apply incl_appr, incl_refl]).
  apply Qle_antisym; [apply union_mono; assumption|].
  assert (HA : incl A (B ++ [p])) by (apply incl_appl; exact Hi). assert (HB : incl B (B ++ [p])) by (apply incl_appl, incl_refl).
  rewrite (union_is r (B ++ [p]) Hb A HA), (union_is r (B ++ [p]) Hb B HB) in E. rewrite (union_is r (B ++ [p]) Hb (A ++ [p]) Hi'), (union_is r (B ++ [p]) Hb (B ++ [p]) (incl_refl _)).
  set (v := V (rel r) (places (shift r (B ++ [p]))) (length r)) in *.
  assert (Hs : forall l, (v (l ++ [p]) == v (p :: l))%Q).
  { intros l. apply V_perm; [apply G_sorted|apply G_neg; exact Hb|]. symmetry. apply Permutation_cons_append. }
  rewrite !Hs. pose proof (V_sub (rel r) (places (shift r (B ++ [p]))) (G_sorted r (B ++ [p])) (G_neg r (B ++ [p]) Hb) (length r) p A B Hi) as Hsub. fold v in Hsub. lra.
Qed.
Lemma no_tie_pairs r P : no_tie r P <-> (forall p i, In p P -> S i < length r -> (nth i p 0 < nth i r 0)%Q) /\ ForallOrdPairs (fun p q => forall i, 2 <= i -> S i < length r -> ~ (nth i p 0 == nth i q 0)%Q) P.
Proof.
  unfold no_tie. apply and_iff_compat_l. split; intros H.
  - induction P as [|p P IH]; constructor.
    + apply Forall_forall. intros q Hq i H2 Hi. apply In_nth_error in Hq as [y Hy]. apply (H 0 (S y) p q i eq_refl Hy ltac:(lia) H2 Hi).
    + apply IH. intros x y a b i Hx Hy Hxy. apply (H (S x) (S y) a b i Hx Hy ltac:(lia)).
  - induction H as [|p P Hp HP IH]; intros x y a b i Hx Hy Hxy H2 Hi; [destruct x; discriminate|]. rewrite Forall_forall in Hp. destruct x as [|x], y as [|y]; cbn in Hx, Hy.
    + congruence.
    + injection Hx as <-. apply nth_error_In in Hy. apply (Hp b Hy); assumption.
    + injection Hy as <-. apply nth_error_In in Hx. intros E. apply (Hp a Hx i H2 Hi). symmetry. exact E.
    + apply (IH x y a b i Hx Hy ltac:(lia) H2 Hi).
Qed.
Notation sub := (drops (fun _ : point => False)).
Lemma no_tie_sub r (l l' : list point) : sub l l' -> no_tie r (map pt_losses l) -> no_tie r (map pt_losses l').
Proof.
  intros H. rewrite !no_tie_pairs. intros [H1 H2]. split.
  - intros p i Hp. apply H1. apply in_map_iff in Hp as [q [<- Hq]]. apply in_map. eapply drops_in; eauto.
  - clear H1. induction H as [|x l l' H IH|x l l' _ H IH]; cbn in *; [constructor| |].
    + inversion H2 as [|? ? Hx H2']; subst. constructor; [|auto]. rewrite Forall_forall in *. intros q Hq. apply Hx. apply in_map_iff in Hq as [z [<- Hz]]. apply in_map. eapply drops_in; eauto.
    + inversion H2; subst. auto.
Qed.
Lemma sub_refl (l : list point) : sub l l.
Proof. induction l; constructor; auto. Qed.
Lemma sub_trans (a b c : list point) : sub a b -> sub b c -> sub a c.
Proof.
  intros H. revert c. induction H as [|x l l' H IH|x l l' _ H IH]; intros c Hc; [exact Hc| |constructor; auto].
  inversion Hc; subst; constructor; auto.
Qed.
Lemma sub_filter f (l : list point) : sub l (filter f l).
Proof. induction l as [|x l IH]; cbn; [constructor|]. destruct (f x); constructor; auto. Qed.
Lemma sub_snoc_drop (l l' : list point) x : sub l l' -> sub (l ++ [x]) l'.
Proof. intros H. induction H; cbn; constructor; auto. constructor. Qed.

(** Bounds *)
Lemma over_iff : forall l b, length l = length b -> (over l b = false <-> Forall2 Qle l b).
Proof.
  unfold over. induction l as [|x l IH]; intros [|y b] H; try discriminate; cbn; [split; constructor|]. cbn in H. rewrite orb_false_iff, (IH b) by lia. split.
  - intros [H1 H2]. constructor; [|exact H2]. destruct (Qlt_le_dec 0 (x - y)) as [Hl|Hl]; [apply qlt_iff in Hl; congruence|lra].
  - intros H1. inversion H1; subst. split; [|assumption]. destruct (qlt 0 (x - y)) eqn:E; [apply qlt_iff in E; lra|reflexivity].
Qed.
Lemma vexcess_is : forall l b, (vexcess l b == excess l b)%Q.
Proof.
  unfold vexcess. induction l as [|x l IH]; intros [|y b]; cbn; try reflexivity. rewrite IH. apply Qplus_comp; [|reflexivity]. unfold qmax. destruct (qlt 0 (x - y)) eqn:E.
  - apply qlt_iff in E. symmetry. apply Q.max_r. lra.
  - symmetry. apply Q.max_l. destruct (Qlt_le_dec 0 (x - y)) as [Hl|Hl]; [apply qlt_iff in Hl; congruence|lra].
Qed.
Lemma excess_nonneg : forall l b, (0 <= excess l b)%Q.
Proof. induction l as [|x l IH]; intros [|y b]; cbn; try lra. pose proof (Q.le_max_l 0 (x - y)). pose proof (IH b). lra. Qed.
Lemma excess_pos : forall l b, length l = length b -> ~ Forall2 Qle l b -> (0 < excess l b)%Q.
Proof.
  induction l as [|x l IH]; intros [|y b] H Hn; try discriminate; [exfalso; apply Hn; constructor|]. cbn. pose proof (Q.le_max_l 0 (x - y)). pose proof (Q.le_max_r 0 (x - y)). pose proof (excess_nonneg l b).
  destruct (Qlt_le_dec y x) as [Hl|Hl]; [lra|]. pose proof (IH b ltac:(cbn in H; lia) ltac:(intros HF; apply Hn; constructor; [lra|exact HF])). lra.
Qed.

(** Distance to the front *)
Lemma min_diff_fold : forall l q, let m := fold_left (fun m xy => qmin m (fst xy - snd xy)%Q) l q in (m <= q)%Q /\ (forall x y, In (x, y) l -> (m <= x - y)%Q) /\ (m = q \/ exists x y, In (x, y) l /\ m = (x - y)%Q).
Proof.
  induction l as [|[a b] l IH]; intros q; cbn; [split; [lra|]; split; [tauto|left; reflexivity]|]. destruct (IH (qmin q (a - b)%Q)) as [H1 [H2 H3]]. pose proof (qmin_le_l q (a - b)). pose proof (qmin_le_r q (a - b)). split; [lra|]. split.
  - intros x y [E|Hin]; [injection E as <- <-; lra|auto].
  - destruct H3 as [H3|[x [y [Hin H3]]]]; [|right; exists x, y; auto]. destruct (qmin_or q (a - b)) as [E|E]; [left; congruence|right; exists a, b; split; [left; reflexivity|congruence]].
Qed.
Lemma in_combine_nth {A B} : forall (l : list A) (m : list B) x y, In (x, y) (combine l m) <-> exists i, nth_error l i = Some x /\ nth_error m i = Some y.
Proof.
  induction l as [|a l IH]; intros [|b m] x y; cbn.
  - split; [tauto|]. intros [i [H _]]. destruct i; discriminate.
  - split; [tauto|]. intros [i [H _]]. destruct i; discriminate.
  - split; [tauto|]. intros [i [_ H]]. destruct i; discriminate.
  - rewrite IH. split.
    + intros [E|[i H]]; [injection E as <- <-; exists 0; auto|exists (S i); exact H].
    + intros [[|i] [H1 H2]]; cbn in *; [left; congruence|right; exists i; auto].
Qed.
Lemma vmin_diff_spec l m q : vmin_diff l m = Some q -> least_gain l m q.
Proof.
  unfold vmin_diff. destruct (combine l m) as [|[a b] c] eqn:E; [discriminate|]. intros [= <-]. destruct (min_diff_fold c (a - b)%Q) as [H1 [H2 H3]]. cbn [fst snd]. split.
  - assert (Hin : exists x y, In (x, y) (combine l m) /\ fold_left (fun m0 xy => qmin m0 (fst xy - snd xy)%Q) c (a - b)%Q = (x - y)%Q).
    { destruct H3 as [H3|[x [y [Hin H3]]]]; [exists a, b|exists x, y]; (split; [rewrite E|exact H3]); [left; reflexivity|right; exact Hin]. }
    destruct Hin as [x [y [Hin Eq]]]. apply in_combine_nth in Hin as [i [Hx Hy]]. exists i, x, y. rewrite Eq. split; [exact Hx|]. split; [exact Hy|reflexivity].
  - intros i x y Hx Hy. assert (Hin : In (x, y) (combine l m)) by (apply in_combine_nth; eauto). rewrite E in Hin. destruct Hin as [Eq|Hin]; [injection Eq as <- <-; exact H1|auto].
Qed.
Lemma vmin_diff_some l m : length l = length m -> l <> [] -> exists q, vmin_diff l m = Some q.
Proof. intros H Hn. unfold vmin_diff. destruct l as [|x l]; [congruence|]. destruct m as [|y m]; [discriminate|]. cbn. eauto. Qed.
Lemma distance_spec d losses : forall front, length losses = d -> 0 < d -> same_dimension d front ->
  match distance losses front with
  | None => forall p, In p front -> ~ vle (pt_losses p) losses
  | Some q => (exists p, In p front /\ vle (pt_losses p) losses /\ least_gain losses (pt_losses p) q) /\
              (forall p q', In p front -> vle (pt_losses p) losses -> least_gain losses (pt_losses p) q' -> (q <= q')%Q)
  end.
Proof.
  intros front Hl Hd. unfold distance. induction front as [|p front IH] using rev_ind; intros Hs; [cbn; tauto|]. rewrite fold_left_app. cbn [fold_left].
  assert (Hs' : same_dimension d front) by (intros x Hx; apply Hs, in_or_app; left; exact Hx). assert (Hp : length (pt_losses p) = d) by (apply Hs, in_or_app; right; left; reflexivity). specialize (IH Hs').
  set (D := fold_left _ front None) in *. destruct (vall_le (pt_losses p) losses) eqn:E.
  - apply vall_le_iff in E; [|lia]. destruct (vmin_diff_some losses (pt_losses p) ltac:(lia) ltac:(intros ->; cbn in Hl; lia)) as [g Hg]. rewrite Hg. pose proof (vmin_diff_spec _ _ _ Hg) as HG.
    assert (Huniq : forall q', least_gain losses (pt_losses p) q' -> (g <= q')%Q).
    { intros q' [[i [x [y [Hx [Hy Eq]]]]] _]. rewrite Eq. destruct HG as [_ HG]. eapply HG; eauto. }
    destruct D as [q|]; cbn [min_opt].
    + destruct IH as [[p0 [Hin [Hle Hgain]]] Hmin]. split.
      * destruct (qmin_or q g) as [-> | ->]; [exists p0|exists p]; (split; [apply in_or_app|]); [left; exact Hin|auto|right; left; reflexivity|auto].
      * intros z q' Hz Hzl Hzg. pose proof (qmin_le_l q g). pose proof (qmin_le_r q g). apply in_app_iff in Hz as [Hz|[<-|[]]]; [pose proof (Hmin z q' Hz Hzl Hzg)|pose proof (Huniq q' Hzg)]; lra.
    + split; [exists p; split; [apply in_or_app; right; left; reflexivity|auto]|]. intros z q' Hz Hzl Hzg. apply in_app_iff in Hz as [Hz|[<-|[]]]; [destruct (IH z Hz Hzl)|apply Huniq; exact Hzg].
  - assert (En : ~ vle (pt_losses p) losses) by (intros Hv; apply vall_le_iff in Hv; [congruence|lia]). destruct D as [q|].
    + destruct IH as [[p0 [Hin [Hle Hgain]]] Hmin]. split; [exists p0; split; [apply in_or_app; left; exact Hin|auto]|]. intros z q' Hz Hzl Hzg. apply in_app_iff in Hz as [Hz|[<-|[]]]; [eapply Hmin; eauto|contradiction].
    + intros z Hz. apply in_app_iff in Hz as [Hz|[<-|[]]]; [apply IH; exact Hz|exact En].
Qed.

(** The state along a history *)
Section History.
Variable b : list Q.
Hypothesis Hd : 0 < length b.
Notation uv l := (union_volume b (map pt_losses l)).
Notation raw s := (pf_pareto (hp_pf s)).
Definition filtered (f : pfront) : list point := pf_pareto (if pf_needs_filtering f then pf_filter f else f).
(** [C]: the points within the bounds so far; [some]: a point was compared with the bounds *)
Record inv (s : hpareto) (C : list point) (some : bool) : Prop := Inv {
  i_auto : hp_auto s = 0; i_bounds : hp_bounds s = Some b; i_no : hp_no s = false;
  i_within : forall p, In p C -> within b p;
  i_sub : sub C (raw s);
  i_volume : (uv (raw s) == uv C)%Q;
  i_best : if some then exists v, hp_best s = Some v /\ (v == uv C)%Q else hp_best s = None;
  i_clean : pf_needs_filtering (hp_pf s) = false -> forall p q, In p (raw s) -> In q (raw s) -> dominates q p = false }.
Lemma below_points C : (forall p, In p C -> within b p) -> below b (map pt_losses C).
Proof. intros H x Hx. apply in_map_iff in Hx as [p [<- Hp]]. apply H. exact Hp. Qed.
Lemma within_dimension (C : list point) : (forall p, In p C -> within b p) -> same_dimension (length b) C.
Proof. intros H p Hp. eapply Forall2_len. apply H. exact Hp. Qed.
Lemma raw_in s C some : inv s C some -> forall p, In p (raw s) -> In p C.
Proof. intros H. apply (drops_in _ _ _ (i_sub _ _ _ H)). Qed.
Lemma filtered_undominated f p : same_dimension (length b) (pf_pareto f) -> (pf_needs_filtering f = false -> forall p q, In p (pf_pareto f) -> In q (pf_pareto f) -> dominates q p = false) ->
  In p (filtered f) <-> In p (pf_pareto f) /\ undominated (pf_pareto f) p.
Proof.
  intros Hs Hc. unfold filtered. destruct (pf_needs_filtering f) eqn:E.
  - cbn [pf_filter pf_pareto]. rewrite filter_In, negb_true_iff. split; intros [Hp H]; (split; [exact Hp|]).
    + intros q Hq Hdom. assert (Hex : existsb (fun other => dominates other p) (pf_pareto f) = true); [|congruence]. apply existsb_exists. exists q. split; [exact Hq|]. apply dominates_iff; [rewrite (Hs q Hq), (Hs p Hp); reflexivity|exact Hdom].
    + destruct (existsb _ _) eqn:Ex; [|reflexivity]. apply existsb_exists in Ex as [q [Hq Hdom]]. apply dominates_iff in Hdom; [|rewrite (Hs q Hq), (Hs p Hp); reflexivity]. destruct (H q Hq Hdom).
  - split; [|tauto]. intros Hp. split; [exact Hp|]. intros q Hq Hdom. apply dominates_iff in Hdom; [|rewrite (Hs q Hq), (Hs p Hp); reflexivity]. rewrite (Hc eq_refl p q Hp Hq) in Hdom. discriminate.
Qed.
Lemma filtered_sub f : sub (pf_pareto f) (filtered f).
Proof. unfold filtered. destruct (pf_needs_filtering f); [apply sub_filter|apply sub_refl]. Qed.
Lemma filtered_cover s C some : inv s C some -> forall x, In x (raw s) -> exists y, In y (filtered (hp_pf s)) /\ vle (pt_losses y) (pt_losses x).
Proof.
  intros H x Hx. assert (Hs : same_dimension (length b) (raw s)) by (apply within_dimension; intros p Hp; apply (i_within _ _ _ H); eapply raw_in; eauto).
  destruct (nondominated_below _ _ Hs x Hx) as [y [Hy [Hu [Hle _]]]]. exists y. split; [|exact Hle]. apply filtered_undominated; [exact Hs|exact (i_clean _ _ _ H)|auto].
Qed.
Lemma filtered_volume s C some : inv s C some -> (uv (filtered (hp_pf s)) == uv C)%Q.
Proof.
  intros H. rewrite <- (i_volume _ _ _ H). apply union_cover.
  - apply below_points. intros p Hp. apply (i_within _ _ _ H). eapply raw_in; eauto.
  - intros x Hx. apply in_map_iff in Hx as [p [<- Hp]]. apply in_map. apply (drops_in _ _ _ (filtered_sub (hp_pf s))). exact Hp.
  - intros x Hx. apply in_map_iff in Hx as [p [<- Hp]]. destruct (filtered_cover s C some H p Hp) as [y [Hy Hle]]. exists (pt_losses y). split; [apply in_map; exact Hy|exact Hle].
Qed.
Lemma filtered_idem f : filtered (if pf_needs_filtering f then pf_filter f else f) = filtered f.
Proof. unfold filtered. destruct (pf_needs_filtering f) eqn:E; [reflexivity|rewrite E; reflexivity]. Qed.
(** reading the front *)
Lemma inv_filter s C some : inv s C some -> inv (hp_with_pf (if pf_needs_filtering (hp_pf s) then pf_filter (hp_pf s) else hp_pf s) s) C some.
Proof.
  intros H. pose proof (filtered_volume s C some H) as HV. destruct H as [A1 A2 A3 A4 A5 A6 A7 A8]. unfold hp_with_pf. constructor; cbn [hp_auto hp_bounds hp_best hp_pf hp_no]; auto.
  - eapply sub_trans; [exact A5|]. apply filtered_sub.
  - fold (filtered (hp_pf s)). intros _ p q Hp Hq. assert (Hs : same_dimension (length b) (raw s)) by (apply within_dimension; intros z Hz; apply A4; apply (drops_in _ _ _ A5); exact Hz).
    apply (filtered_undominated _ _ Hs A8) in Hp as [Hp Hu], Hq as [Hq _]. destruct (dominates q p) eqn:E; [|reflexivity]. apply dominates_iff in E; [|rewrite (Hs q Hq), (Hs p Hp); reflexivity]. destruct (Hu q Hq E).
Qed.
(** adding a point within the bounds *)
Definition outcome (s : hpareto) (C : list point) (some : bool) (p : point) (s' : hpareto) (r : result loss_t) : Prop :=
  (((uv C < uv (C ++ [p]))%Q \/ some = false) /\ (exists v, r = Ok (Fin (- v)%Q) /\ (v == uv (C ++ [p]))%Q) /\ raw s' = raw s ++ [p]) \/
  ((uv C == uv (C ++ [p]))%Q /\ some = true /\ raw s' = filtered (hp_pf s) /\
   ((r = Ok Infinity /\ forall q, In q (filtered (hp_pf s)) -> ~ vle (pt_losses q) (pt_losses p)) \/
    exists l g q, r = Ok (Fin l) /\ (l == - uv (C ++ [p]) + g)%Q /\ (0 <= g)%Q /\ In q (filtered (hp_pf s)) /\ vle (pt_losses q) (pt_losses p) /\ least_gain (pt_losses p) (pt_losses q) g /\
      forall q' g', In q' (filtered (hp_pf s)) -> vle (pt_losses q') (pt_losses p) -> least_gain (pt_losses p) (pt_losses q') g' -> (g <= g')%Q)).
Lemma add_within s C some p : inv s C some -> within b p -> (3 < length b -> no_tie b (map pt_losses (C ++ [p]))) ->
  inv (fst (hp_add p s)) (C ++ [p]) true /\ outcome s C some p (fst (hp_add p s)) (snd (hp_add p s)).
Proof.
  intros H Hp Ht. pose proof (raw_in s C some H) as Hin. pose proof (filtered_volume s C some H) as HfV. pose proof (filtered_idem (hp_pf s)) as Hidem. pose proof (inv_filter s C some H) as HIF. destruct H as [A1 A2 A3 A4 A5 A6 A7 A8].
  assert (Hw : forall q, In q (C ++ [p]) -> within b q) by (intros q Hq; apply in_app_iff in Hq as [Hq|[<-|[]]]; auto).
  assert (HrawW : forall q, In q (raw s ++ [p]) -> within b q) by (intros q Hq; apply in_app_iff in Hq as [Hq|[<-|[]]]; auto).
  unfold hp_add. rewrite A1, A2. assert (Eo : over (pt_losses p) b = false) by (apply over_iff; [eapply Forall2_len; exact Hp|exact Hp]). rewrite Eo, A3. unfold calc_hypervolume.
  replace (map pt_losses (raw s) ++ [pt_losses p]) with (map pt_losses (raw s ++ [p])) by (rewrite map_app; reflexivity).
  destruct (compute_union b (map pt_losses (raw s ++ [p])) (below_points _ HrawW) Hd) as [v [Ev Hv]].
  { left. rewrite map_app. destruct (map pt_losses (raw s)); discriminate. }
  { intros H3. eapply no_tie_sub; [|apply Ht; exact H3]. apply drops_snoc. exact A5. }
  rewrite Ev. assert (HU : (uv (raw s ++ [p]) == uv (C ++ [p]))%Q).
  { rewrite !map_app. cbn [map]. apply union_more; [|intros x Hx; apply in_map_iff in Hx as [q [<- Hq]]; apply in_map; auto|exact A6]. pose proof (below_points _ Hw) as Hb'. rewrite map_app in Hb'. exact Hb'. }
  rewrite HU in Hv. assert (Hmono : (uv C <= uv (C ++ [p]))%Q) by (apply union_mono; [apply below_points; exact Hw|rewrite map_app; apply incl_appl, incl_refl]).
  destruct (best_below (hp_best s) v) eqn:Eb.
  - unfold hp_with_pf, hp_with_best, pf_add. cbn [fst snd hp_auto hp_bounds hp_best hp_pf hp_no pf_pareto pf_needs_filtering]. split.
    + constructor; cbn [hp_auto hp_bounds hp_best hp_pf hp_no pf_pareto pf_needs_filtering]; auto; [apply drops_snoc; exact A5|exists v; auto|discriminate].
    + left. split; [|split; [exists v; auto|reflexivity]]. destruct some; [|right; reflexivity]. left. destruct A7 as [w [Ew Hw']]. rewrite Ew in Eb. apply qlt_iff in Eb. lra.
  - destruct some; [|rewrite A7 in Eb; discriminate]. destruct A7 as [w [Ew Hw']]. rewrite Ew in Eb.
    assert (Hle : (v <= w)%Q) by (destruct (Qlt_le_dec w v) as [Hl|Hl]; [apply qlt_iff in Hl; cbn in Eb; congruence|exact Hl]).
    assert (HC : (uv C == uv (C ++ [p]))%Q) by lra.
    unfold pf_get_front. fold (filtered (hp_pf s)). set (f := if pf_needs_filtering (hp_pf s) then pf_filter (hp_pf s) else hp_pf s) in *.
    assert (Hinv : inv (hp_with_pf f s) (C ++ [p]) true).
    { destruct HIF as [B1 B2 B3 B4 B5 B6 B7 B8]. constructor; auto.
      - apply sub_snoc_drop. exact B5.
      - lra.
      - exists w. split; [exact Ew|lra]. }
    assert (Hfs : same_dimension (length b) (pf_pareto f)) by (apply within_dimension; intros q Hq; apply A4, Hin; apply (drops_in _ _ _ (filtered_sub (hp_pf s))); exact Hq).
    pose proof (distance_spec (length b) (pt_losses p) (pf_pareto f) (Forall2_len _ _ _ Hp) Hd Hfs) as HD.
    change (pf_pareto f) with (filtered (hp_pf s)) in *.
    destruct (distance (pt_losses p) (filtered (hp_pf s))) as [g|] eqn:Edist.
    + destruct HD as [[q [Hq [Hql Hqg]]] Hmin].
      assert (Hg : (0 <= g)%Q). { destruct Hqg as [[i [x [y [Hx [Hy Eq]]]]] _]. rewrite Eq. pose proof (vle_nth _ _ i y x Hql Hy Hx). lra. }
      apply qle_iff in Hg as Hg'. rewrite Hg'. cbn [fst snd]. split; [exact Hinv|]. right. split; [exact HC|]. split; [reflexivity|]. split; [reflexivity|]. right. cbn [hp_with_pf hp_no]. rewrite A3. exists (- v + g)%Q, g, q. repeat (split; [first [reflexivity|assumption|lra]|]). exact Hmin.
    + cbn [fst snd]. split; [exact Hinv|]. right. split; [exact HC|]. split; [reflexivity|]. split; [reflexivity|]. left. cbn [hp_with_pf hp_no]. rewrite A3. split; [reflexivity|exact HD].
Qed.
(** adding a point beyond the bounds *)
Lemma add_beyond_result s p : hp_auto s = 0 -> hp_bounds s = Some b -> length (pt_losses p) = length b -> ~ within b p -> exists l, snd (hp_add p s) = Ok (Fin l) /\ (l == excess (pt_losses p) b)%Q /\ (0 < l)%Q.
Proof.
  intros A1 A2 Hl Hn. unfold hp_add. rewrite A1, A2. destruct (over (pt_losses p) b) eqn:Eo; [|apply over_iff in Eo; [contradiction|exact Hl]]. cbn [snd]. eexists. split; [reflexivity|].
  pose proof (vexcess_is (pt_losses p) b). pose proof (excess_pos _ _ Hl Hn). split; lra.
Qed.
Lemma add_beyond s C p : inv s C true -> length (pt_losses p) = length b -> ~ within b p -> fst (hp_add p s) = s.
Proof.
  intros [A1 A2 A3 A4 A5 A6 A7 A8] Hl Hn. unfold hp_add. rewrite A1, A2. destruct (over (pt_losses p) b) eqn:Eo; [|apply over_iff in Eo; [contradiction|exact Hl]]. cbn [fst].
  destruct A7 as [w [Ew Hw]]. assert (H0 : (0 <= w)%Q) by (rewrite Hw; apply union_nonneg, below_points; exact A4).
  pose proof (vexcess_is (pt_losses p) b). pose proof (excess_pos _ _ Hl Hn).
  assert (E1 : best_below (hp_best s) (- vexcess (pt_losses p) b)%Q = false). { rewrite Ew. cbn. destruct (qlt w (- vexcess (pt_losses p) b)) eqn:E; [apply qlt_iff in E; lra|reflexivity]. }
  rewrite E1. assert (E2 : best_below (hp_best s) 0%Q = false). { rewrite Ew. cbn. destruct (qlt w 0) eqn:E; [apply qlt_iff in E; lra|reflexivity]. } rewrite E2. reflexivity.
Qed.
Lemma front_state size subset draws s : fst (hp_front size subset draws s) = hp_with_pf (if pf_needs_filtering (hp_pf s) then pf_filter (hp_pf s) else hp_pf s) s.
Proof. unfold hp_front. pose proof (get_front_state size subset draws (hp_pf s)) as H. destruct (pf_get_front size subset draws (hp_pf s)) as [f r]. cbn in *. rewrite H. reflexivity. Qed.
(** Histories: [base] is the front at the start *)
Definition starts_within (l : list point) : Prop := match l with [] => True | p :: _ => within b p end.
Lemma counted_app l m : forall c, counted b (l ++ m) c -> exists c1 c2, c = c1 ++ c2 /\ counted b l c1 /\ counted b m c2.
Proof.
  induction l as [|p l IH]; intros c H; [exists [], c; split; [reflexivity|]; split; [constructor|exact H]|]. cbn in H. inversion H as [|? ? c' Hp H'|? ? ? Hp H']; subst; destruct (IH _ H') as [c1 [c2 [-> [H1 H2]]]].
  - exists (p :: c1), c2. split; [reflexivity|]. split; [constructor; assumption|exact H2].
  - exists c1, c2. split; [reflexivity|]. split; [constructor; assumption|exact H2].
Qed.
Lemma counted_within l c : counted b l c -> forall p, In p c -> within b p.
Proof. intros H. induction H; intros q Hq; [destruct Hq| |auto]. destruct Hq as [<-|Hq]; auto. Qed.
Lemma hp_run_snoc ops o s : hp_run (ops ++ [o]) s = hp_step (hp_run ops s) o.
Proof. unfold hp_run. rewrite fold_left_app. reflexivity. Qed.
Lemma hp_added_snoc ops o : added (ops ++ [o]) = added ops ++ match o with HAdd p => [p] | HFront _ _ _ => [] end.
Proof. unfold added. rewrite flat_map_app. cbn. rewrite app_nil_r. reflexivity. Qed.
Definition somewhat (l : list point) : bool := match l with [] => false | _ => true end.
Lemma settled_inv s : settled b s -> inv s (raw s) false.
Proof. intros [A1 A2 A3 A4 A5 A6]. constructor; auto; [apply sub_refl|reflexivity]. Qed.
Lemma history s : settled b s -> forall ops c, same_dimension (length b) (added ops) -> starts_within (added ops) -> counted b (added ops) c ->
  (3 < length b -> no_tie b (map pt_losses (raw s ++ c))) -> inv (hp_run ops s) (raw s ++ c) (somewhat (added ops)).
Proof.
  intros Hs. induction ops as [|o ops IH] using rev_ind; intros c Hl Hw Hc Ht.
  - inversion Hc; subst. rewrite app_nil_r. apply settled_inv. exact Hs.
  - rewrite hp_run_snoc. rewrite hp_added_snoc in *. destruct (counted_app _ _ _ Hc) as [c1 [c2 [-> [H1 H2]]]].
    assert (Hl' : same_dimension (length b) (added ops)) by (intros p Hp; apply Hl, in_or_app; left; exact Hp).
    assert (Hw' : starts_within (added ops)) by (destruct (added ops); [exact I|exact Hw]).
    assert (Ht' : 3 < length b -> no_tie b (map pt_losses (raw s ++ c1))).
    { intros H3. eapply no_tie_sub; [|apply Ht; exact H3]. clear. induction (raw s) as [|x l IH]; cbn; [|constructor; exact IH]. induction c1 as [|x l IH]; cbn; [|constructor; exact IH]. induction c2; constructor; auto. }
    specialize (IH c1 Hl' Hw' H1 Ht'). destruct o as [p|size subset draws]; cbn [hp_step].
    + assert (Hp : length (pt_losses p) = length b) by (apply Hl, in_or_app; right; left; reflexivity).
      replace (somewhat (added ops ++ [p])) with true by (destruct (added ops); reflexivity).
      inversion H2 as [|? ? c3 Hin H3|? ? ? Hout H3]; subst; inversion H3; subst.
      * rewrite app_assoc. rewrite app_assoc in Ht. apply (add_within _ _ _ p IH Hin Ht).
      * rewrite app_nil_r. destruct (added ops) as [|q l] eqn:Ea; [cbn in Hw; contradiction|]. cbn [somewhat] in IH. rewrite (add_beyond _ _ p IH Hp Hout). exact IH.
    + inversion H2; subst. rewrite !app_nil_r. rewrite front_state. apply inv_filter. exact IH.
Qed.
Lemma front_read s C some subset draws : inv s C some -> snd (hp_front None subset draws s) = Ok (filtered (hp_pf s)).
Proof. intros _. reflexivity. Qed.
End History.
(** Any history: the best volume never decreases *)
Definition best_le (a b : option Q) : Prop := match a, b with None, _ => True | Some _, None => False | Some x, Some y => (x <= y)%Q end.
Lemma best_le_refl a : best_le a a.
Proof. destruct a; cbn; [lra|exact I]. Qed.
Lemma best_le_trans a b c : best_le a b -> best_le b c -> best_le a c.
Proof. destruct a, b, c; cbn; try tauto; lra. Qed.
Lemma best_below_le best q : best_below best q = true -> best_le best (Some q).
Proof. destruct best as [x|]; cbn; [intros H; apply qlt_iff in H; lra|auto]. Qed.
Lemma add_best p s : best_le (hp_best s) (hp_best (fst (hp_add p s))).
Proof.
  unfold hp_add. destruct (hp_auto s).
  - destruct (hp_bounds s) as [b|].
    + destruct (over (pt_losses p) b).
      * cbn [fst]. destruct (best_below (hp_best s) (- vexcess (pt_losses p) b)) eqn:E.
        -- apply best_below_le in E. unfold hp_with_best at 1. cbn [hp_best]. match goal with |- context [if ?c then _ else _] => destruct c end; exact E.
        -- match goal with |- context [if ?c then _ else _] => destruct c end; apply best_le_refl.
      * destruct (hp_no s); [apply best_le_refl|]. unfold calc_hypervolume. destruct (compute _ _) as [v|e]; [|apply best_le_refl]. destruct (best_below (hp_best s) v) eqn:E; [apply best_below_le in E; exact E|].
        destruct (pf_get_front None SRandom [] (hp_pf s)) as [f [front|e]]; [|apply best_le_refl]. destruct (distance _ _) as [g|]; [destruct (qle 0 g)|]; apply best_le_refl.
    + destruct (pt_losses p); [apply best_le_refl|]. destruct (best_below (hp_best s) 0); apply best_le_refl.
  - cbn [hp_bounds]. destruct (hp_bounds s) as [b|]; [destruct (vall_lt b (pt_losses p))|]; apply best_le_refl.
Qed.
Lemma run_best ops s : best_le (hp_best s) (hp_best (hp_run ops s)).
Proof.
  revert s. induction ops as [|o ops IH]; intros s; [apply best_le_refl|]. cbn. eapply best_le_trans; [|apply IH]. destruct o as [p|size subset draws]; cbn [hp_step]; [apply add_best|]. rewrite front_state. apply best_le_refl.
Qed.
(** The automatic bounds *)
Lemma vall_lt_iff : forall l b, length l = length b -> (vall_lt l b = true <-> Forall2 Qlt l b).
Proof.
  unfold vall_lt. induction l as [|x l IH]; intros [|y b] H; try discriminate; cbn; [split; constructor|]. cbn in H. rewrite andb_true_iff, qlt_iff, (IH b) by lia. split.
  - intros [H1 H2]. constructor; assumption.
  - intros H1. inversion H1; subst. auto.
Qed.
Lemma Forall2_nth_iff {R : Q -> Q -> Prop} : forall l b, length l = length b -> (Forall2 R l b <-> forall i, i < length l -> R (nth i l 0%Q) (nth i b 0%Q)).
Proof.
  induction l as [|x l IH]; intros [|y b] H; try discriminate; cbn; [split; [intros _ i Hi; lia|constructor]|]. cbn in H. split.
  - intros HF [|i] Hi; inversion HF; subst; [assumption|]. apply (IH b); [lia|assumption|lia].
  - intros HF. constructor; [apply (HF 0); lia|]. apply (IH b); [lia|]. intros i Hi. apply (HF (S i)). lia.
Qed.
Lemma vmax_length a b : length a = length b -> length (vmax a b) = length b.
Proof. intros H. unfold vmax. rewrite map_length, combine_length. lia. Qed.
Lemma vmax_nth : forall a b i, length a = length b -> i < length b -> nth i (vmax a b) 0%Q = qmax (nth i a 0%Q) (nth i b 0%Q).
Proof. unfold vmax. induction a as [|x a IH]; intros [|y b] i H Hi; try discriminate; cbn in *; [lia|]. destruct i; [reflexivity|]. apply IH; lia. Qed.
Lemma qmax_or a b : qmax a b = a \/ qmax a b = b.
Proof. unfold qmax. destruct (qlt a b); tauto. Qed.
Lemma maximum_worse d l b p : maximum d l b -> l <> [] -> length (pt_losses p) = d -> (Forall2 Qlt b (pt_losses p) <-> uniformly_worse l p).
Proof.
  intros [Hl [Hle Hat]] Hne Hp. unfold uniformly_worse. rewrite (Forall2_nth_iff b) by lia. split.
  - intros H. split; [exact Hne|]. intros q Hq. pose proof (Forall2_len _ _ _ (Hle q Hq)). apply Forall2_nth_iff; [lia|]. intros i Hi. pose proof (Forall2_nth_le _ _ i (Hle q Hq)). pose proof (H i ltac:(lia)). lra.
  - intros [_ H] i Hi. destruct (Hat i ltac:(lia)) as [q [Hq E]]. specialize (H q Hq). pose proof (Forall2_len _ _ _ H). apply (Forall2_nth_iff (pt_losses q)) with (i := i) in H; [|lia|lia]. lra.
Qed.
Lemma maximum_one d p : length (pt_losses p) = d -> maximum d [p] (pt_losses p).
Proof. intros H. split; [exact H|]. split; [intros q [<-|[]]; apply vle_refl|]. intros i Hi. exists p. split; [left; reflexivity|reflexivity]. Qed.
Lemma maximum_more d l b p : maximum d l b -> length (pt_losses p) = d -> maximum d (l ++ [p]) (vmax b (pt_losses p)).
Proof.
  intros [Hl [Hle Hat]] Hp. split; [rewrite vmax_length; lia|]. split.
  - intros q Hq. assert (Hql : length (pt_losses q) = d) by (apply in_app_iff in Hq as [Hq|[<-|[]]]; [rewrite (Forall2_len _ _ _ (Hle q Hq)); exact Hl|exact Hp]).
    apply Forall2_nth_iff; [rewrite vmax_length; lia|]. intros i Hi. rewrite vmax_nth by lia. pose proof (qmax_ge_l (nth i b 0%Q) (nth i (pt_losses p) 0%Q)). pose proof (qmax_ge_r (nth i b 0%Q) (nth i (pt_losses p) 0%Q)).
    apply in_app_iff in Hq as [Hq|[<-|[]]]; [pose proof (Forall2_nth_le _ _ i (Hle q Hq)); lra|assumption].
  - intros i Hi. rewrite vmax_nth by lia. destruct (qmax_or (nth i b 0%Q) (nth i (pt_losses p) 0%Q)) as [-> | ->].
    + destruct (Hat i Hi) as [q [Hq E]]. exists q. split; [apply in_or_app; left; exact Hq|exact E].
    + exists p. split; [apply in_or_app; right; left; reflexivity|reflexivity].
Qed.
Lemma retained_snoc l p c : retained (l ++ [p]) c -> exists a, retained l a /\ ((uniformly_worse a p /\ c = a) \/ (~ uniformly_worse a p /\ c = a ++ [p])).
Proof.
  intros H. remember (l ++ [p]) as m eqn:E. destruct H as [|l' a p' H1 H2|l' a p' H1 H2]; [destruct l; discriminate| |]; apply app_inj_tail in E as [-> ->]; exists a; auto.
Qed.
Lemma retained_in l a : retained l a -> forall p, In p a -> In p l.
Proof.
  intros H. induction H as [|l a p H IH Hw|l a p H IH Hw]; intros q Hq; [exact Hq|apply in_or_app; left; auto|]. apply in_app_iff in Hq as [Hq|Hq]; apply in_or_app; auto.
Qed.
Record auto_inv (d n : nat) (s : hpareto) (a : list point) : Prop := AutoInv {
  a_left : hp_auto s = n; a_best : hp_best s = None;
  a_bounds : match a with [] => hp_bounds s = None | _ => exists b, hp_bounds s = Some b /\ maximum d a b end;
  a_in : forall p, In p (pf_pareto (hp_pf s)) -> In p a;
  a_clean : pf_needs_filtering (hp_pf s) = false -> forall p q, In p (pf_pareto (hp_pf s)) -> In q (pf_pareto (hp_pf s)) -> dominates q p = false }.
Lemma auto_add d n s a p : auto_inv d (S n) s a -> length (pt_losses p) = d ->
  (uniformly_worse a p -> auto_inv d n (fst (hp_add p s)) a /\ snd (hp_add p s) = Ok Infinity) /\
  (~ uniformly_worse a p -> auto_inv d n (fst (hp_add p s)) (a ++ [p]) /\ snd (hp_add p s) = Ok (Fin 0%Q)).
Proof.
  intros [A1 A2 A3 A4 A5] Hp. unfold hp_add. rewrite A1. cbn [hp_bounds]. destruct a as [|q0 a0] eqn:Ea.
  - rewrite A3. split; [intros [H _]; congruence|]. intros _. cbn [fst snd]. split; [|reflexivity]. constructor; cbn [hp_auto hp_bounds hp_best hp_pf hp_no pf_pareto pf_add pf_needs_filtering]; auto.
    + exists (pt_losses p). split; [reflexivity|]. apply maximum_one. exact Hp.
    + intros q Hq. apply in_app_iff in Hq as [Hq|Hq]; [destruct (A4 q Hq)|exact Hq].
    + discriminate.
  - rewrite <- Ea in *. destruct A3 as [b [Eb Hm]]. rewrite Eb. pose proof (maximum_worse d a b p Hm ltac:(rewrite Ea; discriminate) Hp) as Hw. rewrite <- vall_lt_iff in Hw by (destruct Hm as [-> _]; symmetry; exact Hp).
    destruct (vall_lt b (pt_losses p)) eqn:E; cbn [fst snd].
    + split; [intros _|intros H; exfalso; apply H, Hw; reflexivity]. split; [|reflexivity]. constructor; cbn [hp_auto hp_bounds hp_best hp_pf hp_no]; auto. rewrite Ea. rewrite <- Ea. exists b. auto.
    + split; [intros H; apply Hw in H; congruence|]. intros _. split; [|reflexivity]. constructor; cbn [hp_auto hp_bounds hp_best hp_pf hp_no pf_pareto pf_add pf_needs_filtering]; auto.
      * rewrite Ea. cbn [app]. change (q0 :: a0 ++ [p]) with ((q0 :: a0) ++ [p]). rewrite <- Ea. exists (vmax b (pt_losses p)). split; [reflexivity|]. apply maximum_more; assumption.
      * intros q Hq. apply in_app_iff in Hq as [Hq|Hq]; apply in_or_app; auto.
      * discriminate.
Qed.
Lemma auto_front d n s a size subset draws : same_dimension d a -> auto_inv d n s a -> auto_inv d n (fst (hp_front size subset draws s)) a.
Proof.
  intros Hs [A1 A2 A3 A4 A5]. rewrite front_state. assert (Hsr : same_dimension d (pf_pareto (hp_pf s))) by (intros p Hp; apply Hs, A4; exact Hp).
  constructor; cbn [hp_with_pf hp_auto hp_bounds hp_best hp_pf hp_no]; auto.
  - intros p Hp. apply A4. destruct (pf_needs_filtering (hp_pf s)); [|exact Hp]. cbn in Hp. apply filter_In in Hp. tauto.
  - destruct (pf_needs_filtering (hp_pf s)) eqn:E; [|rewrite E; exact A5]. cbn [pf_filter pf_pareto pf_needs_filtering]. intros _ p q Hp Hq. apply filter_In in Hp as [Hp Hn], Hq as [Hq _].
    destruct (dominates q p) eqn:Ed; [|reflexivity]. exfalso. rewrite negb_true_iff in Hn. assert (Hex : existsb (fun other => dominates other p) (pf_pareto (hp_pf s)) = true) by (apply existsb_exists; exists q; auto). congruence.
Qed.
Lemma auto_history d n ops a no : same_dimension d (added ops) -> length (added ops) <= n -> retained (added ops) a -> auto_inv d (n - length (added ops)) (hp_run ops (hp_init None n no)) a /\ hp_no (hp_run ops (hp_init None n no)) = no.
Proof.
  revert a. induction ops as [|o ops IH] using rev_ind; intros a Hs Hn Hr.
  - assert (Ea : a = []) by (inversion Hr as [|l ? p H1 H2 E|l ? p H1 H2 E]; [reflexivity| |]; destruct l; discriminate). subst a. cbn. split; [|reflexivity]. constructor; cbn; auto; try lia; intros p [].
  - rewrite hp_run_snoc. rewrite hp_added_snoc in *. assert (Hs' : same_dimension d (added ops)) by (intros p Hp; apply Hs, in_or_app; left; exact Hp). destruct o as [p|size subset draws]; cbn [hp_step].
    + rewrite app_length in *. cbn [length] in *. destruct (retained_snoc _ _ _ Hr) as [a0 [Hr0 Hc]]. destruct (IH a0 Hs' ltac:(lia) Hr0) as [HI Hno].
      assert (Hp : length (pt_losses p) = d) by (apply Hs, in_or_app; right; left; reflexivity). replace (n - length (added ops)) with (S (n - (length (added ops) + 1))) in HI by lia. destruct (auto_add d _ _ a0 p HI Hp) as [Ha Hb].
      split; [destruct Hc as [[Hc ->]|[Hc ->]]; [apply Ha|apply Hb]; exact Hc|]. rewrite <- Hno at 2. unfold hp_add. rewrite (a_left _ _ _ _ HI). cbn [hp_bounds]. destruct (hp_bounds (hp_run ops (hp_init None n no))) as [b|]; [destruct (vall_lt b (pt_losses p))|]; reflexivity.
    + rewrite app_nil_r in *. destruct (IH a Hs' Hn Hr) as [HI Hno]. split; [apply auto_front; [|exact HI]; intros p Hp; apply Hs', (retained_in _ _ Hr); exact Hp|]. rewrite front_state. exact Hno.
Qed.
Lemma worse_dec a p : same_dimension (length (pt_losses p)) a -> uniformly_worse a p \/ ~ uniformly_worse a p.
Proof.
  intros Hs. destruct (Nat.eq_dec (length a) 0) as [E|E]; [right; intros [H _]; apply H; destruct a; [reflexivity|discriminate]|].
  destruct (forallb (fun q => vall_lt (pt_losses q) (pt_losses p)) a) eqn:Ef.
  - left. split; [intros ->; apply E; reflexivity|]. intros q Hq. rewrite forallb_forall in Ef. apply vall_lt_iff; [apply Hs; exact Hq|apply Ef; exact Hq].
  - right. intros [_ H]. assert (Ht : forallb (fun q => vall_lt (pt_losses q) (pt_losses p)) a = true); [|congruence]. apply forallb_forall. intros q Hq. apply vall_lt_iff; [apply Hs; exact Hq|apply H; exact Hq].
Qed.
Lemma retained_exists d l : same_dimension d l -> exists a, retained l a.
Proof.
  induction l as [|p l IH] using rev_ind; intros Hs; [exists []; constructor|]. assert (Hs' : same_dimension d l) by (intros q Hq; apply Hs, in_or_app; left; exact Hq). destruct (IH Hs') as [a Ha].
  destruct (worse_dec a p) as [H|H]; [|exists a; constructor; assumption|exists (a ++ [p]); constructor; assumption]. intros q Hq. rewrite (Hs' q (retained_in _ _ Ha q Hq)). symmetry. apply Hs, in_or_app. right. left. reflexivity.
Qed.
Lemma retained_nonempty l a : retained l a -> l <> [] -> a <> [].
Proof.
  intros H. induction H as [|l a p H IH Hw|l a p H IH Hw]; intros Hn; [congruence|destruct Hw; assumption|destruct a; discriminate].
Qed.
(** Without hypervolume *)
Definition pf_op_of (o : hp_op) : pf_op := match o with HAdd p => PAdd p | HFront size subset draws => PFront size subset draws end.
Lemma no_hv_history b ops : (b = None \/ exists l, b = Some l /\ same_dimension (length l) (added ops)) -> (forall p, In p (added ops) -> pt_losses p <> []) ->
  let s := hp_run ops (hp_init b 0 true) in hp_auto s = 0 /\ hp_bounds s = b /\ hp_no s = true /\ hp_pf s = pf_run (map pf_op_of ops) /\ match hp_best s with None => True | Some v => (v < 0)%Q end.
Proof.
  induction ops as [|o ops IH] using rev_ind; intros Hb Hn.
  - cbn. destruct b; repeat split; exact I.
  - cbv zeta. rewrite hp_run_snoc, map_app, hp_added_snoc in *. cbn [map]. rewrite run_snoc. destruct IH as [A1 [A2 [A3 [A4 A5]]]].
    { destruct Hb as [Hb|[l [Hb Hs]]]; [left; exact Hb|right; exists l; split; [exact Hb|]; intros p Hp; apply Hs, in_or_app; left; exact Hp]. }
    { intros p Hp. apply Hn, in_or_app. left. exact Hp. }
    set (s := hp_run ops (hp_init b 0 true)) in *. destruct o as [p|size subset draws]; cbn [hp_step pf_op_of pf_step].
    + assert (E0 : best_below (hp_best s) 0 = true) by (destruct (hp_best s) as [v|]; [apply qlt_iff; exact A5|reflexivity]). unfold hp_add. rewrite A1, A2. destruct b as [l|].
      * destruct Hb as [Hb|[l' [Hb Hs]]]; [discriminate|]. injection Hb as <-. assert (Hp : length (pt_losses p) = length l) by (apply Hs, in_or_app; right; left; reflexivity).
        destruct (over (pt_losses p) l) eqn:Eo.
        -- assert (Hx : (- vexcess (pt_losses p) l < 0)%Q). { pose proof (vexcess_is (pt_losses p) l). pose proof (excess_pos (pt_losses p) l Hp ltac:(intros HF; apply over_iff in HF; [congruence|exact Hp])). lra. }
           apply qlt_iff in Hx as Hx'. destruct (best_below (hp_best s) (- vexcess (pt_losses p) l)); cbn [hp_with_best hp_best best_below]; rewrite ?Hx', ?E0; cbn [fst hp_with_pf hp_with_best hp_auto hp_bounds hp_best hp_pf hp_no]; rewrite A4; auto.
        -- rewrite A3. cbn [fst hp_with_pf hp_with_best hp_auto hp_bounds hp_best hp_pf hp_no]. rewrite A4. auto.
      * destruct (pt_losses p) as [|x l] eqn:El; [exfalso; apply (Hn p); [apply in_or_app; right; left; reflexivity|exact El]|]. rewrite E0. cbn [fst hp_with_pf hp_auto hp_bounds hp_best hp_pf hp_no]. rewrite A4. auto.
    + rewrite front_state, get_front_state, <- A4. cbn [hp_with_pf hp_auto hp_bounds hp_best hp_pf hp_no]. auto.
Qed.
Lemma added_pf ops : pf_added (map pf_op_of ops) = added ops.
Proof. unfold pf_added, added. induction ops as [|o ops IH]; [reflexivity|]. cbn. rewrite IH. destruct o; reflexivity. Qed.

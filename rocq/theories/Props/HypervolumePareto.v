(** C26: the single loss computed from several losses. *)
From Coq Require Import QArith Bool List Arith Lia Lqa Qminmax.
From Verif.Model Require Import Prelude MultiValue Pareto Hypervolume HypervolumePareto.
From Verif.Spec Require Import Hypervolume Pareto HypervolumePareto.
From Verif.Proofs Require Import Prelude MultiValue Pareto HyperMeasure Hypervolume HyperUnion HypervolumePareto.
Import ListNotations.
Open Scope nat_scope.

(** The volume dominated by points, up to the bounds. *)
Definition volume (bounds : list Q) (l : list point) : Q := union_volume bounds (map pt_losses l).
(** A history of additions and of front requests, from a state where the bounds are known. [points]: the points of the front at the start, then the points
    added within the bounds. The first point added is within the bounds (see [C26_beyond_first_refuted]). With four objectives or more, no tie (see C25). *)
Record scenario (bounds : list Q) (start : hpareto) (ops : list hp_op) (points : list point) : Prop := Scenario {
  sc_objectives : 0 < length bounds; sc_settled : settled bounds start; sc_lengths : same_dimension (length bounds) (added ops);
  sc_first : match added ops with [] => True | p :: _ => within bounds p end;
  sc_points : exists c, counted bounds (added ops) c /\ points = pf_pareto (hp_pf start) ++ c;
  sc_ties : 3 < length bounds -> no_tie bounds (map pt_losses points) }.
Lemma scenario_inv bounds start ops points : scenario bounds start ops points -> inv bounds (hp_run ops start) points (somewhat (added ops)).
Proof. intros [A1 A2 A3 A4 [c [Hc ->]] A6]. apply history; auto. Qed.

(** Such states: given bounds... *)
Theorem C26_given_bounds : forall bounds auto, settled bounds (hp_init (Some bounds) auto false).
Proof. intros b auto. constructor; cbn; auto; [intros p []|intros _ p q []]. Qed.
Print Assumptions C26_given_bounds.
(** ... or bounds found from the first points: the bounds are the largest losses of the points retained, the others being uniformly worse than those retained before. *)
Theorem C26_automatic_bounds : forall d n ops, 0 < n -> same_dimension d (added ops) -> length (added ops) = n ->
  exists bounds retained_points, retained (added ops) retained_points /\ maximum d retained_points bounds /\ settled bounds (hp_run ops (hp_init None n false)) /\
    forall p, In p (pf_pareto (hp_pf (hp_run ops (hp_init None n false)))) -> In p retained_points.
Proof.
  intros d n ops Hn Hs Hl. destruct (retained_exists d (added ops) Hs) as [a Ha]. destruct (auto_history d n ops a false Hs ltac:(lia) Ha) as [[A1 A2 A3 A4 A5] A6].
  assert (Hne : a <> []) by (apply (retained_nonempty _ _ Ha); destruct (added ops); [cbn in Hl; lia|discriminate]).
  assert (A3' : exists b, hp_bounds (hp_run ops (hp_init None n false)) = Some b /\ maximum d a b) by (destruct a; [congruence|exact A3]). destruct A3' as [b [Eb Hm]].
  exists b, a. split; [exact Ha|]. split; [exact Hm|]. split; [|exact A4]. constructor; auto; [lia|]. intros p Hp. destruct Hm as [_ [Hm _]]. apply Hm, A4. exact Hp.
Qed.
Print Assumptions C26_automatic_bounds.
(** While the bounds are looked for, the loss is infinite for points uniformly worse than those retained, else zero. *)
Theorem C26_automatic_loss : forall d n ops p retained_points, same_dimension d (added ops) -> length (pt_losses p) = d -> length (added ops) < n -> retained (added ops) retained_points ->
  let r := snd (hp_add p (hp_run ops (hp_init None n false))) in
  (uniformly_worse retained_points p -> r = Ok Infinity) /\ (~ uniformly_worse retained_points p -> r = Ok (Fin 0%Q)).
Proof.
  intros d n ops p a Hs Hp Hl Ha. destruct (auto_history d n ops a false Hs ltac:(lia) Ha) as [HI _]. replace (n - length (added ops)) with (S (n - length (added ops) - 1)) in HI by lia.
  destruct (auto_add d _ _ a p HI Hp) as [H1 H2]. split; intros H; [apply H1|apply H2]; exact H.
Qed.
Print Assumptions C26_automatic_loss.

(** C26. The best volume is the volume dominated by all the points added within the bounds so far. *)
Theorem C26_best_volume : forall bounds start ops points, scenario bounds start ops points ->
  (added ops = [] -> hp_best (hp_run ops start) = None) /\
  (added ops <> [] -> exists v, hp_best (hp_run ops start) = Some v /\ (v == volume bounds points)%Q).
Proof.
  intros b s ops C H. pose proof (i_best _ _ _ _ (scenario_inv _ _ _ _ H)) as HB. destruct (added ops); cbn [somewhat] in HB; split; intros E; try congruence; exact HB.
Qed.
Print Assumptions C26_best_volume.
(** C26. A point which increases the volume gets minus the new volume as loss, and belongs to the front. *)
Theorem C26_improving : forall bounds start ops points p, scenario bounds start (ops ++ [HAdd p]) (points ++ [p]) -> scenario bounds start ops points ->
  within bounds p -> (volume bounds points < volume bounds (points ++ [p]))%Q ->
  (exists l, snd (hp_add p (hp_run ops start)) = Ok (Fin l) /\ (l == - volume bounds (points ++ [p]))%Q) /\
  exists front, snd (hp_front None SRandom [] (hp_run (ops ++ [HAdd p]) start)) = Ok front /\ In p front.
Proof.
  intros b s ops C p H' H Hp Hlt. pose proof (scenario_inv _ _ _ _ H) as HI. pose proof (scenario_inv _ _ _ _ H') as HI'.
  destruct (add_within b (sc_objectives _ _ _ _ H) _ _ _ p HI Hp (sc_ties _ _ _ _ H')) as [_ HO]. unfold outcome in HO. fold (volume b C) (volume b (C ++ [p])) in HO.
  destruct HO as [[_ [[v [Er Hv]] Eraw]]|[E _]]; [|unfold volume in *; lra]. split; [exists (- v)%Q; split; [exact Er|unfold volume; rewrite Hv; reflexivity]|].
  exists (filtered (hp_pf (hp_run (ops ++ [HAdd p]) s))). split; [reflexivity|].
  assert (Hraw : forall q, In q (pf_pareto (hp_pf (hp_run (ops ++ [HAdd p]) s))) -> In q (C ++ [p])) by (apply raw_in with (1 := HI')).
  assert (Hdim : same_dimension (length b) (pf_pareto (hp_pf (hp_run (ops ++ [HAdd p]) s)))) by (apply within_dimension; intros q Hq; apply (i_within _ _ _ _ HI'), Hraw; exact Hq).
  apply (filtered_undominated b); [exact Hdim|exact (i_clean _ _ _ _ HI')|]. rewrite hp_run_snoc. cbn [hp_step]. rewrite Eraw. split; [apply in_or_app; right; left; reflexivity|].
  intros q Hq Hdom. apply in_app_iff in Hq as [Hq|[<-|[]]]; [|exact (dom_irrefl _ Hdom)]. assert (HqC : In q C) by (apply (raw_in _ _ _ _ HI); exact Hq).
  assert (E : (volume b (C ++ [p]) == volume b C)%Q); [|lra]. unfold volume. rewrite map_app. cbn [map].
  assert (Hb : below b (map pt_losses C)) by (apply below_points, (i_within _ _ _ _ HI)).
  rewrite <- (union_dominated b (map pt_losses C) (pt_losses p) (pt_losses q) Hb ltac:(apply in_map; exact HqC) (proj1 Hdom) Hp). apply union_same.
  - intros x Hx. apply in_app_iff in Hx as [Hx|[<-|[]]]; [apply Hb; exact Hx|exact Hp].
  - intros x Hx. apply in_app_iff in Hx as [Hx|[<-|[]]]; [right; exact Hx|left; reflexivity].
  - intros x [<-|Hx]; apply in_or_app; [right; left; reflexivity|left; exact Hx].
Qed.
Print Assumptions C26_improving.
(** C26. A later point which does not increase the volume does not change the front. Its loss is minus the volume plus the least gain of the points of the front that are
    nowhere worse (the smallest over the front); infinity if there is none. *)
Theorem C26_not_improving : forall bounds start ops points p, scenario bounds start (ops ++ [HAdd p]) (points ++ [p]) -> scenario bounds start ops points -> added ops <> [] ->
  within bounds p -> (volume bounds points == volume bounds (points ++ [p]))%Q ->
  exists front r, snd (hp_front None SRandom [] (hp_run ops start)) = Ok front /\ snd (hp_front None SRandom [] (hp_run (ops ++ [HAdd p]) start)) = Ok front /\ snd (hp_add p (hp_run ops start)) = Ok r /\
    match r with
    | Infinity => forall q, In q front -> ~ vle (pt_losses q) (pt_losses p)
    | Fin l => (- volume bounds points <= l)%Q /\ exists q g, In q front /\ vle (pt_losses q) (pt_losses p) /\ least_gain (pt_losses p) (pt_losses q) g /\ (l == - volume bounds points + g)%Q /\
                 forall q' g', In q' front -> vle (pt_losses q') (pt_losses p) -> least_gain (pt_losses p) (pt_losses q') g' -> (g <= g')%Q
    end.
Proof.
  intros b s ops C p H' H Hne Hp He. pose proof (scenario_inv _ _ _ _ H) as HI. pose proof (scenario_inv _ _ _ _ H') as HI'.
  destruct (add_within b (sc_objectives _ _ _ _ H) _ _ _ p HI Hp (sc_ties _ _ _ _ H')) as [_ HO]. unfold outcome in HO. fold (volume b C) (volume b (C ++ [p])) in HO.
  assert (Hsw : somewhat (added ops) = true) by (destruct (added ops); [congruence|reflexivity]). rewrite Hsw in HO.
  destruct HO as [[[Hlt|Hf] _]|[_ [_ [Eraw Hr]]]]; [lra|discriminate|]. exists (filtered (hp_pf (hp_run ops s))).
  assert (Eback : filtered (hp_pf (hp_run (ops ++ [HAdd p]) s)) = filtered (hp_pf (hp_run ops s))).
  { rewrite hp_run_snoc. cbn [hp_step]. rewrite <- Eraw. unfold filtered at 1. destruct (pf_needs_filtering (hp_pf (fst (hp_add p (hp_run ops s))))) eqn:Ef; [|reflexivity]. cbn [pf_filter pf_pareto]. rewrite Eraw.
    apply filter_all_id. intros x Hx. apply negb_true_iff. destruct (existsb _ _) eqn:Ex; [|reflexivity]. apply existsb_exists in Ex as [q [Hq Hdom]].
    assert (Hs : same_dimension (length b) (pf_pareto (hp_pf (hp_run ops s)))) by (apply within_dimension; intros z Hz; apply (i_within _ _ _ _ HI), (raw_in _ _ _ _ HI); exact Hz).
    apply (filtered_undominated b _ _ Hs (i_clean _ _ _ _ HI)) in Hx as [Hx Hu], Hq as [Hq _]. apply dominates_iff in Hdom; [|rewrite (Hs q Hq), (Hs x Hx); reflexivity]. destruct (Hu q Hq Hdom). }
  destruct Hr as [[Er Hno]|[l [g [q [Er [Hl [Hg [Hq [Hql [Hqg Hmin]]]]]]]]]]; rewrite Er; [exists Infinity|exists (Fin l)].
  - split; [reflexivity|]. split; [unfold hp_front, pf_get_front; cbn [snd]; fold (filtered (hp_pf (hp_run (ops ++ [HAdd p]) s))); rewrite Eback; reflexivity|]. split; [reflexivity|exact Hno].
  - split; [reflexivity|]. split; [unfold hp_front, pf_get_front; cbn [snd]; fold (filtered (hp_pf (hp_run (ops ++ [HAdd p]) s))); rewrite Eback; reflexivity|]. split; [reflexivity|].
    fold (volume b (C ++ [p])) in Hl. split; [lra|]. exists q, g. repeat (split; [first [assumption|lra]|]). exact Hmin.
Qed.
Print Assumptions C26_not_improving.
(** ... and it is finite if the point is strictly better than the bounds. *)
Theorem C26_not_improving_finite : forall bounds start ops points p, scenario bounds start (ops ++ [HAdd p]) (points ++ [p]) -> scenario bounds start ops points -> added ops <> [] ->
  Forall2 Qlt (pt_losses p) bounds -> (volume bounds points == volume bounds (points ++ [p]))%Q ->
  exists l, snd (hp_add p (hp_run ops start)) = Ok (Fin l) /\ (- volume bounds points <= l)%Q.
Proof.
  intros b s ops C p H' H Hne Hp He. assert (Hpw : within b p) by (unfold within; clear - Hp; induction Hp; constructor; [lra|assumption]).
  destruct (C26_not_improving b s ops C p H' H Hne Hpw He) as [front [r [Ef [_ [Er Hr]]]]]. destruct r as [l|]; [exists l; split; [exact Er|apply Hr]|]. exfalso.
  pose proof (scenario_inv _ _ _ _ H) as HI. injection Ef as <-. fold (filtered (hp_pf (hp_run ops s))) in Hr.
  assert (Hb : below b (map pt_losses C)) by (apply below_points, (i_within _ _ _ _ HI)).
  assert (HbF : below b (map pt_losses (filtered (hp_pf (hp_run ops s))))). { apply below_points. intros q Hq. apply (i_within _ _ _ _ HI), (raw_in _ _ _ _ HI). apply (drops_in _ _ _ (filtered_sub _)). exact Hq. }
  pose proof (union_strict b (map pt_losses (filtered (hp_pf (hp_run ops s)))) (pt_losses p) HbF Hp) as Hs. rewrite (filtered_volume _ _ _ _ HI) in Hs.
  assert (Hlt : (union_volume b (map pt_losses C) < union_volume b (pt_losses p :: map pt_losses (filtered (hp_pf (hp_run ops s)))))%Q). { apply Hs. intros x Hx. apply in_map_iff in Hx as [q [<- Hq]]. apply Hr. exact Hq. }
  assert (Hle : (union_volume b (pt_losses p :: map pt_losses (filtered (hp_pf (hp_run ops s)))) <= volume b (C ++ [p]))%Q).
  { unfold volume. apply union_mono; [apply below_points; intros q Hq; apply in_app_iff in Hq as [Hq|[<-|[]]]; [apply (i_within _ _ _ _ HI); exact Hq|exact Hpw]|].
    rewrite map_app. intros x [<-|Hx]; apply in_or_app; [right; left; reflexivity|left]. apply in_map_iff in Hx as [q [<- Hq]]. apply in_map, (raw_in _ _ _ _ HI), (drops_in _ _ _ (filtered_sub _)). exact Hq. }
  unfold volume in *. lra.
Qed.
Print Assumptions C26_not_improving_finite.
(** C26. A point beyond the bounds gets the total excess as loss, a positive number; after a point within the bounds, it changes nothing. *)
Theorem C26_beyond : forall bounds start ops points p, scenario bounds start ops points -> length (pt_losses p) = length bounds -> ~ within bounds p ->
  (exists l, snd (hp_add p (hp_run ops start)) = Ok (Fin l) /\ (l == excess (pt_losses p) bounds)%Q /\ (0 < l)%Q) /\
  (added ops <> [] -> hp_run (ops ++ [HAdd p]) start = hp_run ops start).
Proof.
  intros b s ops C p H Hl Hp. pose proof (scenario_inv _ _ _ _ H) as HI. split; [apply (add_beyond_result b); auto; [apply (i_auto _ _ _ _ HI)|apply (i_bounds _ _ _ _ HI)]|].
  intros Hne. assert (Hsw : somewhat (added ops) = true) by (destruct (added ops); [congruence|reflexivity]). rewrite Hsw in HI. rewrite hp_run_snoc. apply (add_beyond b _ C); assumption.
Qed.
Print Assumptions C26_beyond.
(** C26. The front: points added within the bounds, none dominating another, that dominate the same volume as all of them; every such point
    that is strictly better than the bounds is weakly dominated by one of the front. *)
Theorem C26_front : forall bounds start ops points, scenario bounds start ops points ->
  exists front, snd (hp_front None SRandom [] (hp_run ops start)) = Ok front /\ incl front points /\
    (forall p q, In p front -> In q front -> ~ dom (pt_losses p) (pt_losses q)) /\
    (volume bounds front == volume bounds points)%Q /\
    (forall p, In p points -> Forall2 Qlt (pt_losses p) bounds -> exists q, In q front /\ vle (pt_losses q) (pt_losses p)).
Proof.
  intros b s ops C H. pose proof (scenario_inv _ _ _ _ H) as HI. exists (filtered (hp_pf (hp_run ops s))). split; [reflexivity|].
  assert (Hin : incl (filtered (hp_pf (hp_run ops s))) C) by (intros q Hq; apply (raw_in _ _ _ _ HI), (drops_in _ _ _ (filtered_sub _)); exact Hq). split; [exact Hin|].
  assert (Hs : same_dimension (length b) (pf_pareto (hp_pf (hp_run ops s)))) by (apply within_dimension; intros z Hz; apply (i_within _ _ _ _ HI), (raw_in _ _ _ _ HI); exact Hz).
  split; [|split; [apply (filtered_volume _ _ _ _ HI)|]].
  - intros p q Hp Hq. apply (filtered_undominated b _ _ Hs (i_clean _ _ _ _ HI)) in Hp as [Hp _], Hq as [_ Hq]. apply Hq. exact Hp.
  - intros p Hp Hlt. set (F := filtered (hp_pf (hp_run ops s))) in *.
    destruct (existsb (fun q => vall_le (pt_losses q) (pt_losses p)) F) eqn:Ex.
    + apply existsb_exists in Ex as [q [Hq Hle]]. exists q. split; [exact Hq|]. apply vall_le_iff in Hle; [exact Hle|]. rewrite (Forall2_len _ _ _ Hlt). eapply Forall2_len. apply (i_within _ _ _ _ HI), Hin. exact Hq.
    + exfalso. assert (HbF : below b (map pt_losses F)) by (apply below_points; intros q Hq; apply (i_within _ _ _ _ HI), Hin; exact Hq).
      assert (Hst : (union_volume b (map pt_losses F) < union_volume b (pt_losses p :: map pt_losses F))%Q).
      { apply union_strict; [exact HbF|exact Hlt|]. intros x Hx Hle. apply in_map_iff in Hx as [q [<- Hq]]. assert (Ht : existsb (fun q => vall_le (pt_losses q) (pt_losses p)) F = true); [|congruence].
        apply existsb_exists. exists q. split; [exact Hq|]. apply vall_le_iff; [|exact Hle]. apply vle_length in Hle. exact Hle. }
      assert (Hle : (union_volume b (pt_losses p :: map pt_losses F) <= union_volume b (map pt_losses C))%Q).
      { apply union_mono; [apply below_points, (i_within _ _ _ _ HI)|]. intros x [<-|Hx]; [apply in_map; exact Hp|]. apply in_map_iff in Hx as [q [<- Hq]]. apply in_map, Hin. exact Hq. }
      pose proof (filtered_volume _ _ _ _ HI) as Hv. fold F in Hv. lra.
Qed.
Print Assumptions C26_front.
(** C26. The best volume never decreases, whatever the history and the state. *)
Theorem C26_best_never_decreases : forall ops more s,
  match hp_best (hp_run ops s), hp_best (hp_run (ops ++ more) s) with None, _ => True | Some _, None => False | Some v, Some w => (v <= w)%Q end.
Proof.
  intros ops more s. unfold hp_run. rewrite fold_left_app. exact (run_best more (fold_left hp_step ops s)).
Qed.
Print Assumptions C26_best_never_decreases.

(** A concrete history: two points that improve, one that does not, one beyond the bounds. *)
Definition p0 : point := (0, [-2; -1]%Q). Definition p1 : point := (1, [-1; -3]%Q). Definition p2 : point := (2, [-1; -1]%Q). Definition p3 : point := (3, [1; 2]%Q).
Definition some_ops : list hp_op := [HAdd p0; HFront None SRandom []; HAdd p3; HAdd p1].
Definition some_start : hpareto := hp_init (Some [0; 0]%Q) 0 false.
Example some_scenario : scenario [0; 0]%Q some_start some_ops [p0; p1] /\ scenario [0; 0]%Q some_start (some_ops ++ [HAdd p2]) ([p0; p1] ++ [p2]).
Proof.
  assert (W : forall p, In p [p0; p1; p2] -> within [0; 0]%Q p) by (intros p [<-|[<-|[<-|[]]]]; repeat constructor; cbv; discriminate).
  assert (B : ~ within [0; 0]%Q p3) by (intros H; inversion H as [|? ? ? ? H1 _]; cbv in H1; apply H1; reflexivity).
  split; (constructor; [cbn; lia|apply C26_given_bounds| | | |cbn; lia]).
  - intros p [<-|[<-|[<-|[]]]]; reflexivity.
  - cbn. apply W. left. reflexivity.
  - exists [p0; p1]. split; [|reflexivity]. cbn [added flat_map some_ops app]. apply counted_in; [apply W; cbn; tauto|]. apply counted_out; [exact B|]. apply counted_in; [apply W; cbn; tauto|]. constructor.
  - intros p [<-|[<-|[<-|[<-|[]]]]]; reflexivity.
  - cbn. apply W. left. reflexivity.
  - exists [p0; p1; p2]. split; [|reflexivity]. cbn [added flat_map some_ops app]. apply counted_in; [apply W; cbn; tauto|]. apply counted_out; [exact B|]. apply counted_in; [apply W; cbn; tauto|]. apply counted_in; [apply W; cbn; tauto|]. constructor.
Qed.
Example some_results :
  hp_best (hp_run some_ops some_start) = Some 4%Q /\
  (exists l, snd (hp_add p2 (hp_run some_ops some_start)) = Ok (Fin l) /\ (l == -4)%Q) /\
  (exists l, snd (hp_add (4, [0; -1]%Q) (hp_run some_ops some_start)) = Ok (Fin l) /\ (l == -4)%Q) /\
  (exists l, snd (hp_add (4, [0; 0]%Q) (hp_run some_ops some_start)) = Ok (Fin l) /\ (l == -3)%Q) /\
  (exists l, snd (hp_add p3 (hp_run some_ops some_start)) = Ok (Fin l) /\ (l == 3)%Q).
Proof.
  split; [vm_compute; reflexivity|]. split; [eexists; split; [vm_compute; reflexivity|vm_compute; reflexivity]|]. split; [eexists; split; [vm_compute; reflexivity|vm_compute; reflexivity]|].
  split; [eexists; split; [vm_compute; reflexivity|vm_compute; reflexivity]|eexists; split; [vm_compute; reflexivity|vm_compute; reflexivity]].
Qed.

(** Without hypervolume: every point is kept, the loss is zero within the bounds, the front is that of all the points. *)
Theorem C26_no_hypervolume : forall bounds ops p, same_dimension (length bounds) (added ops) -> 0 < length bounds -> length (pt_losses p) = length bounds ->
  let s := hp_run ops (hp_init (Some bounds) 0 true) in
  (within bounds p -> snd (hp_add p s) = Ok (Fin 0%Q)) /\
  exists front, snd (hp_front None SRandom [] s) = Ok front /\ keeps (undominated (added ops)) (added ops) front.
Proof.
  intros b ops p Hs Hd Hp s. destruct (no_hv_history (Some b) ops) as [A1 [A2 [A3 [A4 A5]]]].
  { right. exists b. auto. }
  { intros q Hq E. apply Hs in Hq. rewrite E in Hq. cbn in Hq. lia. }
  fold s in A1, A2, A3, A4, A5. split.
  - intros Hw. unfold hp_add. rewrite A1, A2. assert (Eo : over (pt_losses p) b = false) by (apply over_iff; [exact Hp|exact Hw]). rewrite Eo, A3. reflexivity.
  - rewrite <- (added_pf ops) in Hs |- *. exists (full_front (map pf_op_of ops)). split; [|apply (full_front_keeps (length b)); exact Hs]. unfold hp_front. rewrite A4. reflexivity.
Qed.
Print Assumptions C26_no_hypervolume.

(** C26, what does not hold. If the first point is beyond the bounds it stays in the list and falsifies the volume: a later point strictly better than the bounds is not
    kept, and its loss is infinite. *)
Theorem C26_beyond_first_refuted : exists bounds first p, Forall2 Qlt (pt_losses p) bounds /\
  let s := hp_run [HAdd first] (hp_init (Some bounds) 0 false) in
  snd (hp_add p s) = Ok Infinity /\ hp_best (fst (hp_add p s)) = Some (-1)%Q /\ ~ In p (pf_pareto (hp_pf (fst (hp_add p s)))).
Proof.
  exists [0; 0]%Q, (0, [1; -5]%Q), (1, [-1; -1]%Q). split; [repeat constructor|]. split; [vm_compute; reflexivity|]. split; [vm_compute; reflexivity|]. vm_compute. intros [E|[]]. discriminate.
Qed.
Print Assumptions C26_beyond_first_refuted.
(** A point on the bounds in one objective is lost, with an infinite loss, even when no point dominates it. *)
Theorem C26_on_bounds_refuted : exists bounds p q, within bounds q /\ within bounds p /\ ~ dom (pt_losses p) (pt_losses q) /\
  let s := hp_run [HAdd p] (hp_init (Some bounds) 0 false) in
  snd (hp_add q s) = Ok Infinity /\ snd (hp_front None SRandom [] (fst (hp_add q s))) = Ok [p].
Proof.
  exists [0; 0]%Q, (0, [-1; -1]%Q), (1, [0; -7]%Q). split; [repeat constructor; cbv; discriminate|]. split; [repeat constructor; cbv; discriminate|]. split.
  - intros [H _]. inversion H as [|? ? ? ? _ Ha]. inversion Ha as [|? ? ? ? Hb _]. cbv in Hb. apply Hb. reflexivity.
  - split; vm_compute; reflexivity.
Qed.
Print Assumptions C26_on_bounds_refuted.
(** The first point compared with automatic bounds gets minus the volume as loss, even when it is dominated and adds nothing. *)
Theorem C26_first_after_automatic_refuted : exists p q, dom (pt_losses p) (pt_losses q) /\ exists l,
  snd (hp_add q (hp_run [HAdd p; HAdd (2, [0; -3]%Q); HAdd (3, [-3; 0]%Q)] (hp_init None 3 false))) = Ok (Fin l) /\ (l == -4)%Q.
Proof.
  exists (0, [-2; -2]%Q), (1, [-1; -1]%Q). split.
  - split; [repeat constructor; cbv; discriminate|]. exists 0, (-2)%Q, (-1)%Q. repeat split.
  - eexists. split; [vm_compute; reflexivity|vm_compute; reflexivity].
Qed.
Print Assumptions C26_first_after_automatic_refuted.

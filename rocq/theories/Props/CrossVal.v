(** C119: cross-validation experiments. *)
From Coq Require Import Arith QArith Bool Lia List.
From Verif.Model Require Import Prelude MultiValue Pareto Hypervolume HypervolumePareto Experiment CrossVal.
From Verif.Spec Require Import Pareto CrossVal.
From Verif.Proofs Require Import MultiValue Pareto HypervolumePareto Experiment CrossVal.
From Verif.Props Require Experiment.
Import ListNotations.
Open Scope nat_scope.

(** For every method and every function there is one experiment: it is evaluated on the function and optimized on all the
    others, in order, followed by those for training only. When several are optimized the bounds are their losses at the
    value of the parametrization of the evaluated function. *)
Theorem C119_plan loss_at testing experiments training_only size methods l :
  create loss_at testing experiments training_only size methods = Ok l ->
  let ms := if testing : bool then [ByChance] else methods in
  length l = length ms * length experiments /\
  forall i j m xp, nth_error ms i = Some m -> nth_error experiments j = Some xp ->
    exists s others, nth_error l (i * length experiments + j) = Some s /\ s_eval s = xp /\ s_method s = m /\ s_size s = size /\
      keeps (fun x => fst x <> fst xp) experiments others /\ s_train s = others ++ training_only /\
      (length (s_train s) = 1 -> s_pack_bounds s = None) /\
      (length (s_train s) <> 1 -> compatible (s_train s) /\ 2 <= length (s_train s) /\
         exists bounds, s_pack_bounds s = Some bounds /\ Forall2 (fun x b => b = loss_at (fst x) (fst xp)) (s_train s) bounds).
Proof.
  unfold create. set (ms := if testing then [ByChance] else methods). intros H. cbn zeta.
  apply all_ok_ok in H. split.
  - rewrite <- (Forall2_len _ _ _ H). apply length_product.
  - intros i j m xp Hi Hj.
    destruct (Forall2_nth _ _ _ _ _ H (nth_error_product (create_one loss_at experiments training_only size) experiments ms i j m xp Hi Hj)) as [s [H1 H2]].
    exists s, (filter (fun x => negb (fst x =? fst xp)) experiments). split; [exact H1|].
    assert (Hk : keeps (fun x => fst x <> fst xp) experiments (filter (fun x => negb (fst x =? fst xp)) experiments)).
    { clear. induction experiments as [|x l IH]; cbn; [constructor|]. destruct (fst x =? fst xp) eqn:E; cbn; constructor; auto.
      - apply Nat.eqb_eq in E. auto.
      - apply Nat.eqb_neq. exact E. }
    unfold create_one in H2. destruct (length _ =? 1) eqn:E.
    + inversion H2. subst s. cbn. apply Nat.eqb_eq in E. do 3 (split; [reflexivity|]). split; [exact Hk|]. split; [reflexivity|]. split; [reflexivity|]. congruence.
    + apply Nat.eqb_neq in E. destruct (multi_check _) as [[]|e] eqn:E2; [|discriminate]. cbn in H2. inversion H2. subst s. cbn.
      do 3 (split; [reflexivity|]). split; [exact Hk|]. split; [reflexivity|]. split; [congruence|]. intros _.
      apply Props.Experiment.C85_multi_check in E2 as (N & U & B & P). split; [split; [exact U|split; [exact B|exact P]]|]. split.
      * destruct (filter _ experiments ++ training_only) as [|a [|b r]]; cbn in *; [congruence|congruence|lia].
      * eexists. split; [reflexivity|]. clear. induction (filter _ experiments ++ training_only); cbn; constructor; auto.
Qed.
Print Assumptions C119_plan.

(** No experiment is optimized on the function it is evaluated on, unless that is asked for. *)
Theorem C119_held_out loss_at testing experiments training_only size methods l s :
  create loss_at testing experiments training_only size methods = Ok l ->
  (forall x y, In x experiments -> In y training_only -> fst x <> fst y) ->
  In s l -> In (s_eval s) experiments /\ ~ In (fst (s_eval s)) (map fst (s_train s)).
Proof.
  unfold create. set (ms := if testing then [ByChance] else methods). intros H Hd Hs. apply all_ok_ok in H.
  assert (Hin : exists r, In r (flat_map (fun m => map (create_one loss_at experiments training_only size m) experiments) ms) /\ r = Ok s).
  { revert Hs. induction H as [|a b l0 l1 H0 H1 IH]; [intros []|]. intros [<-|Hs]; [exists a; cbn; auto|].
    destruct (IH Hs) as [r [Hr1 Hr2]]. exists r. cbn. auto. }
  destruct Hin as [r [Hr ->]]. apply in_flat_map in Hr as [m [_ Hr]]. apply in_map_iff in Hr as [xp [Hr Hx]].
  assert (Hf : forall tr, tr = filter (fun x => negb (fst x =? fst xp)) experiments ++ training_only -> ~ In (fst xp) (map fst tr)).
  { intros tr -> Hc. apply in_map_iff in Hc as [y [Hy1 Hy2]]. apply in_app_or in Hy2 as [Hy2|Hy2].
    - apply filter_In in Hy2 as [_ Hy2]. apply negb_true_iff, Nat.eqb_neq in Hy2. auto.
    - apply (Hd xp y Hx Hy2). auto. }
  unfold create_one in Hr. destruct (length _ =? 1).
  - inversion Hr. subst s. cbn [s_eval s_train]. split; [exact Hx|]. apply Hf. reflexivity.
  - destruct (multi_check _); [|discriminate]. cbn in Hr. inversion Hr. subst s. cbn [s_eval s_train]. split; [exact Hx|]. apply Hf. reflexivity.
Qed.
Print Assumptions C119_held_out.

(** The experiments can be created from at least two compatible functions; not from one alone. *)
Theorem C119_possible loss_at testing experiments training_only size methods :
  compatible (experiments ++ training_only) -> 2 <= length (experiments ++ training_only) ->
  exists l, create loss_at testing experiments training_only size methods = Ok l.
Proof.
  intros (N & U & P) H2. unfold create. generalize (if testing then [ByChance] else methods). intros ms.
  assert (Hone : forall m xp, In xp experiments -> exists s, create_one loss_at experiments training_only size m xp = Ok s).
  { intros m xp Hx. unfold create_one. destruct (length _ =? 1) eqn:E; [eexists; reflexivity|].
    assert (Hc : multi_check (filter (fun x => negb (fst x =? fst xp)) experiments ++ training_only) = Ok tt).
    { apply Props.Experiment.C85_multi_check.
      assert (Hincl : forall x, In x (filter (fun x => negb (fst x =? fst xp)) experiments ++ training_only) -> In x (experiments ++ training_only)).
      { intros x Hi. apply in_app_or in Hi as [Hi|Hi]; apply in_or_app; [left; apply filter_In in Hi; tauto|right; exact Hi]. }
      split; [|split; [|split]].
      - intros Hnil. apply app_eq_nil in Hnil as [Hf Ht]. subst. rewrite app_nil_r in *.
        destruct experiments as [|a [|b r]]; cbn in H2; try lia. cbn [map] in N. apply NoDup_cons_iff in N as [N1 _].
        cbn in Hf. destruct (fst a =? fst xp) eqn:Ea; [|discriminate]. destruct (fst b =? fst xp) eqn:Eb; [|discriminate].
        apply Nat.eqb_eq in Ea, Eb. apply N1. left. congruence.
      - clear - N. induction experiments as [|a r IH]; cbn in *; [exact N|]. apply NoDup_cons_iff in N as [N1 N2].
        destruct (fst a =? fst xp); cbn; [apply IH; exact N2|]. constructor; [|apply IH; exact N2].
        intros Hi. apply N1. apply in_map_iff in Hi as [y [Hy1 Hy2]]. apply in_map_iff. exists y. split; [exact Hy1|].
        apply in_app_or in Hy2 as [Hy2|Hy2]; apply in_or_app; [left; apply filter_In in Hy2; tauto|right; exact Hy2].
      - intros x Hi. apply U, Hincl, Hi.
      - intros x y Hi Hj. apply P; apply Hincl; assumption. }
    rewrite Hc. eexists. reflexivity. }
  assert (Hall : forall rs, (forall r, In r rs -> exists s : special, r = Ok s) -> exists l, all_ok rs = Ok l).
  { induction rs as [|r rs IH]; intros Hr; [eexists; reflexivity|]. destruct (Hr r (or_introl eq_refl)) as [s ->].
    destruct IH as [l Hl]; [intros; apply Hr; right; assumption|]. cbn. rewrite Hl. eexists. reflexivity. }
  apply Hall. intros r Hr. apply in_flat_map in Hr as [m [_ Hr]]. apply in_map_iff in Hr as [xp [<- Hx]]. apply Hone. exact Hx.
Qed.
Print Assumptions C119_possible.

Theorem C119_alone loss_at testing xp size m methods : create loss_at testing [xp] [] size (m :: methods) = Err AssertionError.
Proof.
  unfold create. destruct testing; cbn; unfold create_one; cbn; rewrite Nat.eqb_refl; reflexivity.
Qed.
Print Assumptions C119_alone.

(** Without limit, or within it, the score is the smallest evaluation of the recommendations. *)
Theorem C119_all ev s draws recs : recs <> [] -> (forall n, s_size s = Some n -> length recs <= n) ->
  exists q, evaluation_function ev s draws recs = Ok q /\ smallest ev recs q.
Proof.
  intros Hne Hn. unfold evaluation_function, candidates.
  assert (Hc : match s_size s with None => True | Some n => (n <? length recs) = false end).
  { destruct (s_size s) as [n|]; [|exact I]. apply Nat.ltb_ge. apply Hn. reflexivity. }
  destruct (py_min_some ev recs Hne) as [q Hq]. exists q. split; [|apply py_min_ok; exact Hq].
  destruct (s_size s) as [n|]; [rewrite Hc|]; exact Hq.
Qed.
Print Assumptions C119_all.

(** In all cases the score is the smallest evaluation among some of the recommendations, no more than the limit, and is never
    better than the best of all. *)
Theorem C119_subset ev s draws recs q : evaluation_function ev s draws recs = Ok q ->
  exists chosen, (forall p, In p chosen -> In p recs) /\ smallest ev chosen q /\
    (forall n, s_size s = Some n -> (forall draw, In draw draws -> length draw = n) -> length chosen <= n) /\
    (forall p, smallest ev recs p -> (p <= q)%Q).
Proof.
  unfold evaluation_function. destruct (candidates s draws recs) as [chosen|e] eqn:E; [|discriminate]. cbn [bind]. intros H.
  apply py_min_ok in H. exists chosen.
  assert (Hin : (forall p, In p chosen -> In p recs) /\
                (forall n, s_size s = Some n -> (forall draw, In draw draws -> length draw = n) -> length chosen <= n)).
  { unfold candidates in E. destruct (s_size s) as [n|].
    - destruct (n <? length recs) eqn:En.
      + pose proof (extend_sub recs (HypervolumePareto.Fin 0%Q) (hp_init (s_upper_bounds s) AUTO_BOUND false)) as Hsub.
        destruct (hp_extend _ recs _) as [h [o|e]]; [|discriminate]. cbn [fst] in Hsub.
        assert (Hsub' : forall p, In p (pf_pareto (hp_pf h)) -> In p recs) by (intros p Hp; destruct (Hsub p Hp) as [[]|Hp']; exact Hp').
        unfold hp_front in E. destruct (pf_get_front (Some n) _ draws (hp_pf h)) as [f r] eqn:Ef. cbn [snd] in E. subst r.
        assert (Eg : snd (pf_get_front (Some n) (subset_of (s_method s) h) draws (hp_pf h)) = Ok chosen) by (rewrite Ef; reflexivity).
        apply get_front_in in Eg as [[Eg1 Eg2]|(m & Em & Hm & draw & Hd & Eg)].
        * split; [intros p Hp; apply Hsub', filter_sub; rewrite <- Eg1; exact Hp|]. intros k Hk _. inversion Hk. subst k. exact Eg2.
        * split; [intros p Hp; apply Hsub', filter_sub; rewrite Eg in Hp; apply choice_in in Hp; exact Hp|].
          intros k Hk Hdr. inversion Hk. subst k. rewrite Eg, <- (Hdr draw Hd). apply choice_short.
      + apply Nat.ltb_ge in En. inversion E. subst chosen. split; [auto|]. intros k Hk _. inversion Hk. subst. exact En.
    - inversion E. subst chosen. split; [auto|]. discriminate. }
  destruct Hin as [Hin Hlen]. split; [exact Hin|]. split; [exact H|]. split; [exact Hlen|].
  intros p [_ Hp]. destruct H as [[r [Hr <-]] _]. apply Hp, Hin, Hr.
Qed.
Print Assumptions C119_subset.

(** Up to 15 recommendations none of which dominates another, a random subset is drawn among all of them. *)
Theorem C119_random ev s d n draw draws recs : s_method s = ByChance -> s_size s = Some n -> 0 < d -> same_dimension d recs -> incomparable recs ->
  0 < n < length recs -> length recs <= 15 -> length draw = n -> (forall i, In i draw -> i < length recs) ->
  exists q chosen, evaluation_function ev s (draw :: draws) recs = Ok q /\ smallest ev chosen q /\
    Forall2 (fun i p => nth_error recs i = Some p) draw chosen.
Proof.
  intros Hm Hsz Hd Hs Hi [Hn Hl] H15 Hdr Hv. unfold evaluation_function, candidates. rewrite Hsz.
  rewrite (proj2 (Nat.ltb_lt _ _) Hl). assert (Hne : recs <> []) by (destruct recs; [cbn in Hl; lia|discriminate]).
  destruct (extend_few d recs Hd Hs Hi H15 Hne) as [a [b [l E]]]. change (s_upper_bounds s) with (@None (list Q)). rewrite E.
  unfold hp_front, pf_get_front. cbn [hp_pf pf_needs_filtering]. rewrite (filter_incomparable d recs Hs Hi).
  rewrite (proj2 (Nat.leb_gt _ _) Hl), Hm. cbn [subset_of map snd bind].
  assert (Hc : Forall2 (fun i p => nth_error recs i = Some p) draw (choice recs draw)).
  { clear - Hv. induction draw as [|i draw IH]; [constructor|]. cbn [choice flat_map].
    destruct (nth_error recs i) as [p|] eqn:E; [|apply nth_error_None in E; specialize (Hv i (or_introl eq_refl)); lia].
    cbn. constructor; [exact E|]. apply IH. intros; apply Hv; right; assumption. }
  assert (Hcn : choice recs draw <> []) by (intros E2; rewrite E2 in Hc; inversion Hc; subst; cbn in Hn; lia).
  destruct (py_min_some ev _ Hcn) as [q Hq]. exists q, (choice recs draw). split; [exact Hq|]. split; [apply py_min_ok; exact Hq|exact Hc].
Qed.
Print Assumptions C119_random.

(** The bounds of the pack are not those of the experiment: with the hypervolume method, between limit + 1 and 15
    recommendations none of which dominates another always make the evaluation fail. *)
Theorem C119_volume_refuted ev s d n draws recs : s_method s = ByVolume -> s_size s = Some n -> 0 < d -> same_dimension d recs -> incomparable recs ->
  n < length recs -> length recs <= 15 -> evaluation_function ev s draws recs = Err RuntimeError.
Proof.
  intros Hm Hsz Hd Hs Hi Hl H15. unfold evaluation_function, candidates. rewrite Hsz.
  rewrite (proj2 (Nat.ltb_lt _ _) Hl). assert (Hne : recs <> []) by (destruct recs; [cbn in Hl; lia|discriminate]).
  destruct (extend_few d recs Hd Hs Hi H15 Hne) as [a [b [l E]]]. change (s_upper_bounds s) with (@None (list Q)). rewrite E.
  unfold hp_front, pf_get_front. cbn [hp_pf pf_needs_filtering]. rewrite (filter_incomparable d recs Hs Hi).
  rewrite (proj2 (Nat.leb_gt _ _) Hl), Hm. cbn [subset_of]. unfold indicator. cbn [hp_bounds hp_best]. destruct b; reflexivity.
Qed.
Print Assumptions C119_volume_refuted.

(** The descriptors are those of the optimized experiment, then the own ones, without those on the subsets if there is no limit. *)
Theorem C119_descriptors is_pareto size own experiment k : NoDup (dkeys experiment) ->
  dget k (special_descriptors is_pareto size own experiment) =
  match dget k experiment with
  | Some v => Some v
  | None => match size with None => if is_pareto k : bool then None else dget k own | Some _ => dget k own end
  end.
Proof.
  intros Hn. unfold special_descriptors. rewrite dget_update.
  assert (Hr : dget k (rev experiment) = dget k experiment).
  { assert (Hin : forall (e : ndict) v, NoDup (dkeys e) -> (dget k e = Some v <-> In (k, v) e)).
    { induction e as [|[k' v'] e IH]; intros v Hd; cbn; [split; [discriminate|intros []]|].
      cbn in Hd. apply NoDup_cons_iff in Hd as [Hd1 Hd2]. destruct (k =? k') eqn:E.
      - apply Nat.eqb_eq in E. subst. split; [intros H; inversion H; auto|]. intros [H|H]; [inversion H; reflexivity|].
        exfalso. apply Hd1. apply (in_map fst) in H. exact H.
      - apply Nat.eqb_neq in E. rewrite (IH v Hd2). split; [auto|]. intros [H|H]; [inversion H; congruence|exact H]. }
    assert (Hn2 : NoDup (dkeys (rev experiment))) by (unfold dkeys; rewrite map_rev; apply NoDup_rev; exact Hn).
    destruct (dget k experiment) as [v|] eqn:E.
    - apply Hin; [exact Hn2|]. apply in_rev. rewrite rev_involutive. apply Hin; assumption.
    - destruct (dget k (rev experiment)) as [v|] eqn:E2; [|reflexivity]. apply Hin in E2; [|exact Hn2]. apply in_rev in E2. apply Hin in E2; [|exact Hn]. congruence. }
  rewrite Hr. destruct (dget k experiment); [reflexivity|]. unfold own_descriptors. destruct size; [reflexivity|].
  induction own as [|[k' v] own IH]; [cbn; destruct (is_pareto k); reflexivity|]. cbn [filter fst dget].
  destruct (k =? k') eqn:E.
  - apply Nat.eqb_eq in E. subst k'. destruct (is_pareto k) eqn:Ep; cbn [negb]; [exact IH|]. cbn. rewrite Nat.eqb_refl. reflexivity.
  - destruct (is_pareto k'); cbn [negb]; [exact IH|]. cbn. rewrite E. exact IH.
Qed.
Print Assumptions C119_descriptors.

(** Three functions; thirteen recommendations on a line. *)
Definition fn (i : nat) : nat * efunction :=
  (i, {| f_class := 0; f_init := []; f_desc := []; f_param := {| p_name := 3; p_dim := 2; p_checkers := []; p_flags := [] |}; f_upper := None |}).
Example create_ex : match create (fun i j => inject_Z (Z.of_nat (10 * i + j))) false [fn 1; fn 2] [fn 7] (Some 12) [ByChance; ByVolume] with
  | Ok l => map (fun s => (map fst (s_train s), s_pack_bounds s, fst (s_eval s))) l
  | Err _ => [] end = [([2; 7], Some [21#1; 71#1]%Q, 1); ([1; 7], Some [12#1; 72#1]%Q, 2); ([2; 7], Some [21#1; 71#1]%Q, 1); ([1; 7], Some [12#1; 72#1]%Q, 2)].
Proof. reflexivity. Qed.
Definition line : list point := map (fun i => (i, [inject_Z (Z.of_nat i); inject_Z (- Z.of_nat i)])) (seq 0 13).
Example line_ok : same_dimension 2 line /\ forallb (fun p => negb (existsb (fun q => dominates q p) line)) line = true.
Proof. split; [|vm_compute; reflexivity]. intros p Hp. apply in_map_iff in Hp as [i [<- _]]. reflexivity. Qed.
Example line_incomparable : incomparable line.
Proof.
  destruct line_ok as [Hd H]. intros p Hp q Hq Hdom. rewrite forallb_forall in H. specialize (H p Hp). apply negb_true_iff in H.
  assert (existsb (fun q => dominates q p) line = true); [|congruence]. apply existsb_exists. exists q. split; [exact Hq|].
  apply dominates_iff; [rewrite (Hd q Hq), (Hd p Hp); reflexivity|exact Hdom].
Qed.
Example evaluation_ex : let s m := mkspecial [fn 2; fn 7] (Some [21#1; 71#1]%Q) (fn 1) (Some 2) m in
  evaluation_function (fun p => inject_Z (Z.of_nat (fst p))) (s ByChance) [[4; 9]] line = Ok (4#1)%Q /\
  evaluation_function (fun p => inject_Z (Z.of_nat (fst p))) (s ByVolume) [[4; 9]] line = Err RuntimeError.
Proof. split; vm_compute; reflexivity. Qed.

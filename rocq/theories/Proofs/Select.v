From Coq Require Import List Arith ZArith QArith Qround Bool Lia.
From Verif.Model Require Import Prelude MultiValue Chain Portfolio Select.
From Verif.Spec Require Import Select.
From Verif.Proofs Require Import MultiValue Portfolio.
From Verif.Props Require Import Portfolio.
Import ListNotations.
Open Scope nat_scope.

Lemma sequential_iff : forall a, sequential a = true <-> one_at_a_time a.
Proof.
  unfold one_at_a_time. intros a; split.
  - destruct a; cbn; intros H; try discriminate H; tauto.
  - intros H. cbn in H. intuition (subst; reflexivity).
Qed.

Lemma bind_ok : forall A B (r : result A) (f : A -> result B) y, bind r f = Ok y -> exists x, r = Ok x /\ f x = Ok y.
Proof. intros A B [x|e] f y H; cbn in H; [eauto | discriminate H]. Qed.

Lemma zip_create_mono : forall f g os is l,
  (forall o i l, In o os -> f o i = Ok l -> g o i = Ok l) ->
  zip_create f os is = Ok l -> zip_create g os is = Ok l.
Proof.
  intros f g os. induction os as [|o os IH]; intros [|i is] l H E; cbn in *; try discriminate E; auto.
  apply bind_ok in E as (x & Hx & E). apply bind_ok in E as (y & Hy & E).
  rewrite (H o i x (or_introl eq_refl) Hx). cbn.
  rewrite (IH is y (fun o' i' l' Hin => H o' i' l' (or_intror Hin)) Hy). exact E.
Qed.

Lemma ceil_div_pos a b : 0 < b -> 1 <= a -> 1 <= ceil_div a b.
Proof. intros B A. destruct (ceil_div_spec a b B). nia. Qed.
Lemma ceil_div_le a b : 0 < b -> ceil_div a b <= a.
Proof. intros B. destruct (ceil_div_spec a b B). nia. Qed.
Lemma qceil_pos x : (0 < x)%Q -> 1 <= qceil x.
Proof.
  intros H. unfold qceil. pose proof (Qle_ceiling x) as C.
  assert (0 < Qceiling x)%Z; [|lia]. apply (Qlt_le_trans _ _ _ H) in C. unfold Qlt in C. cbn in C. lia.
Qed.

Lemma setup_usable nps b nw warmup su : nps <> [] -> 1 <= nw -> 1 <= b ->
  (match warmup with Some r => (0 < r)%Q | None => True end) ->
  portfolio_setup nps (Some b) nw warmup = Ok su ->
  (exists sb, su_sub_budget su = Some sb /\ 1 <= sb) /\ su_workers su = map (fun np : bool => if np then 1 else su_sub_workers su) nps /\
  1 <= su_sub_workers su <= nw.
Proof.
  intros Hne Hnw Hb Hr E. destruct (setup_facts _ _ _ _ _ Hne Hnw E) as (F1 & F2 & _).
  split; [|split; [exact F1|split; [exact F2|]]]; unfold portfolio_setup in E;
    assert (Hlen : 0 < length nps) by (destruct nps; [congruence|cbn; lia]);
    set (non := if nw <=? length nps then 0 else length (filter (fun b => b) nps)) in *;
    destruct (Nat.eqb_spec (length nps - non) 0) as [Hz|Hp]; try discriminate E;
    (match type of E with (if ?c then _ else _) = _ => destruct c; try discriminate E end);
    (match type of E with (if ?c then _ else _) = _ => destruct c; try discriminate E end).
  - destruct warmup as [r|]; injection E as <-; cbn; eexists; (split; [reflexivity|]).
    + pose proof (ceil_div_pos (qceil (inject_Z (Z.of_nat b) * r)) (length nps - non) ltac:(lia)) as P.
      assert (1 <= qceil (inject_Z (Z.of_nat b) * r)); [|lia].
      apply qceil_pos. apply Qmult_lt_0_compat; auto. unfold Qlt; cbn. lia.
    + pose proof (ceil_div_pos b (length nps - non) ltac:(lia)). lia.
  - destruct warmup as [r|]; injection E as <-; cbn [su_sub_workers].
    + destruct (Qeq_bool r 1); [apply ceil_div_le; lia|]. pose proof (ceil_div_le (nw - non) (length nps - non) ltac:(lia)). destruct (ceil_div (nw - non) (length nps - non)); lia.
    + pose proof (ceil_div_le (nw - non) (length nps - non) ltac:(lia)). destruct (ceil_div (nw - non) (length nps - non)); lia.
Qed.

Section WithVars.
  Variable cv : nat -> nat.

  Lemma create_mono1 : forall f o i l, create cv f o i = Ok l -> create cv (Datatypes.S f) o i = Ok l.
  Proof.
    induction f as [|f IH]; intros o i l E; [discriminate E|].
    change (create cv (Datatypes.S (Datatypes.S f)) o i) with
      (match o with
        | Leaf a => if sequential a && (1 <? i_workers i) then Err ValueError else Ok [(a, i_workers i)]
        | Ng v => bind (pick cv v i) (fun o => create cv (Datatypes.S f) o (inner (i_budget i) (i_workers i) i))
        | Chain _ ps os =>
            zip_create (create cv (Datatypes.S f)) os (map (fun b => inner b (i_workers i) i) (chain_budgets (i_budget i) (i_workers i) ps))
        | Mix os warmup =>
            bind (portfolio_setup (map opt_np os) (i_budget i) (i_workers i) warmup) (fun su =>
            zip_create (create cv (Datatypes.S f)) os (map (fun w => inner (su_sub_budget su) w i) (su_workers su)))
        | Meta _ (Some o) => create cv (Datatypes.S f) o (inner (i_budget i) (i_workers i) i)
        | Meta _ None =>
            create cv (Datatypes.S f) (if 1 <? i_dim i then Leaf AElitistCMA else Leaf AOnePlusOne) (inner (i_budget i) (i_workers i) i)
        | Scaled o => create cv (Datatypes.S f) o (inner (i_budget i) (i_workers i) i)
        | CMandAS2 => bind (pick_as2 i) (fun o => create cv (Datatypes.S f) o (inner (i_budget i) (i_workers i) i))
        end).
    destruct o; cbn [create] in E; auto.
    - apply bind_ok in E as (x & Hx & E). rewrite Hx. cbn [bind]. auto.
    - eapply zip_create_mono; [|exact E]. auto.
    - apply bind_ok in E as (x & Hx & E). rewrite Hx. cbn [bind]. eapply zip_create_mono; [|exact E]. auto.
    - destruct base; auto.
    - apply bind_ok in E as (x & Hx & E). rewrite Hx. cbn [bind]. auto.
  Qed.
  Lemma create_mono : forall f g o i l, f <= g -> create cv f o i = Ok l -> create cv g o i = Ok l.
  Proof. intros f g o i l H. induction H; auto using create_mono1. Qed.

  Definition works (k : nat) (o : opt) (i : info) : Prop :=
    exists l, create cv k o i = Ok l /\ sound (i_workers i) l.
  Lemma works_mono : forall j k o i, works j o i -> j <= k -> works k o i.
  Proof. intros j k o i (l & E & S) H. exists l. split; auto. eapply create_mono; eauto. Qed.

  Lemma works_leaf : forall a i, usable i -> (sequential a = true -> i_workers i = 1) -> works 1 (Leaf a) i.
  Proof.
    intros a i (_ & _ & U) H. exists [(a, i_workers i)]. cbn [create].
    destruct (sequential a) eqn:E.
    - rewrite H by auto. split; [reflexivity|]. split; [discriminate|]. intros a' w [W|[]]. injection W as <- <-. lia.
    - split; [reflexivity|]. split; [discriminate|]. intros a' w [W|[]]. injection W as <- <-. split; [lia|].
      intros O. apply sequential_iff in O. congruence.
  Qed.

  Definition same_problem (i j : info) : Prop :=
    i_dim i = i_dim j /\ i_det_params i = i_det_params j /\ i_det i = i_det j /\ i_continuous i = i_continuous j /\
    i_bounded i = i_bounded j.

  Lemma inner_usable : forall b w i, usable i -> 1 <= b -> 1 <= w -> usable (inner (Some b) w i).
  Proof. intros b w i (U & D & W) B H. repeat split; cbn; eauto. Qed.

  Lemma works_inner : forall k o i, works k o (inner (i_budget i) (i_workers i) i) ->
    exists l, create cv k o (inner (i_budget i) (i_workers i) i) = Ok l /\ sound (i_workers i) l.
  Proof. intros k o i (l & E & S). exists l. cbn in S. auto. Qed.

  Lemma usable_inner : forall i, usable i -> usable (inner (i_budget i) (i_workers i) i).
  Proof. intros i ((b & E & B) & D & W). rewrite E. apply inner_usable; auto. repeat split; eauto. Qed.

  Lemma works_ng : forall k v i o, pick cv v i = Ok o -> works k o (inner (i_budget i) (i_workers i) i) ->
    works (Datatypes.S k) (Ng v) i.
  Proof. intros k v i o E H. destruct (works_inner _ _ _ H) as (l & C & S). exists l. cbn [create]. rewrite E. auto. Qed.
  Lemma works_as2 : forall k i o, pick_as2 i = Ok o -> works k o (inner (i_budget i) (i_workers i) i) ->
    works (Datatypes.S k) CMandAS2 i.
  Proof. intros k i o E H. destruct (works_inner _ _ _ H) as (l & C & S). exists l. cbn [create]. rewrite E. auto. Qed.
  Lemma works_scaled : forall k i o, works k o (inner (i_budget i) (i_workers i) i) -> works (Datatypes.S k) (Scaled o) i.
  Proof. intros k i o H. destruct (works_inner _ _ _ H) as (l & C & S). exists l. auto. Qed.
  Lemma works_meta : forall k np i o, works k o (inner (i_budget i) (i_workers i) i) -> works (Datatypes.S k) (Meta np (Some o)) i.
  Proof. intros k np i o H. destruct (works_inner _ _ _ H) as (l & C & S). exists l. auto. Qed.
  Lemma works_meta_model : forall i, usable i -> works 2 meta_model i.
  Proof.
    intros i U.
    destruct (works_inner 1 (if 1 <? i_dim i then Leaf AElitistCMA else Leaf AOnePlusOne) i) as (l & C & S).
    - destruct (1 <? i_dim i); apply works_leaf; auto using usable_inner; intros H; discriminate H.
    - exists l. auto.
  Qed.

  (** several together *)
  Lemma sound_app : forall nw a b, sound nw a -> sound nw b -> sound nw (a ++ b).
  Proof.
    intros nw a b (Ha & Ia) (Hb & Ib). split.
    - destruct a; [congruence|discriminate].
    - intros x w H. apply in_app_or in H as [H|H]; auto.
  Qed.
  Lemma sound_le : forall m n l, m <= n -> sound m l -> sound n l.
  Proof. intros m n l H (N & I). split; auto. intros a w Hin. destruct (I a w Hin) as (B & O). split; [lia|auto]. Qed.
  Lemma zip_works : forall k nw os is,
    Forall2 (fun o i => works k o i /\ i_workers i <= nw) os is -> os <> [] ->
    exists l, zip_create (create cv k) os is = Ok l /\ sound nw l.
  Proof.
    intros k nw os is H. induction H as [|o i os is ((l & E & S) & L) H IH]; intros N; [congruence|].
    cbn [zip_create]. rewrite E. cbn [bind].
    destruct os as [|o' os].
    - inversion H; subst. cbn. exists (l ++ []). rewrite app_nil_r. split; auto. eapply sound_le; eauto.
    - destruct IH as (r & Er & Sr); [discriminate|]. rewrite Er. cbn. exists (l ++ r). split; auto.
      apply sound_app; auto. eapply sound_le; eauto.
  Qed.

  Lemma part_pos : forall b nw p, 1 <= nw -> (forall n, p = Units n -> 1 <= n) -> 1 <= part_budget b nw p.
  Proof. intros b nw [| | | | |n] H HU; unfold part_budget; try apply Nat.le_max_l. apply HU; reflexivity. Qed.

  Lemma chain_infos : forall ps i, usable i ->
    (forall n, In (Units n) ps -> 1 <= n) ->
    Forall (fun j => usable j /\ i_workers j = i_workers i)
      (map (fun b => inner b (i_workers i) i) (chain_budgets (i_budget i) (i_workers i) ps)).
  Proof.
    intros ps i U HU. apply Forall_forall. intros j Hj. apply in_map_iff in Hj as (b & <- & Hb).
    split; [|reflexivity].
    pose proof U as ((b0 & E & B) & D & W).
    unfold chain_budgets in Hb. rewrite E in Hb. apply in_app_or in Hb as [Hb|[<-|[]]].
    - apply in_map_iff in Hb as (x & <- & Hx). apply in_map_iff in Hx as (p & <- & Hp).
      apply inner_usable; auto. apply part_pos; auto. intros n ->. eauto.
    - cbn [option_map]. apply inner_usable; auto. lia.
  Qed.

  Lemma works_chain : forall k np ps os i, usable i -> (forall n, In (Units n) ps -> 1 <= n) ->
    length os = Datatypes.S (length ps) ->
    (forall o j, In o os -> usable j -> i_workers j = i_workers i -> works k o j) ->
    works (Datatypes.S k) (Chain np ps os) i.
  Proof.
    intros k np ps os i U HU L H. unfold works. cbn [create]. apply zip_works.
    - pose proof (chain_infos ps i U HU) as F.
      assert (LL : length (map (fun b => inner b (i_workers i) i) (chain_budgets (i_budget i) (i_workers i) ps)) = length os).
      { unfold chain_budgets. rewrite map_length, app_length, !map_length. cbn. lia. }
      revert LL F. generalize (map (fun b => inner b (i_workers i) i) (chain_budgets (i_budget i) (i_workers i) ps)) as is.
      clear L. revert H. induction os as [|o os IH]; intros H [|j is] LL F; try discriminate LL; constructor.
      + inversion F; subst. destruct H2. split; [|lia]. apply H; cbn; auto.
      + inversion F; subst. apply IH; auto. intros; apply H; cbn; auto.
    - destruct os; [discriminate L|discriminate].
  Qed.

  Lemma works_mix : forall k os warmup i, usable i -> os <> [] ->
    (match warmup with Some r => (0 < r)%Q | None => True end) ->
    (exists o, In o os /\ opt_np o = false) \/ i_workers i <= length os ->
    (forall o j, In o os -> usable j -> i_workers j <= i_workers i -> (opt_np o = true -> i_workers j = 1) -> works k o j) ->
    works (Datatypes.S k) (Mix os warmup) i.
  Proof.
    intros k os warmup i U N R P H. unfold works. cbn [create].
    pose proof U as ((b & E & B) & D & W). rewrite E.
    assert (Hne : map opt_np os <> []) by (destruct os; [congruence|discriminate]).
    destruct (portfolio_setup (map opt_np os) (Some b) (i_workers i) warmup) as [su|e] eqn:Es.
    - cbn [bind]. destruct (setup_usable _ _ _ _ _ Hne W B R Es) as ((sb & Esb & Hsb) & Ew & Hsw).
      rewrite Esb, Ew, !map_map. apply zip_works; auto.
      clear Es Ew Hne P N. induction os as [|o os IH]; constructor.
      + split.
        * apply H; cbn; auto.
          -- apply inner_usable; auto. destruct (opt_np o); lia.
          -- destruct (opt_np o); lia.
          -- intros ->. reflexivity.
        * cbn. destruct (opt_np o); lia.
      + apply IH. intros; apply H; cbn; auto.
    - exfalso. destruct (C70_setup_errors _ _ _ _ _ Hne W Es) as [(_ & F & L)|(_ & _ & Hb)]; [|discriminate Hb].
      rewrite map_length in L. destruct P as [(o & Ho & Hf)|P]; [|lia].
      rewrite Forall_forall in F. specialize (F (opt_np o) (in_map _ _ _ Ho)). congruence.
  Qed.

  (** ** Good for up to [nw] workers *)
  Definition good (k nw : nat) (o : opt) : Prop := forall j, usable j -> i_workers j <= nw -> works k o j.
  Definition picks (k : nat) (r : result opt) (i : info) : Prop := exists o, r = Ok o /\ good k (i_workers i) o.

  Lemma good_mono : forall j k nw o, good j nw o -> j <= k -> good k nw o.
  Proof. intros j k nw o H L i U W. eapply works_mono; eauto. Qed.
  Lemma good_leaf : forall nw a, sequential a = false -> good 1 nw (Leaf a).
  Proof. intros nw a H j U W. apply works_leaf; auto. congruence. Qed.
  Lemma good_seq : forall nw a, nw = 1 -> good 1 nw (Leaf a).
  Proof. intros nw a -> j U W. apply works_leaf; auto. intros _. destruct U as (_ & _ & U). lia. Qed.
  Lemma good_meta_model : forall nw, good 2 nw meta_model.
  Proof. intros nw j U W. apply works_meta_model; auto. Qed.
  Lemma good_meta : forall k nw np o, good k nw o -> good (Datatypes.S k) nw (Meta np (Some o)).
  Proof. intros k nw np o H j U W. apply works_meta. apply H; auto using usable_inner. Qed.
  Lemma good_scaled : forall k nw o, good k nw o -> good (Datatypes.S k) nw (Scaled o).
  Proof. intros k nw o H j U W. apply works_scaled. apply H; auto using usable_inner. Qed.
  Lemma good_chain : forall k nw np ps os, (forall n, In (Units n) ps -> 1 <= n) -> length os = Datatypes.S (length ps) ->
    Forall (good k nw) os -> good (Datatypes.S k) nw (Chain np ps os).
  Proof.
    intros k nw np ps os P L F j U W. apply works_chain; auto. intros o j' Ho U' W'. rewrite Forall_forall in F.
    apply F; auto. lia.
  Qed.
  Lemma good_mix : forall k nw os warmup, os <> [] -> (match warmup with Some r => (0 < r)%Q | None => True end) ->
    (exists o, In o os /\ opt_np o = false) -> Forall (good k nw) os -> good (Datatypes.S k) nw (Mix os warmup).
  Proof.
    intros k nw os warmup N R P F j U W. apply works_mix; auto. intros o j' Ho U' W' _. rewrite Forall_forall in F.
    apply F; auto. lia.
  Qed.
  Lemma good_ng : forall k nw v, (forall i, usable i -> picks k (pick cv v i) i) -> good (Datatypes.S k) nw (Ng v).
  Proof.
    intros k nw v H j U W. destruct (H j U) as (o & E & G). apply works_ng with (o := o); [exact E|].
    apply G; auto using usable_inner.
  Qed.
  Lemma picks_mono : forall j k r i, picks j r i -> j <= k -> picks k r i.
  Proof. intros j k r i (o & E & G) L. exists o. split; auto. eapply good_mono; eauto. Qed.
  Lemma picks_intro : forall j k o i, good j (i_workers i) o -> j <= k -> picks k (Ok o) i.
  Proof. intros j k o i G L. exists o. split; auto. eapply good_mono; eauto. Qed.

  Lemma good_as2 : forall nw, good 4 nw CMandAS2.
  Proof.
    intros nw j U W.
    assert (exists o, pick_as2 j = Ok o /\ good 3 nw o) as (o & E & G).
    { destruct U as ((b & E & B) & _). unfold pick_as2. rewrite E.
      assert (M : forall os w, os <> [] -> (0 < w)%Q -> Forall (fun o => opt_np o = false /\ good 2 nw o) os -> good 3 nw (Mix os (Some w))).
      { intros os w N P F. apply good_mix; auto.
        - destruct os as [|o os]; [congruence|]. exists o. inversion F; subst. cbn. tauto.
        - eapply Forall_impl; [|exact F]. intros a (_ & G). exact G. }
      destruct (_ || _); [|destruct (b <? 201)]; (eexists; split; [reflexivity|]); apply M; try discriminate; try reflexivity;
        repeat constructor; auto using good_meta_model; eapply good_mono; try (apply good_leaf; reflexivity); lia. }
    apply works_as2 with (o := o); [exact E|]. apply G; auto using usable_inner.
  Qed.

  Ltac bools := repeat match goal with
    | H : _ && _ = true |- _ => apply andb_true_iff in H as [? ?]
    | H : (_ =? _) = true |- _ => apply Nat.eqb_eq in H
    end.
  (** the branch is a leaf, or given by one of the lemmas on compound choices *)
  Ltac leaf := eapply picks_intro; [solve [apply good_leaf; reflexivity | apply good_seq; bools; assumption | apply good_meta_model | apply good_as2]|lia].
  Ltac branch := match goal with |- picks _ (if ?c then _ else _) _ => let E := fresh "B" in destruct c eqn:E end.

  Lemma metacma_picks : forall i, usable i -> picks 1 (pick_metacma i) i.
  Proof. intros i ((b & E & B) & _). unfold pick_metacma. rewrite E. repeat branch; leaf. Qed.
  Lemma good_metacma : forall nw, good 2 nw (Ng VMetaCMA).
  Proof. intros nw. apply good_ng. exact metacma_picks. Qed.

  Ltac chain := apply good_chain; [cbn; intros ? [N|N]; try discriminate N; intuition (try discriminate; try (match goal with H : Units _ = Units _ |- _ => injection H as <- end); lia) | reflexivity |].
  Ltac members := repeat apply Forall_cons; try apply Forall_nil;
    (eapply good_mono; [solve [apply good_leaf; reflexivity | apply good_seq; assumption | apply good_meta_model | apply good_metacma]|lia]).
  Lemma good_chain_cma_powell : forall nw, nw = 1 -> good 3 nw chain_cma_powell.
  Proof. intros nw H. chain. members. Qed.
  Lemma good_chain_ds_powell : forall nw, nw = 1 -> good 3 nw chain_ds_powell.
  Proof. intros nw H. chain. members. Qed.
  Lemma good_chain_meta_powell : forall nw, nw = 1 -> good 3 nw chain_meta_powell.
  Proof. intros nw H. chain. members. Qed.
  Lemma good_chain_tbpsa : forall nw, nw = 1 -> good 3 nw chain_tbpsa_cma_powell.
  Proof. intros nw H. chain. members. Qed.
  Lemma good_carola2 : forall nw, nw = 1 -> good 3 nw carola2.
  Proof. intros nw H. chain. members. Qed.
  Lemma good_genetic_de : forall nw, good 2 nw genetic_de.
  Proof. intros nw. chain. members. Qed.
  Lemma good_three : forall nw, good 3 nw (Mix [Leaf ADiagonalCMA; Leaf APSO; genetic_de] None).
  Proof.
    intros nw. apply good_mix; try discriminate; auto.
    - exists (Leaf APSO). cbn. auto.
    - apply Forall_cons; [eapply good_mono; [apply good_leaf; reflexivity|lia]|].
      apply Forall_cons; [eapply good_mono; [apply good_leaf; reflexivity|lia]|].
      apply Forall_cons; [apply good_genetic_de|apply Forall_nil].
  Qed.
  Lemma good_noisy_mix : forall nw, good 4 nw noisy_mix.
  Proof.
    intros nw. chain. apply Forall_cons; [|members]. apply good_three.
  Qed.
  Ltac leaf ::= eapply picks_intro; [solve [apply good_leaf; reflexivity | apply good_seq; bools; assumption | apply good_meta_model
    | apply good_as2 | apply good_metacma | apply good_chain_tbpsa; bools; assumption | apply good_chain_meta_powell; bools; assumption
    | apply good_noisy_mix | apply good_carola2; bools; assumption]|lia].

  Lemma base_picks : forall noisy oc om i, usable i -> good 3 (i_workers i) oc -> (i_workers i = 1 -> good 3 (i_workers i) om) ->
    picks 3 (pick_base noisy oc om i) i.
  Proof.
    intros noisy oc om i ((b & E & B) & _) Hc Hm. unfold pick_base. rewrite E. repeat branch; try leaf.
    - eapply picks_intro; [exact Hc|lia].
    - eapply picks_intro; [apply Hm; bools; assumption|lia].
  Qed.

  Lemma pick4_picks : forall i, usable i -> picks 4 (pick4 i) i.
  Proof.
    intros i U. pose proof U as ((b & E & B) & _). unfold pick4. rewrite E. repeat branch; try leaf.
    - match goal with H : noise_from_params i || _ = false |- _ => apply orb_false_iff in H as [_ H]; apply Nat.ltb_ge in H end.
      assert (i_workers i = 1) by (destruct U as (_ & _ & U); lia). leaf.
    - apply (picks_intro 3); [chain; members|lia].
  Qed.
  Lemma pick8_picks : forall i, usable i -> picks 4 (pick8 i) i.
  Proof. intros i U. pose proof U as ((b & E & B) & _). unfold pick8. rewrite E. repeat branch; try leaf; apply pick4_picks; auto. Qed.
  Lemma pick10_picks : forall i, usable i -> picks 4 (pick10 i) i.
  Proof. intros i U. unfold pick10. branch; [leaf|apply pick8_picks; auto]. Qed.
  Lemma pick12_picks : forall i, usable i -> picks 4 (pick12 cv i) i.
  Proof. intros i U. unfold pick12. cbv zeta. repeat branch; try leaf. apply pick10_picks; auto. Qed.
  Lemma pick13_picks : forall i, usable i -> picks 4 (pick13 cv i) i.
  Proof. intros i U. unfold pick13. repeat branch; try leaf. apply pick12_picks; auto. Qed.
  Lemma pick14_picks : forall i, usable i -> picks 4 (pick14 cv i) i.
  Proof. intros i U. unfold pick14. repeat branch; try leaf. apply pick12_picks; auto. Qed.
  Lemma pick15_picks : forall i, usable i -> picks 4 (pick15 cv i) i.
  Proof.
    intros i U. unfold pick15. repeat branch; try leaf; [|apply pick12_picks; auto].
    eapply picks_intro; [apply good_meta, good_leaf; reflexivity|lia].
  Qed.
  Lemma pick16_picks : forall i, usable i -> picks 4 (pick16 cv i) i.
  Proof. intros i U. unfold pick16. repeat branch; try leaf. apply pick15_picks; auto. Qed.

  Lemma good_v14 : forall nw, good 5 nw (Ng V14).
  Proof. intros nw. apply good_ng. exact pick14_picks. Qed.
  Lemma good_v15 : forall nw, good 5 nw (Ng V15).
  Proof. intros nw. apply good_ng. exact pick15_picks. Qed.
  Lemma good_v16 : forall nw, good 5 nw (Ng V16).
  Proof. intros nw. apply good_ng. exact pick16_picks. Qed.
  Lemma good_v8 : forall nw, good 5 nw (Ng V8).
  Proof. intros nw. apply good_ng. exact pick8_picks. Qed.
  Lemma good_repeat : forall k nw o n w, 1 <= n -> opt_np o = false -> (0 < w)%Q -> good k nw o ->
    good (Datatypes.S k) nw (Mix (repeat o n) (Some w)).
  Proof.
    intros k nw o n w N F W G. apply good_mix; auto.
    - destruct n; [lia|discriminate].
    - exists o. split; auto. destruct n; [lia|]. left; reflexivity.
    - apply Forall_forall. intros x Hx. apply repeat_spec in Hx. subst. exact G.
  Qed.
  Lemma good_restarts : forall nw n, 1 <= n -> good 7 nw (restarts n).
  Proof. intros nw n N. apply good_repeat; auto; [reflexivity|]. apply good_scaled, good_v14. Qed.
  Lemma restarts_picks : forall n i, usable i -> 1 <= n -> picks 7 (pick_restarts cv n i) i.
  Proof.
    intros n i U N. unfold pick_restarts. branch.
    - eapply picks_intro; [apply good_restarts; exact N|lia].
    - eapply picks_mono; [apply pick16_picks; exact U|lia].
  Qed.
  Lemma good_v21 : forall nw, good 8 nw (Ng V21).
  Proof. intros nw. apply good_ng. intros i U. apply restarts_picks; auto. unfold num21. destruct (i_budget i); lia. Qed.
  Lemma good_v36 : forall nw, good 8 nw (Ng V36).
  Proof. intros nw. apply good_ng. intros i U. apply restarts_picks; auto. unfold num36. destruct (i_budget i); lia. Qed.
  Lemma num_dim10_pos : forall i, 1 <= num_dim10 i.
  Proof. intros i. unfold num_dim10. destruct (i_budget i); lia. Qed.
  Lemma num_dim20_pos : forall i, usable i -> with_budget i (fun b => 500 * i_dim i <? b) = true -> 1 <= num_dim20 i.
  Proof.
    intros i ((b & E & B) & D & _) H. unfold num_dim20, with_budget in *. rewrite E in *. apply Nat.ltb_lt in H.
    apply Nat.div_le_lower_bound; lia.
  Qed.
  Ltac ng := eapply picks_intro; [solve [apply good_v14 | apply good_v15 | apply good_v16 | apply good_v8 | apply good_v21 | apply good_v36
    | apply good_repeat; [apply num_dim10_pos | reflexivity | reflexivity | apply good_v14]
    | apply good_restarts, num_dim20_pos; bools; auto | apply good_meta, good_seq; bools; assumption ]|lia].

  Lemma pick38_picks : forall i, usable i -> picks 8 (pick38 cv i) i.
  Proof.
    intros i U. unfold pick38. cbv zeta. repeat branch; try ng; try (destruct (i_dim i <? 3); ng).
    eapply picks_mono; [apply pick16_picks; exact U|lia].
  Qed.
  Lemma bounded_picks : forall r i, usable i -> picks 8 r i -> picks 8 (pick39_bounded cv r i) i.
  Proof. intros r i U H. unfold pick39_bounded. cbv zeta. repeat branch; try ng; try leaf. exact H. Qed.
  Lemma pick39_picks : forall i, usable i -> picks 8 (pick39 cv i) i.
  Proof. intros i U. unfold pick39. branch; [leaf|]. apply bounded_picks; auto. ng. Qed.
  Lemma pick_wiz_picks : forall i, usable i -> picks 8 (pick_wiz cv i) i.
  Proof.
    intros i U. unfold pick_wiz. cbv zeta. repeat branch; try leaf. apply bounded_picks; auto.
    eapply picks_mono; [apply pick16_picks; exact U|lia].
  Qed.
  Lemma pickRW_picks : forall i, usable i -> picks 9 (pickRW cv i) i.
  Proof.
    intros i U. unfold pickRW. destruct (pick39_picks i U) as (o & Eo & G). pose proof U as ((b & E & B) & _).
    assert (P : picks 9 (pick39 cv i) i) by (eapply picks_mono; [apply pick39_picks; exact U|lia]).
    branch; [|exact P]. rewrite E. branch; [|exact P]. rewrite Eo. cbn [bind].
    eapply picks_intro; [|apply Nat.le_refl]. apply good_mix; try discriminate; try reflexivity.
    - exists (Leaf APSO). cbn. auto.
    - apply Forall_cons; [eapply good_mono; [apply good_genetic_de|lia]|].
      apply Forall_cons; [eapply good_mono; [apply good_leaf; reflexivity|lia]|].
      apply Forall_cons; [exact G|apply Forall_nil].
  Qed.

  Lemma every_picks : forall v i, usable i -> picks 9 (pick cv v i) i.
  Proof.
    intros v i U. destruct v; unfold pick.
    - eapply picks_mono; [apply metacma_picks; exact U|lia].
    - eapply picks_mono; [apply base_picks; auto|lia]. { eapply good_mono; [apply good_leaf; reflexivity|lia]. } apply good_chain_cma_powell.
    - eapply picks_mono; [apply base_picks; auto|lia]. { chain. members. } apply good_chain_ds_powell.
    - unfold pick_shiwa. repeat branch; try leaf. eapply picks_intro; [|shelve]. apply good_ng. intros j Uj. unfold pick.
      apply base_picks; auto. { eapply good_mono; [apply good_leaf; reflexivity|lia]. } apply good_chain_cma_powell. Unshelve. lia.
    - eapply picks_mono; [apply pick4_picks; exact U|lia].
    - eapply picks_mono; [apply pick8_picks; exact U|lia].
    - eapply picks_mono; [apply pick10_picks; exact U|lia].
    - eapply picks_mono; [apply pick12_picks; exact U|lia].
    - eapply picks_mono; [apply pick13_picks; exact U|lia].
    - eapply picks_mono; [apply pick14_picks; exact U|lia].
    - eapply picks_mono; [apply pick15_picks; exact U|lia].
    - eapply picks_mono; [apply pick16_picks; exact U|lia].
    - eapply picks_mono; [apply restarts_picks; [exact U|]|lia]. unfold num21. destruct (i_budget i); lia.
    - eapply picks_mono; [apply restarts_picks; [exact U|]|lia]. unfold num36. destruct (i_budget i); lia.
    - eapply picks_mono; [apply pick38_picks; exact U|lia].
    - eapply picks_mono; [apply pick39_picks; exact U|lia].
    - apply pickRW_picks; exact U.
    - eapply picks_mono; [apply pick_wiz_picks; exact U|lia].
  Qed.

  Lemma every_works : forall v i, usable i -> works 10 (Ng v) i.
  Proof.
    intros v i U. destruct (every_picks v i U) as (o & E & G). eapply works_ng; [exact E|].
    apply G; auto using usable_inner.
  Qed.
End WithVars.

(** ** Dimension 1 *)
Definition plain (o : opt) : Prop :=
  match o with
  | Leaf a => ~ cma_es a
  | Meta _ None => True
  | Meta _ (Some (Leaf a)) => ~ cma_es a
  | _ => False
  end.
Ltac noncma := let H := fresh in intros H; cbn in H; repeat (destruct H as [H|H]; [discriminate H|]); exact H.
Lemma plain_create : forall cv k o i l, plain o -> i_dim i = 1 -> create cv k o i = Ok l -> forall a w, In (a, w) l -> ~ cma_es a.
Proof.
  intros cv [|[|k]] o i l P D E a w Hin; try discriminate E.
  - destruct o as [b| | | |np [b|]| |]; try solve [elim P]; try discriminate E.
    cbn [create] in E. destruct (sequential b && _); [discriminate E|]. injection E as <-. destruct Hin as [H|[]].
    injection H as <- _. exact P.
  - destruct o as [b| | | |np [b|]| |]; try solve [elim P].
    + cbn [create] in E. destruct (sequential b && _); [discriminate E|]. injection E as <-. destruct Hin as [H|[]].
      injection H as <- _. exact P.
    + destruct b; try solve [elim P]. cbn [create inner i_workers] in E.
      destruct (sequential a0 && _); [discriminate E|]. injection E as <-. destruct Hin as [H|[]].
      injection H as <- _. exact P.
    + cbn [create inner i_workers] in E. rewrite D in E. cbn [Nat.ltb Nat.leb sequential andb] in E.
      injection E as <-. destruct Hin as [H|[]]. injection H as <- _. noncma.
Qed.

Ltac pbranch := match goal with |- (if ?c then _ else _) = Ok _ -> _ => let E := fresh "B" in destruct c eqn:E end.
Ltac pdone := intros P; injection P as <-; solve [exact I | noncma].

Lemma pick4_plain : forall i b o, i_budget i = Some b -> 1 < b -> i_dim i = 1 -> 1 <= i_workers i -> has_noise i = false ->
  (arity i <= 0)%Z -> (crowded5 (i_workers i) b = true -> 500 <= b) -> pick4 i = Ok o -> plain o.
Proof.
  intros i b o E B D W N A C. unfold pick4. rewrite E, D, N. cbn [andb].
  assert (A' : (0 <? arity i)%Z = false) by (apply Z.ltb_ge; exact A). rewrite A'.
  pbranch; [pdone|]. destruct (crowded5 (i_workers i) b) eqn:EC.
  - specialize (C eq_refl).
    pbranch; [pdone|]. replace (b <? 100) with false by (symmetry; apply Nat.ltb_ge; lia).
    replace (b <? 500) with false by (symmetry; apply Nat.ltb_ge; lia). cbn [Nat.ltb Nat.leb andb]. pdone.
  - rewrite (andb_false_r _ : _ && (7 <? 1) = false). change (30 <? 1) with false. change (1 <? 5) with true. pbranch; [pdone|].
    change (2000 <? 1) with false. change (1 <? 10) with true. change (40 <? 1) with false. cbn [andb]. pbranch; [pdone|].
    replace (1 * 1 <? 3 * i_workers i) with true by (symmetry; apply Nat.ltb_lt; lia).
    replace (1 * 1 <? b) with true by (symmetry; apply Nat.ltb_lt; lia). cbn [andb]. pdone.
Qed.
Lemma pick8_plain : forall i b o, i_budget i = Some b -> 1 < b -> i_dim i = 1 -> 1 <= i_workers i -> has_noise i = false ->
  (arity i <= 0)%Z -> (crowded5 (i_workers i) b = true -> 500 <= b) -> pick8 i = Ok o -> plain o.
Proof.
  intros i b o E B D W N A C. unfold pick8. rewrite E, D, N. cbn [andb].
  assert (A' : (0 <? arity i)%Z = false) by (apply Z.ltb_ge; exact A). rewrite A'.
  rewrite (andb_false_r _ : (i_workers i =? 1) && (6000 <? b) && (7 <? 1) = false). rewrite andb_false_r. cbn [andb].
  apply pick4_plain with (b := b); auto.
Qed.
Lemma pick16_plain : forall cv i o, usable i -> i_dim i = 1 -> has_noise i = false -> pick16 cv i = Ok o -> plain o.
Proof.
  intros cv i o ((b & E & B) & _ & W) D N. unfold pick16. pbranch; [pdone|]. unfold pick15. pbranch; [pdone|]. pbranch; [pdone|].
  unfold pick12. cbv zeta. pbranch; [pdone|]. pbranch; [pdone|]. unfold pick10. pbranch; [pdone|].
  rewrite N in B5. cbn [negb andb] in B5. apply Z.ltb_ge in B5.
  unfold with_budget in B2. rewrite E in B2.
  destruct (i_continuous i) eqn:Ec.
  - cbn [andb] in B2. apply Nat.ltb_ge in B2. intros P. apply pick8_plain with (b := b) (i := i); auto; lia.
  - intros P. unfold pick8 in P. rewrite E, N in P. cbn [andb] in P.
    assert (A' : (0 <? arity i)%Z = false) by (apply Z.ltb_ge; exact B5). rewrite A', D in P.
    rewrite (andb_false_r _ : (i_workers i =? 1) && (6000 <? b) && (7 <? 1) = false), andb_false_r in P. cbn [andb] in P.
    unfold pick4 in P. rewrite E, N, A', Ec in P. cbn [andb negb] in P. rewrite orb_true_r in P. injection P as <-. noncma.
Qed.

(** ** NGOpt in dimension 1, without noise *)
Lemma v39_plain : forall cv k i l, cv 1 = 4 -> usable i -> i_dim i = 1 -> has_noise i = false ->
  create cv k (Ng V39) i = Ok l -> forall a w, In (a, w) l -> ~ cma_es a.
Proof.
  intros cv k i l C U D N E a w Hin.
  destruct k as [|k]; [discriminate E|]. cbn [create] in E. apply bind_ok in E as (o & Po & E).
  set (j := inner (i_budget i) (i_workers i) i) in *.
  assert (Uj : usable j) by (apply usable_inner; exact U).
  assert (O : o = Ng V16 \/ o = Ng V8 /\ exists b, i_budget i = Some b /\ 50 < b /\ i_workers i <= 4 /\ i_continuous i = true).
  { unfold pick, pick39 in Po. rewrite N, andb_false_r in Po. unfold pick39_bounded in Po. rewrite D in Po. cbv zeta in Po.
    change (1 =? 1) with true in Po. change (1 <? 3) with true in Po. cbv iota in Po.
    destruct (_ && _ && (i_workers i <=? _)) in Po; [injection Po as <-; auto|].
    destruct (_ && _ && (i_workers i <=? _)) eqn:B2 in Po; [|injection Po as <-; auto].
    injection Po as <-. right. split; [reflexivity|].
    apply andb_true_iff in B2 as [B2 W]. apply andb_true_iff in B2 as [B2 V].
    destruct U as ((b & Eb & _) & _). exists b. unfold with_budget in B2. rewrite Eb in *. apply Nat.ltb_lt in B2.
    rewrite C in W. apply Nat.leb_le in W. repeat (apply andb_true_iff in V as [V ?]). repeat split; auto. }
  destruct k as [|k]; [destruct O as [->|[-> _]]; discriminate E|].
  destruct O as [->|(-> & b & Eb & Hb & Hw & Hc)]; cbn [create] in E; apply bind_ok in E as (o' & Po' & E); unfold pick in Po'.
  - eapply plain_create; [| |exact E|exact Hin]; [|exact D].
    eapply pick16_plain; [exact Uj| |exact N|exact Po']. exact D.
  - eapply plain_create; [| |exact E|exact Hin]; [|exact D].
    apply pick8_plain with (b := b) (i := j); auto; cbn.
    + lia.
    + destruct U as (_ & _ & U). exact U.
    + unfold arity. cbn. rewrite Hc. lia.
    + unfold crowded5. intros H. apply Nat.ltb_lt in H. lia.
Qed.

(** ** NGOpt without a budget *)
Lemma create_chain : forall cv k np ps os i, create cv (Datatypes.S k) (Chain np ps os) i =
  zip_create (create cv k) os (map (fun b => inner b (i_workers i) i) (chain_budgets (i_budget i) (i_workers i) ps)).
Proof. reflexivity. Qed.
Lemma create_ng : forall cv k v i, create cv (Datatypes.S k) (Ng v) i =
  bind (pick cv v i) (fun o => create cv k o (inner (i_budget i) (i_workers i) i)).
Proof. reflexivity. Qed.
Lemma create_leaf : forall cv k a i, create cv (Datatypes.S k) (Leaf a) i =
  if sequential a && (1 <? i_workers i) then Err ValueError else Ok [(a, i_workers i)].
Proof. reflexivity. Qed.
Lemma noisy_no_budget : forall cv i, 1 <= i_dim i -> 1 <= i_workers i -> i_budget i = None -> works cv 4 noisy_mix i.
Proof.
  intros cv i D W B. unfold works, noisy_mix. rewrite create_chain, B. unfold chain_budgets, part_budget. cbn [map app option_map].
  apply zip_works; [|discriminate].
  constructor; [|constructor; [|constructor]].
  - split; [|apply Nat.le_refl]. apply good_three with (nw := i_workers i); [|apply Nat.le_refl].
    split; [|split; assumption]. eexists. split; [reflexivity|lia].
  - split; [|apply Nat.le_refl]. eexists. split; [reflexivity|]. split; [discriminate|].
    intros a w [H|[]]. injection H as <- <-. split; [cbn; lia|]. intros O. cbn in O. repeat (destruct O as [O|O]; [discriminate O|]). contradiction.
Qed.
Lemma pick16_no_budget : forall cv i, i_budget i = None ->
  pick16 cv i = if negb (has_noise i) && (0 <? arity i)%Z then Ok (Leaf ALengler) else Err AssertionError.
Proof.
  intros cv i B. unfold pick16, pick15, pick12, with_budget. rewrite B. cbn [andb]. rewrite !andb_false_r. unfold pick10, pick8. rewrite B.
  reflexivity.
Qed.

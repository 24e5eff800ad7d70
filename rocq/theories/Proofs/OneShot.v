(** Proofs about the one-shot optimizers *)
From Coq Require Import List Arith ZArith QArith Bool Lia Lqa Permutation.
From Verif.Model Require Import Prelude MultiValue Float Optimizer OneShot.
From Verif.Model Require Nsga2 Sequences.
From Verif.Spec Require Import Optimizer OneShot.
From Verif.Spec Require Cma Spsa.
From Verif.Proofs Require Import Optimizer.
From Verif.Proofs Require Cma Delegate.
Import ListNotations.
Open Scope nat_scope.

Section Asks.
  Variable cfg : config.
  Variable point : nat -> list Q.
  Variable factor : nat -> Q.
  Variable budget : option nat.
  Notation B := (match o_kind cfg with Random => None | Sampling => sampler_budget cfg budget end).
  Notation smp := (Sequences.mksampler B).
  Definition used (m : opposition) (j : nat) : nat := match m with Opposite => 0 | _ => j end.
  Definition in_budget (j : nat) : Prop := match B with Some b => j < b | None => True end.
  Definition below (mid : bool) (n : nat) : Prop :=
    match capacity cfg mid budget with Some c => n < c | None => True end.

  Inductive at_ (mid : bool) : nat -> one_shot -> Prop :=
  | at_start : at_ mid 0 (OneShot None (smp 0) 0)
  | at_plain : forall k o f, o_mode cfg = None -> at_ mid (k + if mid then 1 else 0) (OneShot o (smp k) f)
  | at_even : forall j m, o_mode cfg = Some m -> o_kind cfg = Sampling ->
      at_ mid (2 * j + if mid then 1 else 0) (OneShot None (smp j) (used m j))
  | at_odd : forall j m, o_mode cfg = Some m -> o_kind cfg = Sampling -> in_budget j ->
      at_ mid (2 * j + 1 + if mid then 1 else 0) (OneShot (Some (point j)) (smp (S j)) (used m j))
  | at_rmid : forall m, o_mode cfg = Some m -> o_kind cfg = Random -> mid = true ->
      at_ mid 1 (OneShot (Some (repeat 0%Q (o_dim cfg))) (smp 0) 0)
  | at_reven : forall j m, o_mode cfg = Some m -> o_kind cfg = Random ->
      at_ mid (2 * j + if mid then 2 else 0) (OneShot None (smp j) (used m (j + if mid then 1 else 0)))
  | at_rodd : forall j m, o_mode cfg = Some m -> o_kind cfg = Random ->
      at_ mid (2 * j + 1 + if mid then 2 else 0)
        (OneShot (Some (point j)) (smp (S j)) (used m (j + if mid then 1 else 0))).

  Lemma opposed_spec m (st : one_shot) data : forall st' x,
    opposed factor m st data = (st', x) -> 
    opposite_of (mode_factor m factor (os_factors st)) data x /\
    st' = OneShot None (os_sampler st) (match m with Opposite => os_factors st | _ => S (os_factors st) end).
  Proof.
    intros st' x. unfold opposed, opposite_of.
    assert (G : forall f, Forall2 (fun a b : Q => (b == - (f * a))%Q) data (map (fun z => z * - f)%Q data)).
    { intros f. induction data as [|a data IH]; constructor; [ring|exact IH]. }
    destruct m; intros [= <- <-]; cbn; split; auto.
  Qed.

  Lemma fresh_spec i o f : forall st' r, fresh point (OneShot o (smp i) f) = (st', r) ->
    (in_budget i /\ r = Ok (point i) /\ st' = OneShot (Some (point i)) (smp (S i)) f) \/
    (~ in_budget i /\ r = Err AssertionError /\ st' = OneShot o (smp i) f).
  Proof.
    intros st' r. unfold fresh, Sequences.call, in_budget. cbn [os_sampler os_opposable os_factors Sequences.budget Sequences.index].
    destruct B as [b|].
    - destruct (Nat.ltb_spec i b); intros [= <- <-]; [left|right]; auto. repeat split; auto. lia.
    - intros [= <- <-]. left. auto.
  Qed.

  Lemma capacity_plain mid k : o_mode cfg = None -> (in_budget k <-> below mid (k + if mid then 1 else 0)).
  Proof.
    intros Hm. unfold in_budget, below, capacity, sampler_budget. rewrite Hm.
    destruct (o_kind cfg); [tauto|]. destruct budget as [b|]; [|tauto].
    destruct mid; split; intros; lia.
  Qed.
  Lemma half b : (b + 1) / 2 * 2 = b + b mod 2.
  Proof.
    pose proof (Nat.div_mod b 2). pose proof (Nat.mod_upper_bound b 2).
    pose proof (Nat.div_mod (b + 1) 2). pose proof (Nat.mod_upper_bound (b + 1) 2). lia.
  Qed.
  Lemma capacity_pair mid j m : o_mode cfg = Some m ->
    (in_budget j <-> below mid (2 * j + if mid then 1 else 0)) /\
    (in_budget j -> below mid (2 * j + 1 + if mid then 1 else 0)).
  Proof.
    intros Hm. unfold in_budget, below, capacity, sampler_budget. rewrite Hm.
    destruct (o_kind cfg); [tauto|]. destruct budget as [b|]; [|tauto].
    set (n := b - (if o_middle cfg then 1 else 0)). pose proof (half n) as Hh.
    destruct (Nat.eqb_spec n 0) as [En|En].
    - rewrite En. cbn. destruct mid; split; intros; lia.
    - destruct mid; split; intros; lia.
  Qed.
  Lemma middle_below : below true 0.
  Proof. unfold below, capacity. destruct (o_kind cfg); [easy|]. destruct budget; [lia|easy]. Qed.
  Lemma random_below mid n : o_kind cfg = Random -> below mid n.
  Proof. intros H. unfold below, capacity. now rewrite H. Qed.
  Lemma random_in_budget n : o_kind cfg = Random -> in_budget n.
  Proof. intros H. unfold in_budget. now rewrite H. Qed.

  Lemma internal_ask_step mid n num st st' r : at_ mid n st ->
    (o_middle cfg && (num =? 0))%bool = (mid && (n =? 0))%bool ->
    internal_ask cfg point factor num st = (st', r) ->
    match r with
    | Ok x => at_ mid (S n) st' /\ design cfg mid point factor n x /\ below mid n
    | Err e => st' = st /\ e = AssertionError /\ ~ below mid n
    end.
  Proof.
    intros Hat Hmid. unfold internal_ask. rewrite Hmid.
    assert (Hzero : forall st0, st0 = OneShot None (smp 0) 0 -> n = 0 -> mid = true ->
      (match o_kind cfg with
       | Random => (OneShot (Some (repeat 0%Q (o_dim cfg))) (os_sampler st0) (os_factors st0), Ok (repeat 0%Q (o_dim cfg)))
       | Sampling => (st0, Ok (repeat 0%Q (o_dim cfg)))
       end) = (st', r) ->
      match r with
      | Ok x => at_ mid (S n) st' /\ design cfg mid point factor n x /\ below mid n
      | Err e => st' = st0 /\ e = AssertionError /\ ~ below mid n
      end).
    { intros st0 -> -> Hm. rewrite Hm.
      assert (D : design cfg true point factor 0 (repeat 0%Q (o_dim cfg))) by (now apply d_middle).
      pose proof middle_below as Hb.
      destruct (o_kind cfg) eqn:Ek; intros [= <- <-]; (split; [|split; [exact D|exact Hb]]).
      - destruct (o_mode cfg) as [m|] eqn:Em.
        + cbn [os_sampler os_factors]. pose proof (at_rmid true m Em Ek eq_refl) as Hx. rewrite Ek in Hx. exact Hx.
        + cbn [os_sampler os_factors]. pose proof (at_plain true 0 (Some (repeat 0%Q (o_dim cfg))) 0 Em) as Hx. rewrite Ek in Hx. exact Hx.
      - destruct (o_mode cfg) as [m|] eqn:Em.
        + pose proof (at_even true 0 m Em Ek) as Hx. rewrite Ek in Hx. cbn in Hx.
          destruct m; exact Hx.
        + pose proof (at_plain true 0 None 0 Em) as Hx. rewrite Ek in Hx. exact Hx. }
    assert (Hplain : forall k o f, o_mode cfg = None -> n = k + (if mid then 1 else 0) ->
      fresh point (OneShot o (smp k) f) = (st', r) ->
      match r with
      | Ok x => at_ mid (S n) st' /\ design cfg mid point factor n x /\ below mid n
      | Err e => st' = OneShot o (smp k) f /\ e = AssertionError /\ ~ below mid n
      end).
    { intros k o f Em -> Hf. pose proof (capacity_plain mid k Em) as Hc.
      destruct (fresh_spec _ _ _ _ _ Hf) as [(H1 & -> & ->)|(H1 & -> & ->)].
      - split; [exact (at_plain mid (S k) _ _ Em)|]. split; [now apply d_plain|tauto].
      - repeat split; tauto. }
    assert (Hpair : forall j m, o_mode cfg = Some m -> o_kind cfg = Sampling -> n = 2 * j + (if mid then 1 else 0) ->
      fresh point (OneShot None (smp j) (used m j)) = (st', r) ->
      match r with
      | Ok x => at_ mid (S n) st' /\ design cfg mid point factor n x /\ below mid n
      | Err e => st' = OneShot None (smp j) (used m j) /\ e = AssertionError /\ ~ below mid n
      end).
    { intros j m Em Ek -> Hf. pose proof (capacity_pair mid j m Em) as (Hc & _).
      destruct (fresh_spec _ _ _ _ _ Hf) as [(H1 & -> & ->)|(H1 & -> & ->)].
      - split; [|split; [now apply (d_first _ _ _ _ j m)|tauto]].
        replace (S (2 * j + if mid then 1 else 0)) with (2 * j + 1 + if mid then 1 else 0) by lia.
        now apply at_odd.
      - repeat split; tauto. }
    assert (Hrpair : forall j m, o_mode cfg = Some m -> o_kind cfg = Random -> n = 2 * j + (if mid then 2 else 0) ->
      fresh point (OneShot None (smp j) (used m (j + if mid then 1 else 0))) = (st', r) ->
      match r with
      | Ok x => at_ mid (S n) st' /\ design cfg mid point factor n x /\ below mid n
      | Err e => st' = OneShot None (smp j) (used m (j + if mid then 1 else 0)) /\ e = AssertionError /\ ~ below mid n
      end).
    { intros j m Em Ek -> Hf. pose proof (random_in_budget j Ek) as Hc.
      destruct (fresh_spec _ _ _ _ _ Hf) as [(H1 & -> & ->)|(H1 & -> & ->)]; [|tauto].
      split; [|split; [now apply (d_rfirst _ _ _ _ j m)|now apply random_below]].
      replace (S (2 * j + if mid then 2 else 0)) with (2 * j + 1 + if mid then 2 else 0) by lia.
      now apply at_rodd. }
    remember n as n0 eqn:E1 in Hat. symmetry in E1.
    destruct Hat as [|k o f Em|j m Em Ek|j m Em Ek Hb|m Em Ek Hm|j m Em Ek|j m Em Ek].
    - (* start *)
      subst n. rewrite Nat.eqb_refl, andb_true_r. destruct mid eqn:Hm.
      + intros Hx. apply (Hzero _ eq_refl eq_refl eq_refl). revert Hx. cbn [os_opposable].
        destruct (o_kind cfg); [|tauto]. tauto.
      + cbn [os_opposable].
        assert (Hx : fresh point (OneShot None (smp 0) 0) = (st', r) ->
          match r with
          | Ok x => at_ false 1 st' /\ design cfg false point factor 0 x /\ below false 0
          | Err e => st' = OneShot None (smp 0) 0 /\ e = AssertionError /\ ~ below false 0
          end).
        { destruct (o_mode cfg) as [m|] eqn:Em.
          - destruct (o_kind cfg) eqn:Ek.
            + pose proof (Hrpair 0 m eq_refl eq_refl eq_refl) as Hy. cbn in Hy. destruct m; exact Hy.
            + pose proof (Hpair 0 m eq_refl eq_refl eq_refl) as Hy. cbn in Hy. destruct m; exact Hy.
          - exact (Hplain 0 None 0 eq_refl eq_refl). }
        destruct (o_kind cfg); exact Hx.
    - (* plain *)
      destruct (mid && (n =? 0))%bool eqn:Hz.
      + apply andb_prop in Hz as (-> & Hz). apply Nat.eqb_eq in Hz. lia.
      + cbn [os_opposable]. rewrite Em. intros Hx.
        assert (Hf : fresh point (OneShot o (smp k) f) = (st', r)) by (destruct (o_kind cfg), o; exact Hx).
        apply (Hplain k o f Em E1) in Hf. exact Hf.
    - (* even *)
      destruct (mid && (n =? 0))%bool eqn:Hz.
      + apply andb_prop in Hz as (-> & Hz). apply Nat.eqb_eq in Hz. lia.
      + cbn [os_opposable]. rewrite Ek. intros Hx. rewrite Ek in Hpair.
        apply (Hpair j m Em eq_refl E1). exact Hx.
    - (* odd *)
      destruct (mid && (n =? 0))%bool eqn:Hz.
      + apply andb_prop in Hz as (-> & Hz). apply Nat.eqb_eq in Hz. lia.
      + rewrite Ek. cbn [os_opposable]. rewrite Em.
        destruct (opposed factor m _ (point j)) as [st2 x] eqn:Eo. intros [= <- <-].
        apply opposed_spec in Eo as (Ho & ->). cbn [os_factors os_sampler] in *.
        split; [|split].
        * replace (S n) with (2 * S j + if mid then 1 else 0) by (subst n; lia).
          pose proof (at_even mid (S j) m Em Ek) as Hy. rewrite Ek in Hy. destruct m; exact Hy.
        * subst n. eapply d_second; eauto. destruct m; exact Ho.
        * subst n. now apply (capacity_pair mid j m Em).
    - (* the middle again *)
      subst n. cbn [Nat.eqb]. rewrite andb_false_r, Ek. cbn [os_opposable]. rewrite Em.
      destruct (opposed factor m _ _) as [st2 x] eqn:Eo. intros [= <- <-].
      apply opposed_spec in Eo as (Ho & ->). cbn [os_factors os_sampler] in *.
      split; [|split; [|now apply random_below]].
      + pose proof (at_reven mid 0 m Em Ek) as Hy. rewrite Ek, Hm in Hy. cbn in Hy. rewrite Hm. destruct m; exact Hy.
      + eapply d_again; eauto. clear - Ho. unfold opposite_of, origin in *.
        revert x Ho. induction (o_dim cfg) as [|d IH]; cbn [repeat]; intros x Hx; inversion Hx as [|? ? ? ? Ha Hb]; subst; constructor.
        * rewrite Ha. ring.
        * now apply IH.
    - (* random, even *)
      destruct (mid && (n =? 0))%bool eqn:Hz.
      + apply andb_prop in Hz as (-> & Hz). apply Nat.eqb_eq in Hz. lia.
      + rewrite Ek. cbn [os_opposable]. intros Hx. rewrite Ek in Hrpair.
        apply (Hrpair j m Em eq_refl E1). exact Hx.
    - (* random, odd *)
      rewrite Ek. cbn [os_opposable]. rewrite Em.
      destruct (opposed factor m _ (point j)) as [st2 x] eqn:Eo. intros [= <- <-].
      apply opposed_spec in Eo as (Ho & ->). cbn [os_factors os_sampler] in *.
      split; [|split].
      + replace (S n) with (2 * S j + if mid then 2 else 0) by (subst n; lia).
        pose proof (at_reven mid (S j) m Em Ek) as Hy. rewrite Ek in Hy. destruct m; exact Hy.
      + subst n. eapply d_rsecond; eauto. destruct m; exact Ho.
      + now apply random_below.
  Qed.
End Asks.

(** * One ask of the generic optimizer without violated constraints *)
Section Alone.
  Context {ALG ARC HV : Type} (E : env ALG ARC HV).
  Notation ost := (ost ALG ARC HV).
  Hypothesis Hcb : forall s, fst (e_callbacks_ask _ _ _ E s) = o_alg _ _ _ s.
  Hypothesis Hsat : forall s c, e_satisfies _ _ _ E s c = (o_alg _ _ _ s, true).
  Hypothesis Hch : e_has_checkers _ _ _ E = false.

  Lemma set_alg_same (s : ost) : set_alg _ _ _ s (o_alg _ _ _ s) = s.
  Proof. now destruct s. Qed.
  Lemma satisfied s c : satisfies _ _ _ E s c = (s, true).
  Proof. unfold satisfies. now rewrite Hsat, set_alg_same. Qed.

  Lemma ask_alone s s' r : o_suggestions _ _ _ s = [] -> ask _ _ _ E s = (s', r) ->
    match snd (e_callbacks_ask _ _ _ E s) with
    | Err e => r = Err e /\ o_alg _ _ _ s' = o_alg _ _ _ s
    | Ok _ =>
        let '(a, ra) := e_ask _ _ _ E (log _ _ _ s EAlgAsk) in
        o_alg _ _ _ s' = a /\
        r = match ra with
            | Err e => Err e
            | Ok c => if mem c (o_asked _ _ _ s) then Err RuntimeError else Ok (c, false)
            end
    end.
  Proof.
    intros Hs. unfold ask. pose proof (Hcb s) as Ha. destruct (e_callbacks_ask _ _ _ E s) as [a rc]. cbn in Ha |- *.
    subst a. rewrite set_alg_same. destruct rc as [u|e]; [|intros [= <- <-]; auto].
    assert (H1 : exists s1, ask_candidate _ _ _ E s = (s1, match snd (e_ask _ _ _ E (log _ _ _ s EAlgAsk)) with
        Ok c => Ok (Some (c, false)) | Err e => Err e end) /\
        o_alg _ _ _ s1 = fst (e_ask _ _ _ E (log _ _ _ s EAlgAsk)) /\ o_asked _ _ _ s1 = o_asked _ _ _ s).
    { unfold ask_candidate. rewrite Hs, andb_true_r. destruct (o_skip _ _ _ s).
      - destruct (e_ask _ _ _ E _) as [a ra]. eexists. split; [reflexivity|]. cbn. auto.
      - destruct (Nat.max 1 _) as [|n] eqn:En; [lia|]. cbn [ask_loop]. rewrite Hs. unfold ask_algorithm.
        destruct (e_ask _ _ _ E _) as [a ra]. cbn [fst snd]. destruct ra as [c|e].
        + rewrite satisfied. destruct (_ && _); eexists; (split; [reflexivity|]); cbn; auto.
        + rewrite Hch. destruct e; eexists; (split; [reflexivity|]); cbn; auto. }
    destruct H1 as (s1 & -> & Ha1 & Hk1). destruct (e_ask _ _ _ E _) as [a ra]. cbn [fst snd] in *.
    destruct ra as [c|e]; [|intros [= <- <-]; auto].
    rewrite satisfied. cbn [negb andb]. rewrite Hk1.
    destruct (mem c (o_asked _ _ _ s)); intros [= <- <-]; auto.
  Qed.

  Lemma ask_suggestion s s' r c l : o_suggestions _ _ _ s = c :: l -> ask _ _ _ E s = (s', r) ->
    o_alg _ _ _ s' = o_alg _ _ _ s /\
    r = match snd (e_callbacks_ask _ _ _ E s) with Err e => Err e | Ok _ => Ok (c, true) end.
  Proof.
    intros Hs. unfold ask. pose proof (Hcb s) as Ha. destruct (e_callbacks_ask _ _ _ E s) as [a rc]. cbn in Ha |- *.
    subst a. rewrite set_alg_same. destruct rc as [u|e]; [|intros [= <- <-]; auto].
    unfold ask_candidate. rewrite Hs, andb_false_r.
    destruct (Nat.max 1 _) as [|n] eqn:En; [lia|]. cbn [ask_loop]. rewrite Hs, satisfied.
    destruct (_ && _); rewrite satisfied; cbn [negb andb]; intros [= <- <-]; auto.
  Qed.
End Alone.

(** * Histories *)
Section History.
  Variable cfg : config.
  Variable point : nat -> list Q.
  Variable factor : nat -> Q.
  Variable budget : option nat.
  Context {ARC HV : Type}.
  Variable E0 : env oneshot_alg ARC HV.
  Hypothesis Hnv : no_violation E0.
  Hypothesis Hch : e_has_checkers _ _ _ E0 = false.
  Notation E := (oneshot_env cfg point factor E0).
  Notation alg := (o_alg oneshot_alg ARC HV).
  Notation middle h := (o_middle cfg && first_proposed h)%bool.

  Lemma env_sat s c : e_satisfies _ _ _ E s c = (alg s, true).
  Proof. cbn. now rewrite Hnv. Qed.
  Lemma env_cb s : fst (e_callbacks_ask _ _ _ E s) = alg s.
  Proof. reflexivity. Qed.
  Lemma env_nv : no_violation E.
  Proof. intros s c. now rewrite env_sat. Qed.

  (** tells do not touch the algorithm *)
  Lemma finish_alg s c l nu s' r : tell_finish _ _ _ E s c l nu = (s', r) -> alg s' = alg s.
  Proof.
    unfold tell_finish.
    match goal with |- context [match read_num_obj _ _ _ E s with Ok n => @?f n | Err e => @?g e end] =>
      destruct (match read_num_obj _ _ _ E s with Ok n => f n | Err e => g e end) as [s1 r1] eqn:E1 end.
    assert (Ha : alg s1 = alg s).
    { destruct (read_num_obj _ _ _ E s); [|now injection E1 as <- _].
      destruct (_ && negb nu); [|now injection E1 as <- _].
      destruct (e_update _ _ _ E _ c l). now injection E1 as <- _. }
    destruct r1; [|intros [= <- <-]; exact Ha].
    destruct (mem c _); cbn [e_tell e_tell_not_asked oneshot_env]; intros [= <- <-]; exact Ha.
  Qed.
  Lemma process_alg s c l cv s' r : tell_process _ _ _ E s c l cv = (s', r) -> alg s' = alg s.
  Proof.
    unfold tell_process. cbn [e_callbacks_tell oneshot_env].
    destruct (snd (e_callbacks_tell _ _ _ E0 _ c l)); [|intros [= <- <-]; reflexivity].
    rewrite (satisfied E env_sat). destruct cv; intros H; apply finish_alg in H; exact H.
  Qed.
  Lemma scalar_alg s c lv s' r : scalar_loss _ _ _ E s c lv = (s', r) -> alg s' = alg s.
  Proof.
    unfold scalar_loss. destruct lv; try (intros [= <- <-]; reflexivity).
    destruct (e_hv_add _ _ _ E _ c l) as [h rr]. now intros [= <- <-].
  Qed.
  Lemma tell_alg s c l cv s' r : tell _ _ _ E s c l cv = (s', r) -> alg s' = alg s.
  Proof.
    unfold tell. destruct (check_loss l) as [lv|e]; [|intros [= <- <-]; reflexivity].
    assert (Ha : alg (update_curve _ _ _ s lv) = alg s) by now destruct (update_curve_same s lv).
    set (s0 := update_curve _ _ _ s lv) in *. clearbody s0.
    assert (Hc : forall s1 c, alg s1 = alg s ->
      (let '(s2, r2) := scalar_loss _ _ _ E s1 c lv in
       match r2 with
       | Ok f => let '(s3, r3) := tell_process _ _ _ E s2 c f cv in (s3, match r3 with Ok _ => Ok true | Err e => Err e end)
       | Err e => (s2, Err e)
       end) = (s', r) -> alg s' = alg s).
    { intros s1 c0 H1. destruct (scalar_loss _ _ _ E s1 c0 lv) as [s2 r2] eqn:E2. apply scalar_alg in E2.
      destruct r2 as [f|e]; [|intros [= <- <-]; congruence].
      destruct (tell_process _ _ _ E s2 c0 f cv) as [s3 r3] eqn:E3. apply process_alg in E3.
      intros [= <- <-]. congruence. }
    destruct c as [c|v|]; [| |intros [= <- <-]; exact Ha].
    - destruct (loss_size lv) as [n|e]; [|intros [= <- <-]; exact Ha].
      destruct (assign_num_obj _ _ _ s0 n) as [s1 r1] eqn:E1. apply assign_num_obj_spec in E1.
      destruct r1 as [u|e]; [destruct E1 as (-> & _)|destruct E1 as (-> & _); intros [= <- <-]; exact Ha].
      cbn [tell_reference]. apply Hc. exact Ha.
    - destruct (loss_size lv) as [n|e]; [|intros [= <- <-]; exact Ha].
      destruct (assign_num_obj _ _ _ s0 n) as [s1 r1] eqn:E1. apply assign_num_obj_spec in E1.
      destruct r1 as [u|e]; [destruct E1 as (-> & _)|destruct E1 as (-> & _); intros [= <- <-]; exact Ha].
      destruct (tell_reference _ _ _ E _ (CRef v) lv) as [s2 r2] eqn:E2.
      assert (H2 : alg s2 = alg s0).
      { unfold tell_reference in E2. destruct (o_hv _ _ _ _); [injection E2 as <- <-; auto|].
        destruct lv; injection E2 as <- <-; auto. }
      destruct r2 as [[c|]|e]; [|intros [= <- <-]; congruence..].
      apply Hc. congruence.
  Qed.

  Record oinv (s : ost oneshot_alg ARC HV) (h : history) : Prop := {
    oi_prop : proposed h = seq 0 (length (snd (alg s)));
    oi_at : at_ cfg point budget (middle h) (length (snd (alg s))) (fst (alg s));
    oi_design : forall k x, nth_error (snd (alg s)) k = Some x -> design cfg (middle h) point factor k x;
    oi_below : forall k, k < length (snd (alg s)) -> below cfg budget (middle h) k;
    oi_asked : forall c, In c (o_asked _ _ _ s) -> c < length (snd (alg s));
    oi_zero : length (snd (alg s)) = 0 -> fst (alg s) = os_init cfg budget;
    oi_num : o_num_ask _ _ _ s = asks_returned h }.

  Lemma proposed_snoc h e : proposed (h ++ [e]) =
    proposed h ++ match e with (OAsk, RCand c false) => [c] | _ => [] end.
  Proof. unfold proposed. rewrite flat_map_app. cbn. now rewrite app_nil_r. Qed.
  Lemma returned_snoc h e : asks_returned (h ++ [e]) =
    asks_returned h + match e with (OAsk, RCand _ _) => 1 | _ => 0 end.
  Proof. unfold asks_returned. rewrite filter_app, app_length. destruct e as [[] []]; reflexivity. Qed.
  Lemma first_snoc h e : first_proposed (h ++ [e]) =
    if asks_returned h =? 0 then match e with (OAsk, RCand _ b) => negb b | _ => true end else first_proposed h.
  Proof.
    induction h as [|[o r] h IH]; cbn [app first_proposed].
    - destruct e as [[] []]; reflexivity.
    - destruct o, r; cbn [app first_proposed]; try (rewrite IH; reflexivity); try reflexivity.
  Qed.
  Lemma none_proposed h : asks_returned h = 0 -> first_proposed h = true.
  Proof.
    induction h as [|[o r] h IH]; [reflexivity|]. destruct o, r; cbn; try exact IH. discriminate.
  Qed.
  Lemma none_proposed_list h : asks_returned h = 0 -> proposed h = [].
  Proof. induction h as [|[o r] h IH]; [reflexivity|]. destruct o, r; cbn; try exact IH. discriminate. Qed.
  Lemma only_suggested h : first_proposed h = true -> asks_returned h <> 0 -> proposed h <> [].
  Proof.
    induction h as [|[o r] h IH]; [now intros _ []|]. destruct o, r; cbn; try exact IH.
    destruct suggested; [discriminate|]. easy.
  Qed.
  Lemma returned_split h : asks_returned h = length (proposed h) + length (suggestions_asked h).
  Proof.
    induction h as [|[o r] h IH]; [reflexivity|]. unfold asks_returned, proposed, suggestions_asked in *. destruct o, r; cbn in *; try exact IH.
    destruct suggested; cbn; lia.
  Qed.
  Lemma first_suggested h : first_proposed h = false -> 0 < length (suggestions_asked h).
  Proof.
    induction h as [|[o r] h IH]; [easy|]. destruct o, r; cbn; try exact IH.
    destruct suggested; cbn; [lia|easy].
  Qed.

  Lemma oinv_same s s' h e : oinv s h -> alg s' = alg s -> o_num_ask _ _ _ s' = o_num_ask _ _ _ s ->
    (forall c, In c (o_asked _ _ _ s') -> In c (o_asked _ _ _ s)) ->
    match e with (OAsk, RCand _ _) => False | _ => True end ->
    oinv s' (h ++ [e]).
  Proof.
    intros [I1 I2 I3 I4 I5 I7 I6] Ha Hn Hk He.
    assert (Hp : proposed (h ++ [e]) = proposed h) by (rewrite proposed_snoc; destruct e as [[] [? []| | |]]; try easy; apply app_nil_r).
    assert (Hf : first_proposed (h ++ [e]) = first_proposed h).
    { rewrite first_snoc. destruct (Nat.eqb_spec (asks_returned h) 0) as [E1|E1]; [|reflexivity].
      rewrite none_proposed by exact E1. now destruct e as [[] []]. }
    assert (Hr : asks_returned (h ++ [e]) = asks_returned h) by (rewrite returned_snoc; destruct e as [[] []]; try easy; apply Nat.add_0_r).
    constructor; rewrite ?Ha, ?Hp, ?Hf, ?Hr, ?Hn; auto.
  Qed.

  Lemma middle_first s h : oinv s h ->
    (o_middle cfg && (o_num_ask _ _ _ s =? 0))%bool = (middle h && (length (snd (alg s)) =? 0))%bool.
  Proof.
    intros [I1 _ _ _ _ _ I6]. rewrite I6.
    assert (Hl : length (snd (alg s)) = length (proposed h)) by now rewrite I1, seq_length.
    rewrite Hl. destruct (Nat.eqb_spec (asks_returned h) 0) as [E1|E1].
    - rewrite (none_proposed _ E1), (none_proposed_list _ E1). cbn. now rewrite !andb_true_r.
    - rewrite andb_false_r. destruct (first_proposed h) eqn:Ef; [|now rewrite andb_false_r].
      pose proof (only_suggested _ Ef E1) as Hp. destruct (proposed h); [easy|]. cbn. now rewrite andb_false_r.
  Qed.

  (** an ask without a pending suggestion *)
  Lemma ask_fresh s h s' r : oinv s h -> o_suggestions _ _ _ s = [] -> ask _ _ _ E s = (s', r) ->
    match snd (e_callbacks_ask _ _ _ E0 s) with
    | Err e => r = Err e /\ alg s' = alg s
    | Ok _ =>
        match r with
        | Ok (c, b) => b = false /\ c = length (snd (alg s)) /\ below cfg budget (middle h) c /\
            exists st x, alg s' = (st, snd (alg s) ++ [x]) /\ at_ cfg point budget (middle h) (S c) st /\
                         design cfg (middle h) point factor c x
        | Err e => e = AssertionError /\ alg s' = alg s /\ ~ below cfg budget (middle h) (length (snd (alg s)))
        end
    end.
  Proof.
    intros I Hs H. pose proof (middle_first _ _ I) as Hm. destruct I as [I1 I2 I3 I4 I5 I7 I6].
    pose proof (ask_alone E env_cb env_sat Hch _ _ _ Hs H) as G.
    cbn [e_callbacks_ask oneshot_env snd] in G.
    destruct (snd (e_callbacks_ask _ _ _ E0 s)); [|exact G].
    cbn [e_ask oneshot_env] in G. change (alg (log _ _ _ s EAlgAsk)) with (alg s) in G.
    change (o_num_ask _ _ _ (log _ _ _ s EAlgAsk)) with (o_num_ask _ _ _ s) in G.
    destruct (alg s) as [st pts] eqn:Ea. cbn [fst snd] in *.
    destruct (internal_ask cfg point factor (o_num_ask _ _ _ s) st) as [st' ri] eqn:Ei.
    pose proof (internal_ask_step cfg point factor budget _ _ _ _ _ _ I2 Hm Ei) as K.
    destruct ri as [x|e].
    - destruct G as (G1 & ->). destruct K as (K1 & K2 & K3).
      assert (mem (length pts) (o_asked _ _ _ s) = false) as ->.
      { apply mem_false. intros Hin. apply I5 in Hin. lia. }
      repeat split; auto. exists st', x. auto.
    - destruct G as (G1 & ->). destruct K as (-> & -> & K3). auto.
  Qed.

  Lemma oinv_step s h o s' r : hist_inv E s h -> oinv s h -> step _ _ _ E s o = (s', r) -> oinv s' (h ++ [(o, r)]).
  Proof.
    intros Hi I. destruct o as [|rs|c l cv]; cbn [step].
    - destruct (ask _ _ _ E s) as [s1 r1] eqn:Ea. intros [= <- <-].
      pose proof (ask_spec _ _ _ _ Ea) as (_ & _ & _ & _ & _ & _ & _ & A).
      pose proof (ask_no_violation E _ _ _ env_nv Ea) as N.
      destruct (o_suggestions _ _ _ s) as [|c0 l0] eqn:Es.
      + pose proof (ask_fresh _ _ _ _ I Es Ea) as G.
        destruct r1 as [[c b]|e].
        * destruct N as (-> & _). destruct A as (A1 & A2 & A3).
          destruct (snd (e_callbacks_ask _ _ _ E0 s)) as [u|e0]; [|now destruct G].
          destruct G as (_ & -> & G1 & st & x & G2 & G3 & G4).
          pose proof I as [I1 I2 I3 I4 I5 I7 I6].
          assert (Hf : first_proposed (h ++ [(OAsk, RCand (length (snd (alg s))) false)]) = first_proposed h).
          { rewrite first_snoc. destruct (Nat.eqb_spec (asks_returned h) 0) as [E1|E1]; [|reflexivity].
            now rewrite none_proposed. }
          constructor; rewrite ?G2; cbn [fst snd]; rewrite ?app_length; cbn [length]; rewrite ?Hf.
          -- rewrite proposed_snoc, I1, Nat.add_1_r, seq_S. reflexivity.
          -- now rewrite Nat.add_1_r.
          -- intros k y Hk. destruct (Nat.lt_ge_cases k (length (snd (alg s)))) as [Hl|Hl].
             ++ rewrite nth_error_app1 in Hk by exact Hl. auto.
             ++ rewrite nth_error_app2 in Hk by exact Hl.
                destruct (k - length (snd (alg s))) as [|q] eqn:Eq; [|now destruct q].
                injection Hk as <-. replace k with (length (snd (alg s))) by lia. exact G4.
          -- intros k Hk. destruct (Nat.lt_ge_cases k (length (snd (alg s)))) as [Hl|Hl]; [auto|].
             now replace k with (length (snd (alg s))) by lia.
          -- intros c. cbn [o_asked] in A2. rewrite A2, in_app_iff. intros [Hc|[<-|[]]]; [apply I5 in Hc; lia|lia].
          -- lia.
          -- rewrite A1, I6, returned_snoc. lia.
        * apply oinv_same with (s := s); auto.
          -- destruct (snd (e_callbacks_ask _ _ _ E0 s)); tauto.
          -- tauto.
          -- destruct A as (_ & A). rewrite A. auto.
      + pose proof (ask_suggestion E env_cb env_sat _ _ _ _ _ Es Ea) as (G1 & G2).
        destruct r1 as [[c b]|e].
        * destruct N as (-> & -> & _). destruct A as (A1 & A2 & A3). pose proof I as [I1 I2 I3 I4 I5 I7 I6].
          constructor; rewrite ?G1, ?proposed_snoc, ?returned_snoc, ?app_nil_r; auto.
          -- rewrite first_snoc. destruct (Nat.eqb_spec (asks_returned h) 0) as [E1|E1]; [|exact I2].
             assert (Hz : length (snd (alg s)) = 0) by now rewrite <- (seq_length (length (snd (alg s))) 0), <- I1, none_proposed_list.
             rewrite Hz, (I7 Hz). apply at_start.
          -- intros k x Hk. rewrite first_snoc. destruct (Nat.eqb_spec (asks_returned h) 0) as [E1|E1]; [|auto].
             assert (Hz : length (snd (alg s)) = 0) by now rewrite <- (seq_length (length (snd (alg s))) 0), <- I1, none_proposed_list.
             destruct (snd (alg s)); [now destruct k|easy].
          -- intros k Hk. rewrite first_snoc. destruct (Nat.eqb_spec (asks_returned h) 0) as [E1|E1]; [|auto].
             assert (Hz : length (snd (alg s)) = 0) by now rewrite <- (seq_length (length (snd (alg s))) 0), <- I1, none_proposed_list.
             lia.
          -- intros c. rewrite A2. auto.
          -- rewrite A1, I6. lia.
        * apply oinv_same with (s := s); auto; [tauto|]. destruct A as (_ & A). rewrite A. auto.
    - unfold suggest. destruct rs as [c|e]; intros [= <- <-]; apply oinv_same with (s := s); auto.
    - destruct (tell _ _ _ E s c l cv) as [s1 r1] eqn:Et. intros [= <- <-].
      pose proof (tell_alg _ _ _ _ _ _ Et) as Ha.
      pose proof (tell_tell_spec _ _ _ _ _ _ _ Et) as T.
      apply oinv_same with (s := s); auto.
      + exact (ts_ask _ _ _ _ _ T).
      + pose proof (ts_res _ _ _ _ _ T) as R. intros x.
        destruct r1 as [[]|e]; [destruct R as (c0 & _ & _ & _ & R)|destruct R as (_ & _ & R)..]; rewrite R; auto.
        unfold without. rewrite filter_In. tauto.
  Qed.

  Lemma oinv_init arc0 : oinv (o_init _ _ _ arc0 (os_init cfg budget, [])) [].
  Proof.
    constructor; cbn; auto; try easy; try lia.
    - apply at_start.
    - now intros [] ?.
  Qed.

  Lemma oinv_run arc0 ops s h :
    perform E (o_init _ _ _ arc0 (os_init cfg budget, [])) ops = (s, h) -> hist_inv E s h /\ oinv s h.
  Proof.
    intros Hp. split; [eapply hist_run; exact Hp|]. revert s h Hp.
    induction ops as [|o ops IH] using rev_ind; intros s h.
    - intros [= <- <-]. apply oinv_init.
    - rewrite perform_app. destruct (perform E _ ops) as [s1 h1] eqn:Ep. specialize (IH _ _ eq_refl).
      cbn. destruct (step _ _ _ E s1 o) as [s2 r2] eqn:Es. intros [= <- <-].
      eapply oinv_step; eauto. eapply hist_run; exact Ep.
  Qed.
End History.

(** * Averages *)
Lemma map2_nth (f : Q -> Q -> Q) (a b : list Q) i : length a = length b -> nth_error (Sequences.map2 f a b) i =
  match nth_error a i, nth_error b i with Some x, Some y => Some (f x y) | _, _ => None end.
Proof.
  revert b i. induction a as [|x a IH]; intros [|y b] i; cbn; try easy.
  - now destruct i.
  - intros [= L]. destruct i; cbn; [reflexivity|now apply IH].
Qed.
Lemma map2_length {A B C} (f : A -> B -> C) a b : length a = length b -> length (Sequences.map2 f a b) = length a.
Proof. revert b. induction a as [|x a IH]; intros [|y b]; cbn; try easy. intros [= L]. now rewrite IH. Qed.
Lemma vsum_spec d pts : (forall p, In p pts -> length p = d) -> length (vsum d pts) = d /\
  forall i s, nth_error (vsum d pts) i = Some s -> (s == fold_right Qplus 0 (map (fun p => nth i p 0) pts))%Q.
Proof.
  induction pts as [|p pts IH]; cbn [vsum map fold_right]; intros Hp.
  - split; [apply repeat_length|]. intros i s E. apply nth_error_In, repeat_spec in E. now subst s.
  - destruct IH as (L & H); [intros q Hq; apply Hp; now right|].
    pose proof (Hp p (or_introl eq_refl)) as Lp.
    split; [rewrite map2_length by congruence; exact Lp|].
    intros i s. rewrite map2_nth by congruence.
    destruct (nth_error p i) as [x|] eqn:Ex; [|easy]. destruct (nth_error (vsum d pts) i) as [y|] eqn:Ey; [|easy].
    intros [= <-]. rewrite (nth_error_nth _ _ _ Ex), (H _ _ Ey). reflexivity.
Qed.

Lemma method_le m limit n d k : 1 <= n -> method_k m limit n d = Ok k -> (if k <? 1 then 1 else k) <= n.
Proof.
  intros Hn. assert (Hd : forall a, a / 4 <= a) by (intros a; apply Nat.div_le_upper_bound; lia).
  assert (Hp : (n * 10 ^ d) / 11 ^ d <= n).
  { apply Nat.div_le_upper_bound; [apply Nat.pow_nonzero; lia|].
    rewrite Nat.mul_comm. apply Nat.mul_le_mono_r, Nat.pow_le_mono_l. lia. }
  specialize (Hd n). unfold method_k. revert Hp Hd. generalize (n * 10 ^ d / 11 ^ d), (n / 4). intros p q Hp Hd.
  destruct (Nat.ltb_spec k 1); [lia|]. destruct m; intros E; try discriminate E; apply (f_equal (fun r => match r with Ok x => x | Err _ => 0 end)) in E; cbv beta iota in E; lia.
Qed.

Lemma average m limit archive d : archive <> [] -> (forall p, In p archive -> length (fst p) = d) ->
  match avg_of_k_best m limit archive with
  | Ok x => exists k best, method_k m limit (length archive) d = Ok k /\
      length best = Nat.max 1 k /\ length best <= length archive /\
      Cma.k_best (Nat.max 1 k) snd archive best /\ Spsa.mean_of d (map fst best) x
  | Err e => m <> AverageBest /\ m <> AverageExpBest /\ m <> AverageHullBest /\ e = ValueError
  end.
Proof.
  intros Hne Hd. unfold avg_of_k_best. destruct archive as [|first rest] eqn:Ea; [easy|]. rewrite <- Ea in *. clear Hne.
  assert (H1 : 1 <= length archive) by (rewrite Ea; cbn; lia).
  replace (length (fst first)) with d by (symmetry; apply Hd; rewrite Ea; now left).
  destruct (method_k m limit (length archive) d) as [k|e] eqn:Em; cbn [bind].
  2: { destruct m; cbn in Em; try discriminate; injection Em as <-; repeat split; discriminate. }
  pose proof (method_le _ _ _ _ _ H1 Em) as Hk.
  assert (Hx : (if k <? 1 then 1 else k) = Nat.max 1 k) by (destruct (Nat.ltb_spec k 1); lia).
  cbn zeta. rewrite Hx in *. set (k' := Nat.max 1 k) in *.
  pose proof (Cma.k_best_sort _ (snd (A := list Q) (B := Q)) k' archive) as K. cbv beta zeta in K.
  set (best := firstn k' _) in *.
  pose proof K as (Lb & rs & P & _). rewrite Nat.min_l in Lb by exact Hk.
  rewrite Lb, Nat.eqb_refl. exists k, best.
  split; [reflexivity|]. split; [exact Lb|]. split; [lia|]. split; [exact K|]. split.
  - rewrite map_length. apply vsum_spec. intros p Hp. apply in_map_iff in Hp as (q & <- & Hq).
    apply Hd. apply (Permutation_in _ P), in_or_app. now left.
  - intros i y Ey. rewrite nth_error_map in Ey.
    destruct (nth_error (vsum d (map fst best)) i) as [s|] eqn:Es; [|easy]. injection Ey as <-.
    apply vsum_spec in Es. 
    + rewrite <- Es, map_length, Lb. unfold qnat.
      assert (~ inject_Z (Z.of_nat k') == 0)%Q by (change 0%Q with (inject_Z 0); rewrite inject_Z_injective; unfold k'; lia).
      unfold Qdiv. rewrite <- Qmult_assoc, (Qmult_comm (/ _)), Qmult_inv_r by assumption. ring.
    + intros p Hp. apply in_map_iff in Hp as (q & <- & Hq).
      apply Hd. apply (Permutation_in _ P), in_or_app. now left.
Qed.

(** the design determines the points *)
Lemma design_determined cfg mid point factor k x y :
  design cfg mid point factor k x -> design cfg mid point factor k y -> Forall2 Qeq x y.
Proof.
  assert (R : forall l : list Q, Forall2 Qeq l l) by (induction l; constructor; auto; reflexivity).
  assert (O : forall f l a b, opposite_of f l a -> opposite_of f l b -> Forall2 Qeq a b).
  { unfold opposite_of. intros f l a b H. revert b. induction H; intros b Hb; inversion Hb; subst; constructor; auto.
    etransitivity; [eassumption|]. now symmetry. }
  assert (Z : forall d a b, Forall2 Qeq a (origin d) -> Forall2 Qeq b (origin d) -> Forall2 Qeq a b).
  { unfold origin. induction d; cbn; intros a b Ha Hb; inversion Ha; inversion Hb; subst; constructor; auto.
    etransitivity; [eassumption|]. now symmetry. }
  intros Hx Hy. remember k as k0 eqn:E in Hy.
  destruct Hx as [|k Em|j m Em Ek|j m x Em Ek Hx|m x Em Ek Hm Hx|j m Em Ek|j m x Em Ek Hx],
    Hy as [|k' Em'|j' m' Em' Ek'|j' m' y Em' Ek' Hy|m' y Em' Ek' Hm' Hy|j' m' Em' Ek'|j' m' y Em' Ek' Hy];
    try congruence; try (exfalso; destruct mid; (discriminate || lia)).
  - apply R.
  - replace k' with k by lia. apply R.
  - replace j' with j by lia. apply R.
  - replace j' with j in Hy by lia. replace m' with m in Hy by congruence. eapply O; eassumption.
  - eapply Z; eassumption.
  - replace j' with j by lia. apply R.
  - replace j' with j in Hy by lia. replace m' with m in Hy by congruence. eapply O; eassumption.
Qed.
Lemma design_total cfg mid point factor k : exists x, design cfg mid point factor k x.
Proof.
  assert (Op : forall f l, exists y, opposite_of f l y).
  { intros f l. exists (map (fun a => - (f * a))%Q l). unfold opposite_of. induction l; constructor; [reflexivity|assumption]. }
  assert (Hh : k mod 2 < 2) by (apply Nat.mod_upper_bound; lia). pose proof (Nat.div_mod_eq k 2) as Hk.
  destruct mid.
  - destruct k as [|k]; [eexists; now apply d_middle|].
    destruct (o_mode cfg) as [m|] eqn:Em; [|exists (point k); replace (S k) with (k + 1) by lia; now apply (d_plain cfg true)].
    destruct (o_kind cfg) eqn:Ek.
    + destruct k as [|k]; [exists (origin (o_dim cfg)); eapply d_again; eauto; unfold origin; induction (o_dim cfg); constructor; auto; reflexivity|].
      pose proof (Nat.div_mod_eq k 2) as Hk'. assert (k mod 2 < 2) by (apply Nat.mod_upper_bound; lia).
      destruct (Nat.eq_dec (k mod 2) 0) as [E|E].
      * exists (point (k / 2)). replace (S (S k)) with (2 * (k / 2) + 2) by lia. now apply (d_rfirst cfg true) with m.
      * destruct (Op (mode_factor m factor (k / 2 + 1)) (point (k / 2))) as (y & Hy). exists y.
        replace (S (S k)) with (2 * (k / 2) + 1 + 2) by lia. now apply (d_rsecond cfg true) with m.
    + pose proof (Nat.div_mod_eq k 2) as Hk'. assert (k mod 2 < 2) by (apply Nat.mod_upper_bound; lia).
      destruct (Nat.eq_dec (k mod 2) 0) as [E|E].
      * exists (point (k / 2)). replace (S k) with (2 * (k / 2) + 1) by lia. now apply (d_first cfg true) with m.
      * destruct (Op (mode_factor m factor (k / 2)) (point (k / 2))) as (y & Hy). exists y.
        replace (S k) with (2 * (k / 2) + 1 + 1) by lia. now apply (d_second cfg true) with m.
  - destruct (o_mode cfg) as [m|] eqn:Em; [|exists (point k); replace k with (k + 0) at 1 by lia; now apply (d_plain cfg false)].
    destruct (o_kind cfg) eqn:Ek; destruct (Nat.eq_dec (k mod 2) 0) as [E|E].
    + exists (point (k / 2)). replace k with (2 * (k / 2) + 0) at 1 by lia. now apply (d_rfirst cfg false) with m.
    + destruct (Op (mode_factor m factor (k / 2 + 0)) (point (k / 2))) as (y & Hy). exists y.
      replace k with (2 * (k / 2) + 1 + 0) by lia. apply (d_rsecond cfg false) with m; auto.
    + exists (point (k / 2)). replace k with (2 * (k / 2) + 0) at 1 by lia. now apply (d_first cfg false) with m.
    + destruct (Op (mode_factor m factor (k / 2)) (point (k / 2))) as (y & Hy). exists y.
      replace k with (2 * (k / 2) + 1 + 0) by lia. apply (d_second cfg false) with m; auto.
Qed.

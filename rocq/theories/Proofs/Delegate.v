(** Proofs about the delegation to another optimizer. *)
From Coq Require Import List Arith ZArith QArith Bool Lia.
From Verif.Model Require Import Prelude MultiValue Float Optimizer.
From Verif.Model Require Import Delegate.
From Verif.Spec Require Import Optimizer Delegate.
From Verif.Proofs Require Import Prelude MultiValue Optimizer.
Import ListNotations.

(** An optimizer without pending suggestion *)
Section NoSugg.
  Context {ALG ARC HV : Type}.
  Variable E : env ALG ARC HV.

  Lemma ask_algorithm_sugg s s' r : ask_algorithm ALG ARC HV E s = (s', r) ->
    o_suggestions _ _ _ s' = o_suggestions _ _ _ s.
  Proof. intros H. now apply ask_algorithm_num in H as (_ & H & _). Qed.

  Lemma ask_loop_sugg n : forall s last s' r, o_suggestions _ _ _ s = [] ->
    match last with Some (_, b) => b = false | None => True end ->
    ask_loop ALG ARC HV E n s last = (s', r) ->
    o_suggestions _ _ _ s' = [] /\ match r with Ok (Some (_, b)) => b = false | _ => True end.
  Proof.
    induction n as [|n IH]; intros s last s' r Hs Hl; cbn [ask_loop].
    - intros [= <- <-]. split; [exact Hs|]. destruct last as [[c b]|]; auto.
    - rewrite Hs. destruct (ask_algorithm ALG ARC HV E s) as [s1 r1] eqn:E1.
      apply ask_algorithm_sugg in E1. rewrite Hs in E1.
      destruct r1 as [c|e]; [|intros [= <- <-]; auto].
      unfold satisfies. destruct (e_satisfies _ _ _ E s1 c) as [a ok]. destruct ok.
      + destruct (_ && _); intros [= <- <-]; cbn; auto.
      + destruct (e_penalize _ _ _ E).
        * destruct (e_tell _ _ _ E _ c PosInf) as [a2 [u|e]]; [|intros [= <- <-]; cbn; auto].
          intros H. apply IH in H; auto.
        * intros H. apply IH in H; auto.
  Qed.

  Lemma ask_sugg s s' r : o_suggestions _ _ _ s = [] -> ask ALG ARC HV E s = (s', r) ->
    o_suggestions _ _ _ s' = [] /\ match r with Ok (_, b) => b = false | _ => True end.
  Proof.
    intros Hs. unfold ask. destruct (e_callbacks_ask _ _ _ E s) as [a [u|e]].
    2: { intros [= <- <-]. cbn. auto. }
    destruct (ask_candidate ALG ARC HV E _) as [s1 r1] eqn:E1.
    assert (H1 : o_suggestions _ _ _ s1 = [] /\ match r1 with Ok (Some (_, b)) => b = false | _ => True end).
    { revert E1. unfold ask_candidate. cbn [o_suggestions set_alg]. rewrite Hs, andb_true_r. cbn [o_skip set_alg].
      destruct (o_skip _ _ _ s).
      - destruct (e_ask _ _ _ E _) as [a1 [c1|e1]]; intros [= <- <-]; cbn; auto.
      - apply ask_loop_sugg; cbn; auto. }
    destruct H1 as (H1 & H2). destruct r1 as [[[c b]|]|e]; [|intros [= <- <-]; auto..].
    subst b. unfold satisfies. destruct (e_satisfies _ _ _ E s1 c) as [a2 ok]. cbn zeta.
    destruct (negb ok && _).
    - destruct (e_solver _ _ _ E _ c) as [a3 c3].
      destruct ok; destruct (negb false && mem c3 _); intros [= <- <-]; cbn; auto.
    - destruct ok; destruct (negb false && mem c _); intros [= <- <-]; cbn; auto.
  Qed.

  Lemma tell_sugg s c l cv s' r : tell ALG ARC HV E s c l cv = (s', r) ->
    o_suggestions _ _ _ s' = o_suggestions _ _ _ s.
  Proof. intros H. apply tell_tell_spec in H. now destruct H. Qed.
End NoSugg.

(** * Violated constraints, for any optimizer *)
Section Violated.
  Context {ALG ARC HV : Type} (E : env ALG ARC HV).
  Notation ost := (ost ALG ARC HV).

  Lemma told_violating_heard s c f s' : violates E c -> e_budget _ _ _ E <> None ->
    tell _ _ _ E s (CParam c) (LReal f) None = (s', Ok true) ->
    exists s1, o_num_ask _ _ _ s1 = o_num_ask _ _ _ s /\ o_num_tell _ _ _ s1 = o_num_tell _ _ _ s /\
      o_trace _ _ _ s' = o_trace _ _ _ s ++
        [EAlgTell c (fl_add (clip_loss f) (Fin (e_penalty _ _ _ E s1 c))) (mem c (o_asked _ _ _ s))].
  Proof.
    intros Hv Hb H. pose proof (tell_scalar_nobj E _ _ _ _ _ H) as Hn.
    unfold tell in H. cbn [check_loss loss_size] in H.
    destruct (update_curve_same s (VFloat (clip_loss f))) as [B1 B2 B3 B4 B5 B6 B7 B8 B9 B10 B11 B12 B13].
    set (s0 := update_curve _ _ _ s (VFloat (clip_loss f))) in *. clearbody s0.
    destruct (assign_num_obj _ _ _ s0 1) as [s1 r1] eqn:E1. apply assign_num_obj_spec in E1.
    destruct r1 as [u|e]; [destruct E1 as (-> & _)|easy].
    cbn [tell_reference scalar_loss] in H.
    match type of H with context [tell_process _ _ _ _ ?x _ _ _] => set (s4 := x) in H end.
    destruct (tell_process _ _ _ E s4 c (clip_loss f) None) as [s5 [[]|]] eqn:E5; [|easy].
    injection H as ->. revert E5. unfold tell_process.
    destruct (e_callbacks_tell _ _ _ E _ c _) as [a [u'|e]]; [|easy].
    unfold satisfies. match goal with |- context [e_satisfies _ _ _ E ?x c] =>
      pose proof (Hv x) as Hok; destruct (e_satisfies _ _ _ E x c) as [a2 ok] end.
    cbn in Hok. subst ok. cbn [negb andb]. destruct (e_budget _ _ _ E); [|easy].
    match goal with |- context [e_penalty _ _ _ E ?x c] => set (s6 := x) end.
    intros H. apply tell_finish_spec in H. destruct (fs_trace _ _ _ _ _ _ H eq_refl) as (t0 & Ht & H0 & _).
    rewrite (H0 eq_refl) in Ht. exists s6.
    split; [cbn; now rewrite ?B1, ?B2, ?B3|]. split; [cbn; now rewrite ?B1, ?B2, ?B3|].
    rewrite Ht. cbn. now rewrite ?B13, ?B4.
  Qed.

  (** no candidate satisfies the constraints *)
  Lemma loop_violated n : forall s last s' r, (forall c, violates E c) -> e_penalize _ _ _ E = false ->
    (forall s, exists c, snd (e_ask _ _ _ E s) = Ok c) ->
    o_suggestions _ _ _ s = [] ->
    ask_loop _ _ _ E n s last = (s', r) ->
    o_trace _ _ _ s' = o_trace _ _ _ s ++ repeat EAlgAsk n /\ o_skip _ _ _ s' = o_skip _ _ _ s /\
    (exists x, r = Ok x) /\ (last <> None \/ (0 < n)%nat -> r <> Ok None).
  Proof.
    induction n as [|n IH]; intros s last s' r Hv Hp Hok Hs; cbn [ask_loop].
    - intros [= <- <-]. cbn. rewrite app_nil_r. do 2 (split; [reflexivity|]). split; [eauto|].
      intros [Hl|?]; [congruence|lia].
    - rewrite Hs. unfold ask_algorithm. specialize (Hok (log _ _ _ s EAlgAsk)) as Hc.
      destruct Hc as (c & Hc). destruct (e_ask _ _ _ E _) as [a ra] eqn:Ea. cbn in Hc. subst ra.
      unfold satisfies. match goal with |- context [e_satisfies _ _ _ E ?x c] =>
        pose proof (Hv c x) as Hsa; destruct (e_satisfies _ _ _ E x c) as [a2 ok] end.
      cbn in Hsa. subst ok. rewrite Hp. intros HH.
      apply IH in HH; [|assumption..]. destruct HH as (T & K & R & N). cbn in T.
      rewrite T, <- app_assoc. cbn. split; [reflexivity|]. split; [exact K|]. split; [exact R|].
      intros _. apply N. now left.
  Qed.

  Lemma ask_violated s s' r : (forall c, violates E c) -> e_penalize _ _ _ E = false ->
    (forall s, snd (e_callbacks_ask _ _ _ E s) = Ok tt) ->
    (forall s, exists c, snd (e_ask _ _ _ E s) = Ok c) ->
    o_suggestions _ _ _ s = [] -> o_skip _ _ _ s = false ->
    ask _ _ _ E s = (s', r) ->
    o_trace _ _ _ s' = o_trace _ _ _ s ++ repeat EAlgAsk (Nat.max 1 (e_max_trials _ _ _ E / 2)) /\
    o_skip _ _ _ s' = false /\ match r with Ok _ => True | Err e => e = RuntimeError end.
  Proof.
    intros Hv Hp Hcb Hok Hs Hk. unfold ask. specialize (Hcb s).
    destruct (e_callbacks_ask _ _ _ E s) as [a ra]. cbn in Hcb. subst ra.
    unfold ask_candidate. cbn [o_skip set_alg]. rewrite Hk. cbn [andb].
    destruct (ask_loop _ _ _ E _ _ None) as [s1 r1] eqn:E1.
    apply loop_violated in E1; [|assumption..]. destruct E1 as (T & K & (x & ->) & N).
    destruct x as [[c b]|]; [|exfalso; apply N; [right; lia|reflexivity]].
    unfold satisfies. destruct (e_satisfies _ _ _ E s1 c) as [a2 ok].
    cbn in T, K. rewrite Hk in K.
    destruct (negb ok && _).
    - destruct (e_solver _ _ _ E _ c) as [a3 c'].
      destruct ok, b; destruct (_ && _); intros [= <- <-]; cbn; repeat split; assumption.
    - destruct ok, b; destruct (_ && _); intros [= <- <-]; cbn; repeat split; assumption.
  Qed.
End Violated.

Section Delegate.
  Context {A C H ARC HV : Type}.
  Notation inner := (ost A C H).
  Variable EI : env A C H.
  Variable create : result inner.
  Variable ED : env A C H.
  Variable create_de : inner.
  Variable replaces : bool.
  Variable E0 : env (delegate A C H) ARC HV.
  Notation outer := (ost (delegate A C H) ARC HV).
  Notation EO := (ngopt_env EI create ED create_de replaces E0).
  Notation alg := (o_alg (delegate A C H) ARC HV).
  Notation trace := (o_trace (delegate A C H) ARC HV).
  Notation nobj := (o_num_obj (delegate A C H) ARC HV).
  Notation dask := (d_ask EI create ED).
  Notation dtell := (d_tell EI create ED).

  (** the inner optimizer after some exchanges *)
  Definition hear (d : delegate A C H) (e : event) : delegate A C H :=
    match e with
    | EAlgAsk => fst (dask d)
    | EAlgTell c l _ => fst (dtell d c l)
    | EArchive _ _ => d
    end.
  Definition after (d : delegate A C H) (t : list event) : delegate A C H := fold_left hear t d.

  Lemma hear_replaced d e : d_replaced (hear d e) = d_replaced d.
  Proof.
    destruct e; cbn; [unfold d_ask|unfold d_tell|reflexivity]; destruct (d_get create d); try reflexivity.
    - destruct (ask _ _ _ _ _). reflexivity.
    - destruct (tell _ _ _ _ _ _ _). reflexivity.
  Qed.
  Lemma after_replaced t : forall d, d_replaced (after d t) = d_replaced d.
  Proof. induction t as [|e t IH]; intros d; [reflexivity|]. cbn [after fold_left]. fold (after (hear d e) t). rewrite IH. apply hear_replaced. Qed.

  Definition steady (b : bool) (n : nat) : Prop := replaces = false \/ b = true \/ (n <= 1)%nat.
  Lemma refresh_steady s : steady (d_replaced (alg s)) (nobj s) -> d_refresh create_de replaces s = alg s.
  Proof.
    unfold d_refresh. intros Hs.
    assert (Hf : replaces && (1 <? nobj s)%nat && negb (d_replaced (alg s)) = false).
    { destruct Hs as [->|[->| Hn]]; [reflexivity|apply andb_false_r|].
      apply Nat.ltb_ge in Hn. rewrite Hn, andb_false_r. reflexivity. }
    cbn zeta. now rewrite Hf.
  Qed.

  Definition sim (s s' : outer) : Prop := exists t, trace s' = trace s ++ t /\ alg s' = after (alg s) t.
  Lemma sim_refl s : sim s s.
  Proof. exists []. rewrite app_nil_r. auto. Qed.
  Lemma sim_trans s1 s2 s3 : sim s1 s2 -> sim s2 s3 -> sim s1 s3.
  Proof.
    intros (t1 & E1 & F1) (t2 & E2 & F2). exists (t1 ++ t2). split.
    - rewrite E2, E1. now rewrite <- app_assoc.
    - rewrite F2, F1. unfold after. now rewrite fold_left_app.
  Qed.
  Lemma sim_same s s' : trace s' = trace s -> alg s' = alg s -> sim s s'.
  Proof. intros E1 E2. exists []. rewrite app_nil_r. auto. Qed.
  Lemma sim_event s s' e : trace s' = trace s ++ [e] -> alg s' = hear (alg s) e -> sim s s'.
  Proof. intros E1 E2. exists [e]. auto. Qed.

  Hypothesis Hk : keeps E0.

  Lemma ask_algorithm_sim s s' r : ask_algorithm _ _ _ EO s = (s', r) -> sim s s'.
  Proof.
    unfold ask_algorithm. cbn [e_ask ngopt_env o_alg log].
    destruct (dask (alg s)) as [d rr] eqn:Ed.
    assert (Hd : hear (alg s) EAlgAsk = d) by (cbn; now rewrite Ed).
    assert (H1 : sim s (set_alg _ _ _ (log _ _ _ s EAlgAsk) d)).
    { apply (sim_event _ _ EAlgAsk); cbn; auto. }
    destruct rr as [c|e]; [intros [= <- <-]; exact H1|].
    destruct e; try (intros [= <- <-]; exact H1).
    cbn [e_has_checkers ngopt_env]. destruct (e_has_checkers _ _ _ E0); [|intros [= <- <-]; exact H1].
    cbn [e_spawn ngopt_env].
    match goal with |- context [e_spawn _ _ _ E0 ?x] =>
      pose proof (k_spawn _ Hk x) as Hs; destruct (e_spawn _ _ _ E0 x) as [a c] end.
    intros [= <- <-]. cbn in Hs. subst a. exact H1.
  Qed.

  Lemma satisfies_sim s c s' b : satisfies _ _ _ EO s c = (s', b) ->
    sim s s' /\ s' = s /\ b = snd (e_satisfies _ _ _ E0 s c).
  Proof.
    unfold satisfies. cbn [e_satisfies ngopt_env]. pose proof (k_sat _ Hk s c) as Hs.
    destruct (e_satisfies _ _ _ E0 s c) as [a ok]. intros [= <- <-]. cbn in Hs. subst a.
    split; [apply sim_same; reflexivity|]. split; [now destruct s|reflexivity].
  Qed.

  Lemma ask_loop_sim n : forall s last s' r, ask_loop _ _ _ EO n s last = (s', r) -> sim s s'.
  Proof.
    induction n as [|n IH]; intros s last s' r; cbn [ask_loop].
    - intros [= <- <-]. apply sim_refl.
    - destruct (o_suggestions _ _ _ s) as [|c0 l0].
      + destruct (ask_algorithm _ _ _ EO s) as [s1 r1] eqn:E1. apply ask_algorithm_sim in E1.
        destruct r1 as [c|e]; [|now intros [= <- <-]].
        destruct (satisfies _ _ _ EO s1 c) as [s2 ok] eqn:E2. apply satisfies_sim in E2 as (E2 & _).
        destruct ok.
        * intros [= <- <-]. eapply sim_trans; [exact E1|]. eapply sim_trans; [exact E2|].
          destruct (_ && _); apply sim_same; reflexivity.
        * cbn [e_penalize ngopt_env]. destruct (e_penalize _ _ _ E0).
          -- cbn [e_tell ngopt_env o_alg log]. destruct (dtell (alg s2) c PosInf) as [d rr] eqn:Ed.
             assert (E3 : sim s2 (set_alg _ _ _ (log _ _ _ s2 (EAlgTell c PosInf true)) d)).
             { apply (sim_event _ _ (EAlgTell c PosInf true)); cbn; [reflexivity|now rewrite Ed]. }
             destruct rr as [u|e].
             ++ intros Hl. apply IH in Hl. do 3 (eapply sim_trans; [eassumption|]). destruct Hl as (t & Ht1 & Ht2).
                exists t. auto.
             ++ intros [= <- <-]. do 2 (eapply sim_trans; [eassumption|]). exact E3.
          -- intros Hl. apply IH in Hl. do 2 (eapply sim_trans; [eassumption|]).
             destruct Hl as (t & Ht1 & Ht2). exists t. auto.
      + destruct (satisfies _ _ _ EO _ c0) as [s2 ok] eqn:E2. apply satisfies_sim in E2 as (_ & -> & _).
        assert (E1 : sim s (set_suggestions _ _ _ s l0)) by (apply sim_same; reflexivity).
        destruct ok.
        * intros [= <- <-]. eapply sim_trans; [exact E1|].
          destruct (_ && _); apply sim_same; reflexivity.
        * cbn [e_penalize ngopt_env]. destruct (e_penalize _ _ _ E0).
          -- cbn [e_tell ngopt_env o_alg log set_suggestions].
             destruct (dtell (alg s) c0 PosInf) as [d rr] eqn:Ed.
             assert (E3 : sim s (set_alg _ _ _ (log _ _ _ (set_suggestions _ _ _ s l0) (EAlgTell c0 PosInf true)) d)).
             { apply (sim_event _ _ (EAlgTell c0 PosInf true)); cbn; [reflexivity|now rewrite Ed]. }
             destruct rr as [u|e].
             ++ intros Hl. apply IH in Hl. eapply sim_trans; [exact E3|]. destruct Hl as (t & Ht1 & Ht2).
                exists t. auto.
             ++ intros [= <- <-]. exact E3.
          -- intros Hl. apply IH in Hl. destruct Hl as (t & Ht1 & Ht2). exists t. auto.
  Qed.

  Lemma ask_sim s s' r : steady (d_replaced (alg s)) (nobj s) -> ask _ _ _ EO s = (s', r) -> sim s s'.
  Proof.
    intros Hst. unfold ask. cbn [e_callbacks_ask ngopt_env]. rewrite (refresh_steady s Hst).
    assert (E0' : set_alg _ _ _ s (alg s) = s) by now destruct s. rewrite E0'. clear E0'.
    destruct (ask_candidate _ _ _ EO s) as [s1 r1] eqn:E1.
    assert (H1 : sim s s1).
    { revert E1. unfold ask_candidate. destruct (_ && _).
      - cbn [e_ask ngopt_env o_alg log]. destruct (dask (alg s)) as [d rr] eqn:Ed.
        intros [= <- <-]. apply (sim_event _ _ EAlgAsk); cbn; [reflexivity|now rewrite Ed].
      - apply ask_loop_sim. }
    destruct r1 as [[[c b]|]|e]; [|intros [= <- <-]; exact H1..].
    destruct (satisfies _ _ _ EO s1 c) as [s2 ok] eqn:E2. apply satisfies_sim in E2 as (_ & -> & _).
    destruct (if negb ok && (e_tabu_length _ _ _ EO =? 0)%nat
              then let '(a, c') := e_solver _ _ _ EO s1 c in (set_alg _ _ _ s1 a, c')
              else (s1, c)) as [s3 c3] eqn:E3.
    assert (H3 : s3 = s1).
    { destruct (_ && _); [|now injection E3]. cbn [e_solver ngopt_env] in E3.
      pose proof (k_solver _ Hk s1 c) as Hs. destruct (e_solver _ _ _ E0 s1 c) as [a c'].
      injection E3 as <- <-. cbn in Hs. subst a. now destruct s1. }
    subst s3. clear E3.
    assert (H4 : (if ok then s1 else set_alg _ _ _ s1 (fst (e_satisfies_no_tabu _ _ _ EO s1 c3))) = s1).
    { destruct ok; [reflexivity|]. cbn [e_satisfies_no_tabu ngopt_env]. rewrite (k_sat2 _ Hk s1 c3). now destruct s1. }
    rewrite H4.
    destruct (negb b && mem c3 _); intros [= <- <-]; [exact H1|].
    eapply sim_trans; [exact H1|]. destruct b; apply sim_same; reflexivity.
  Qed.

  Lemma tell_finish_sim s c l nu s' r : tell_finish _ _ _ EO s c l nu = (s', r) -> sim s s'.
  Proof.
    unfold tell_finish. destruct (read_num_obj _ _ _ EO s) as [n|e]; [|intros [= <- <-]; apply sim_refl].
    match goal with |- (let (_, _) := ?x in _) = _ -> _ => destruct x as [s1 r1] eqn:E1 end.
    assert (H1 : sim s s1).
    { destruct (((n =? 1)%nat || _) && _).
      - destruct (e_update _ _ _ EO _ c l) as [a [u|e]]; injection E1 as <- <-;
          apply (sim_event _ _ (EArchive c l)); reflexivity.
      - injection E1 as <- <-. apply sim_refl. }
    destruct r1 as [u|e]; [|intros [= <- <-]; exact H1].
    destruct (mem c _).
    - cbn [e_tell ngopt_env o_alg log]. destruct (dtell (alg s1) c l) as [d rr] eqn:Ed.
      assert (H2 : sim s1 (set_alg _ _ _ (log _ _ _ s1 (EAlgTell c l true)) d)).
      { apply (sim_event _ _ (EAlgTell c l true)); cbn; [reflexivity|now rewrite Ed]. }
      destruct rr; intros [= <- <-]; (eapply sim_trans; [exact H1|]); [|exact H2].
      eapply sim_trans; [exact H2|]. apply sim_same; reflexivity.
    - cbn [e_tell_not_asked ngopt_env o_alg log]. destruct (dtell (alg s1) c l) as [d rr] eqn:Ed.
      assert (H2 : sim s1 (set_alg _ _ _ (log _ _ _ s1 (EAlgTell c l false)) d)).
      { apply (sim_event _ _ (EAlgTell c l false)); cbn; [reflexivity|now rewrite Ed]. }
      destruct rr; intros [= <- <-]; (eapply sim_trans; [exact H1|]); [|exact H2].
      eapply sim_trans; [exact H2|]. apply sim_same; reflexivity.
  Qed.

  Lemma tell_process_sim s c l cv s' r : steady (d_replaced (alg s)) (nobj s) ->
    tell_process _ _ _ EO s c l cv = (s', r) -> sim s s'.
  Proof.
    intros Hst. unfold tell_process. cbn [e_callbacks_tell ngopt_env].
    match goal with |- context [set_alg _ _ _ ?x (d_refresh create_de replaces ?x)] =>
      set (s0 := x); assert (Hs0 : sim s s0) by (apply sim_same; reflexivity);
      rewrite (refresh_steady s0) by exact Hst;
      replace (set_alg _ _ _ s0 (alg s0)) with s0 by reflexivity end.
    clearbody s0.
    destruct (satisfies _ _ _ EO s0 c) as [s1 ok] eqn:E1. apply satisfies_sim in E1 as (E1 & _).
    destruct cv as [cv|]; intros Hf; apply tell_finish_sim in Hf;
      (eapply sim_trans; [exact Hs0|]); (eapply sim_trans; [exact E1|]); exact Hf.
  Qed.

  Lemma tell_sim s c l cv s' r : steady (d_replaced (alg s)) (nobj s') ->
    tell _ _ _ EO s c l cv = (s', r) -> sim s s'.
  Proof.
    intros Hst. unfold tell. destruct (check_loss l) as [lv|e]; [|intros [= <- <-]; apply sim_refl].
    assert (H0 : sim s (update_curve _ _ _ s lv)).
    { destruct (update_curve_same s lv). apply sim_same; assumption. }
    assert (Ha : alg (update_curve _ _ _ s lv) = alg s) by now destruct (update_curve_same s lv).
    set (s0 := update_curve _ _ _ s lv) in *. clearbody s0.
    destruct c as [c|v|]; [| |intros [= <- <-]; exact H0].
    - destruct (loss_size lv) as [n|e]; [|intros [= <- <-]; exact H0].
      destruct (assign_num_obj _ _ _ s0 n) as [s1 r1] eqn:E1. apply assign_num_obj_spec in E1.
      destruct r1 as [u|e]; [destruct E1 as (-> & _)|destruct E1 as (-> & _); intros [= <- <-]; exact H0].
      cbn [tell_reference].
      match goal with |- context [scalar_loss _ _ _ _ ?x _ _] => set (s2 := x) end.
      assert (H2 : sim s s2) by (eapply sim_trans; [exact H0|apply sim_same; reflexivity]).
      assert (Ha2 : alg s2 = alg s) by exact Ha. clearbody s2. clear H0 Ha s0.
      destruct (scalar_loss _ _ _ EO s2 c lv) as [s3 r3] eqn:E3.
      assert (H3 : trace s3 = trace s2 /\ alg s3 = alg s2).
      { unfold scalar_loss in E3. destruct lv; try (injection E3 as <- <-; auto).
        destruct (e_hv_add _ _ _ EO _ c l0) as [h rr]. injection E3 as <- <-. auto. }
      destruct H3 as (H3a & H3b). pose proof (sim_same _ _ H3a H3b) as H3.
      destruct r3 as [f|e]; [|intros [= <- <-]; eapply sim_trans; eassumption].
      destruct (tell_process _ _ _ EO s3 c f cv) as [s4 r4] eqn:E4. intros [= <- <-].
      eapply sim_trans; [exact H2|]. eapply sim_trans; [exact H3|]. eapply tell_process_sim; [|exact E4].
      apply tell_process_spec in E4. rewrite H3b, Ha2, <- (qs_nobj _ _ _ _ _ E4). exact Hst.
    - destruct (loss_size lv) as [n|e]; [|intros [= <- <-]; exact H0].
      destruct (assign_num_obj _ _ _ s0 n) as [s1 r1] eqn:E1. apply assign_num_obj_spec in E1.
      destruct r1 as [u|e]; [destruct E1 as (-> & _)|destruct E1 as (-> & _); intros [= <- <-]; exact H0].
      destruct (tell_reference _ _ _ EO _ (CRef v) lv) as [s2 r2] eqn:E2.
      assert (H2' : trace s2 = trace s0 /\ alg s2 = alg s0).
      { unfold tell_reference in E2. destruct (o_hv _ _ _ _); [injection E2 as <- <-; auto|].
        destruct lv; injection E2 as <- <-; auto. }
      destruct H2' as (H2a & H2b).
      assert (H2 : sim s s2) by (eapply sim_trans; [exact H0|now apply sim_same]).
      assert (Ha2 : alg s2 = alg s) by congruence. clear E2 H2a H2b H0 Ha.
      destruct r2 as [[c|]|e]; [|intros [= <- <-]; exact H2..].
      destruct (scalar_loss _ _ _ EO s2 c lv) as [s3 r3] eqn:E3.
      assert (H3 : trace s3 = trace s2 /\ alg s3 = alg s2).
      { unfold scalar_loss in E3. destruct lv; try (injection E3 as <- <-; auto).
        destruct (e_hv_add _ _ _ EO _ c l0) as [h rr]. injection E3 as <- <-. auto. }
      destruct H3 as (H3a & H3b). pose proof (sim_same _ _ H3a H3b) as H3.
      destruct r3 as [f|e]; [|intros [= <- <-]; eapply sim_trans; eassumption].
      destruct (tell_process _ _ _ EO s3 c f cv) as [s4 r4] eqn:E4. intros [= <- <-].
      eapply sim_trans; [exact H2|]. eapply sim_trans; [exact H3|]. eapply tell_process_sim; [|exact E4].
      apply tell_process_spec in E4. rewrite H3b, Ha2, <- (qs_nobj _ _ _ _ _ E4). exact Hst.
  Qed.

  Lemma step_sim s o s' r : steady (d_replaced (alg s)) (nobj s') -> step _ _ _ EO s o = (s', r) -> sim s s'.
  Proof.
    intros Hst. destruct o as [|rs|c l cv]; cbn [step].
    - destruct (ask _ _ _ EO s) as [s1 r1] eqn:E1. intros [= <- <-].
      eapply ask_sim; [|exact E1]. apply ask_spec in E1 as (_ & _ & Hn & _). now rewrite <- Hn.
    - unfold suggest. destruct rs; intros [= <- <-]; apply sim_same; reflexivity.
    - destruct (tell _ _ _ EO s c l cv) as [s1 r1] eqn:E1. intros [= <- <-].
      eapply tell_sim; [|exact E1]. exact Hst.
  Qed.

  Lemma steady_le b n m : (n <= m)%nat -> steady b m -> steady b n.
  Proof. intros Hle [?|[?|?]]; unfold steady; auto. right. right. lia. Qed.

  Lemma step_nobj_mono s o s' r : step _ _ _ EO s o = (s', r) -> (nobj s <= nobj s')%nat.
  Proof.
    intros E. destruct (Nat.eq_dec (nobj s) 0) as [->|Hn]; [lia|].
    rewrite (num_obj_step EO s o s' r E Hn). lia.
  Qed.
  Lemma run_nobj_mono ops : forall s s' h, perform EO s ops = (s', h) -> (nobj s <= nobj s')%nat.
  Proof.
    induction ops as [|o ops IH]; intros s s' h; cbn [perform].
    - intros [= <- <-]. lia.
    - destruct (step _ _ _ EO s o) as [s1 r1] eqn:E1. destruct (perform EO s1 ops) as [s2 h2] eqn:E2.
      intros [= <- <-]. apply step_nobj_mono in E1. apply IH in E2. lia.
  Qed.

  Lemma run_sim ops : forall s s' h, steady (d_replaced (alg s)) (nobj s') ->
    perform EO s ops = (s', h) -> sim s s'.
  Proof.
    induction ops as [|o ops IH]; intros s s' h Hst; cbn [perform].
    - intros [= <- <-]. apply sim_refl.
    - destruct (step _ _ _ EO s o) as [s1 r1] eqn:E1. destruct (perform EO s1 ops) as [s2 h2] eqn:E2.
      intros [= <- <-].
      assert (H1 : sim s s1).
      { eapply step_sim; [|exact E1]. eapply steady_le; [|exact Hst]. eapply run_nobj_mono. exact E2. }
      eapply sim_trans; [exact H1|]. eapply IH; [|exact E2].
      destruct H1 as (t & _ & ->). now rewrite after_replaced.
  Qed.

  Lemma perform_cons (E : env A C H) (i : inner) o l :
    fst (perform E i (o :: l)) = fst (perform E (fst (step _ _ _ E i o)) l).
  Proof.
    cbn [perform]. destruct (step _ _ _ E i o) as [i1 r1]. cbn [fst].
    destruct (perform E i1 l) as [i2 h2]. reflexivity.
  Qed.

  (** what was heard, as calls of the inner optimizer *)
  Lemma after_calls t : forall d i, d_get create d = Ok i ->
    after d t = match calls t with
                | [] => d
                | l => Delegate (d_replaced d) (Some (fst (perform (d_env EI ED d) i l)))
                end.
  Proof.
    induction t as [|e t IH]; intros d i Hi; [reflexivity|].
    cbn [after fold_left]. fold (after (hear d e) t).
    destruct e as [|c l b|c l].
    - cbn [hear calls flat_map app]. fold (calls t). unfold d_ask. rewrite Hi.
      destruct (ask _ _ _ (d_env EI ED d) i) as [i' r] eqn:Ei. cbn [fst].
      rewrite (IH (Delegate (d_replaced d) (Some i')) i' eq_refl). cbn [d_replaced].
      change (d_env EI ED (Delegate (d_replaced d) (Some i'))) with (d_env EI ED d).
      rewrite (perform_cons _ i). cbn [step]. rewrite Ei. cbn [fst].
      destruct (calls t) as [|o l]; reflexivity.
    - cbn [hear calls flat_map app]. fold (calls t). unfold d_tell. rewrite Hi.
      destruct (tell _ _ _ (d_env EI ED d) i (CParam c) (LReal l) None) as [i' r] eqn:Ei. cbn [fst].
      rewrite (IH (Delegate (d_replaced d) (Some i')) i' eq_refl). cbn [d_replaced].
      change (d_env EI ED (Delegate (d_replaced d) (Some i'))) with (d_env EI ED d).
      rewrite (perform_cons _ i). cbn [step]. rewrite Ei. cbn [fst].
      destruct (calls t) as [|o l']; reflexivity.
    - cbn [hear calls flat_map app]. fold (calls t). now apply IH.
  Qed.

  Lemma interface ops s s' h i : perform EO s ops = (s', h) ->
    steady (d_replaced (alg s)) (nobj s') -> d_get create (alg s) = Ok i ->
    exists t, trace s' = trace s ++ t /\
      alg s' = match calls t with
               | [] => alg s
               | l => Delegate (d_replaced (alg s)) (Some (fst (perform (d_env EI ED (alg s)) i l)))
               end.
  Proof.
    intros E Hst Hi. destruct (run_sim ops s s' h Hst E) as (t & E1 & E2).
    exists t. split; [exact E1|]. rewrite E2. now apply after_calls.
  Qed.

  (** * Without violated constraints nor several objectives *)
  Notation asked := (o_asked (delegate A C H) ARC HV).
  Notation suggs := (o_suggestions (delegate A C H) ARC HV).
  Notation hv := (o_hv (delegate A C H) ARC HV).

  Record core (s s' : outer) : Prop := {
    co_asked : asked s' = asked s;
    co_nobj : nobj s' = nobj s;
    co_hv : hv s' = hv s }.

  Lemma ask_candidate_plain s s1 r1 d rd : no_violation E0 -> e_has_checkers _ _ _ E0 = false ->
    suggs s = [] -> ask_candidate _ _ _ EO s = (s1, r1) -> dask (alg s) = (d, rd) ->
    core s s1 /\ suggs s1 = [] /\ alg s1 = d /\
    r1 = match rd with Ok c => Ok (Some (c, false)) | Err e => Err e end.
  Proof.
    intros Hnv Hch Hs E Ed. revert E. unfold ask_candidate. rewrite Hs, andb_true_r.
    destruct (o_skip _ _ _ s).
    - cbn [e_ask ngopt_env o_alg log]. rewrite Ed. intros [= <- <-]. cbn.
      split; [constructor; reflexivity|]. split; [exact Hs|]. split; [reflexivity|]. now destruct rd.
    - destruct (Nat.max 1 _) as [|n] eqn:En; [lia|]. cbn [ask_loop]. rewrite Hs.
      unfold ask_algorithm. cbn [e_ask ngopt_env o_alg log]. rewrite Ed.
      destruct rd as [c|e].
      + unfold satisfies. cbn [e_satisfies ngopt_env].
        match goal with |- context [e_satisfies _ _ _ E0 ?x c] =>
          pose proof (k_sat _ Hk x c) as Hsa; pose proof (Hnv x c) as Hok;
          destruct (e_satisfies _ _ _ E0 x c) as [a ok] end.
        cbn in Hsa, Hok. subst a ok.
        destruct (_ && _); intros [= <- <-]; cbn; (split; [constructor; reflexivity|]);
          (split; [exact Hs|]); split; reflexivity.
      + cbn [e_has_checkers ngopt_env]. rewrite Hch.
        destruct e; intros [= <- <-]; cbn; (split; [constructor; reflexivity|]);
          (split; [exact Hs|]); split; reflexivity.
  Qed.

  Lemma ask_candidate_suggested s c0 l0 : no_violation E0 -> suggs s = c0 :: l0 ->
    exists s1, ask_candidate _ _ _ EO s = (s1, Ok (Some (c0, true))) /\ core s s1 /\ alg s1 = alg s.
  Proof.
    intros Hnv Hs. unfold ask_candidate. rewrite Hs, andb_false_r.
    destruct (Nat.max 1 _) as [|n] eqn:En; [lia|]. cbn [ask_loop]. rewrite Hs.
    unfold satisfies. cbn [e_satisfies ngopt_env].
    match goal with |- context [e_satisfies _ _ _ E0 ?x c0] =>
      pose proof (k_sat _ Hk x c0) as Hsa; pose proof (Hnv x c0) as Hok;
      destruct (e_satisfies _ _ _ E0 x c0) as [a ok] end.
    cbn in Hsa, Hok. subst a ok.
    destruct (_ && _); eexists; (split; [reflexivity|]); split; try reflexivity; constructor; reflexivity.
  Qed.

  Lemma set_alg_same (s : outer) : set_alg _ _ _ s (alg s) = s.
  Proof. now destruct s. Qed.

  Lemma outer_satisfied s c : no_violation E0 -> satisfies _ _ _ EO s c = (s, true).
  Proof.
    intros Hnv. destruct (satisfies _ _ _ EO s c) as [s1 b] eqn:E1.
    apply satisfies_sim in E1 as (_ & -> & ->). now rewrite Hnv.
  Qed.

  Record tinv (s : outer) (i : inner) : Prop := {
    ti_get : d_get create (alg s) = Ok i;
    ti_asked : asked s = o_asked _ _ _ i;
    ti_sugg : o_suggestions _ _ _ i = [];
    ti_nobj : (nobj s <= 1)%nat;
    ti_hv : hv s = None;
    ti_rep : d_replaced (alg s) = false }.

  Lemma ask_plain s i s' r : no_violation E0 -> e_has_checkers _ _ _ E0 = false -> tinv s i -> suggs s = [] ->
    ask _ _ _ EO s = (s', r) ->
    exists i', ask _ _ _ EI i = (i', r) /\ tinv s' i' /\ alg s' = Delegate false (Some i') /\
      match r with Ok (_, b) => b = false | Err _ => True end.
  Proof.
    intros Hnv Hch [T1 T2 T3 T4 T5 T6] Hs. unfold ask at 1. cbn [e_callbacks_ask ngopt_env].
    rewrite (refresh_steady s), set_alg_same by (right; right; exact T4).
    destruct (ask_candidate _ _ _ EO s) as [s1 r1] eqn:E1.
    destruct (dask (alg s)) as [d rd] eqn:Ed.
    destruct (ask_candidate_plain _ _ _ _ _ Hnv Hch Hs E1 Ed) as ([C1 C2 C3] & Hs1 & Ha1 & ->).
    unfold d_ask in Ed. rewrite T1 in Ed.
    assert (He : d_env EI ED (alg s) = EI) by (unfold d_env; now rewrite T6). rewrite He in Ed.
    destruct (ask _ _ _ EI i) as [i' ri] eqn:Ei. rewrite T6 in Ed. injection Ed as <- <-.
    pose proof (ask_sugg _ _ _ _ T3 Ei) as (Hsi & Hbi).
    pose proof (ask_spec EI _ _ _ Ei) as (_ & _ & _ & _ & _ & _ & _ & Hri).
    destruct ri as [[c b]|e].
    - subst b. rewrite (outer_satisfied s1 c Hnv). cbn [negb andb].
      destruct Hri as (_ & Has & Hnin). specialize (Hnin eq_refl).
      assert (Hm : mem c (asked s1) = false) by (apply mem_false; rewrite C1, T2; exact Hnin).
      rewrite Hm. intros [= <- <-]. exists i'. split; [reflexivity|]. split; [|split; [exact Ha1|reflexivity]].
      constructor; cbn.
      + now rewrite Ha1.
      + rewrite C1, T2. now rewrite Has.
      + exact Hsi.
      + now rewrite C2.
      + now rewrite C3.
      + now rewrite Ha1.
    - intros [= <- <-]. exists i'. split; [reflexivity|]. split; [|split; [exact Ha1|exact I]].
      destruct Hri as (_ & Has).
      constructor; cbn; rewrite ?C1, ?C2, ?C3, ?Ha1; auto. now rewrite Has.
  Qed.

  Lemma ask_suggested s i s' r : no_violation E0 -> tinv s i -> suggs s <> [] ->
    ask _ _ _ EO s = (s', r) ->
    tinv s' i /\ alg s' = alg s /\ exists c, r = Ok (c, true).
  Proof.
    intros Hnv [T1 T2 T3 T4 T5 T6] Hs. unfold ask. cbn [e_callbacks_ask ngopt_env].
    rewrite (refresh_steady s), set_alg_same by (right; right; exact T4).
    destruct (suggs s) as [|c0 l0] eqn:Es; [easy|].
    destruct (ask_candidate_suggested s c0 l0 Hnv Es) as (s1 & -> & [C1 C2 C3] & Ha1).
    rewrite (outer_satisfied s1 c0 Hnv). cbn [negb andb]. intros [= <- <-].
    split; [|split; [exact Ha1|eauto]].
    constructor; cbn; rewrite ?C1, ?C2, ?C3, ?Ha1; auto.
  Qed.

  Lemma clip_twice f : clip_loss (clip_loss f) = clip_loss f.
  Proof. unfold clip_loss. destruct (fl_lt f max_loss) eqn:Ef; [now rewrite Ef|]. destruct (fl_lt max_loss max_loss); reflexivity. Qed.

  Lemma tell_clip (E : env A C H) i c f cv :
    tell _ _ _ E i (CParam c) (LReal (clip_loss f)) cv = tell _ _ _ E i (CParam c) (LReal f) cv.
  Proof. unfold tell. cbn [check_loss]. now rewrite clip_twice. Qed.

  Lemma tell_plain s i c f s' r : no_violation E0 ->
    (forall a c l, snd (e_update _ _ _ E0 a c l) = Ok tt) -> tinv s i ->
    tell _ _ _ EO s (CParam c) (LReal f) None = (s', r) ->
    exists i', tell _ _ _ EI i (CParam c) (LReal f) None = (i', r) /\ tinv s' i' /\
      alg s' = Delegate false (Some i').
  Proof.
    intros Hnv Hup [T1 T2 T3 T4 T5 T6] E.
    assert (Hn : nobj s = 0%nat \/ nobj s = 1%nat) by lia.
    pose proof (tell_tell_spec EO _ _ _ _ _ _ E) as [S1 S2 S3 S4 S5 S6].
    assert (Hal := E). unfold tell in E. cbn [check_loss loss_size] in E.
    destruct (update_curve_same s (VFloat (clip_loss f))) as [B1 B2 B3 B4 B5 B6 B7 B8 B9 B10 B11 B12 B13].
    set (s0 := update_curve _ _ _ s (VFloat (clip_loss f))) in *. clearbody s0.
    destruct (assign_num_obj _ _ _ s0 1) as [s1 r1] eqn:E1. apply assign_num_obj_spec in E1.
    destruct r1 as [u|e]; [destruct E1 as (-> & _)|destruct E1 as (_ & _ & [?|?]); [easy|rewrite B6 in *; lia]].
    cbn [tell_reference scalar_loss] in E.
    match type of E with context [tell_process _ _ _ _ ?x _ _ _] => set (s2 := x) in E end.
    assert (Ha2 : alg s2 = alg s) by exact B12.
    assert (Hk2 : asked s2 = asked s) by exact B4.
    assert (Hn2 : nobj s2 = 1%nat) by reflexivity.
    assert (Hh2 : hv s2 = None) by (cbn; now rewrite B7).
    clearbody s2. clear B1 B2 B3 B4 B5 B6 B7 B8 B9 B10 B11 B12 B13 s0.
    unfold tell_process in E. cbn [e_callbacks_tell ngopt_env] in E.
    match type of E with context [set_alg _ _ _ ?x (d_refresh _ _ ?x)] => set (s3 := x) in E end.
    rewrite (refresh_steady s3), set_alg_same in E by (right; right; cbn; lia).
    rewrite (outer_satisfied s3 c Hnv) in E. cbn [negb andb] in E.
    unfold tell_finish in E. unfold read_num_obj in E.
    replace (o_hv _ _ _ s3) with (@None HV) in E by (symmetry; exact Hh2).
    replace (o_num_obj _ _ _ s3) with 1%nat in E by (symmetry; exact Hn2).
    cbn [Nat.eqb orb negb andb] in E. cbn [e_update ngopt_env] in E.
    match type of E with context [e_update _ _ _ E0 ?x c ?l] =>
      pose proof (Hup x c l) as Hu; destruct (e_update _ _ _ E0 x c l) as [a ru] end.
    cbn in Hu. subst ru.
    match type of E with context [mem c (o_asked _ _ _ ?x)] => set (s4 := x) in E end.
    assert (Ha4 : alg s4 = alg s) by exact Ha2.
    assert (Hk4 : asked s4 = asked s) by exact Hk2.
    assert (Hh4 : hv s4 = None) by exact Hh2.
    assert (Hn4 : nobj s4 = 1%nat) by exact Hn2.
    clearbody s4. clear s3 Hn2 Hh2 Hk2 Ha2.
    assert (Hd : exists i' rr, tell _ _ _ EI i (CParam c) (LReal f) None = (i', rr) /\
      dtell (alg s) c (clip_loss f) = (Delegate false (Some i'), match rr with Ok _ => Ok tt | Err e => Err e end)).
    { destruct (tell _ _ _ EI i (CParam c) (LReal f) None) as [i' rr] eqn:Ei. exists i', rr. split; [reflexivity|].
      unfold d_tell. rewrite T1. unfold d_env. rewrite T6, tell_clip, Ei. reflexivity. }
    destruct Hd as (i' & rr & Ei & Ed).
    pose proof (tell_tell_spec EI _ _ _ _ _ _ Ei) as [I1 I2 I3 I4 I5 I6].
    assert (Hfin : hv s' = None /\ nobj s' = 1%nat /\ alg s' = Delegate false (Some i') /\
       r = match rr with Ok _ => Ok true | Err e => Err e end).
    { destruct (mem c (asked s4)).
      - cbn [e_tell ngopt_env] in E. cbn [o_alg log] in E. rewrite Ha4, Ed in E.
        destruct rr as [b|e]; injection E as <- <-; cbn; auto.
      - cbn [e_tell_not_asked ngopt_env] in E. cbn [o_alg log] in E. rewrite Ha4, Ed in E.
        destruct rr as [b|e]; injection E as <- <-; cbn; auto. }
    destruct Hfin as (F1 & F0 & F2 & F3).
    assert (Hr : r = rr).
    { destruct rr as [[]|e]; auto. specialize (I5 eq_refl). discriminate. }
    exists i'. split; [now rewrite Hr|]. split; [|exact F2].
    constructor.
    - now rewrite F2.
    - clear F3. subst r. destruct rr as [[]|e].
      + destruct S4 as (c1 & E1 & _ & _ & S4). destruct I4 as (c2 & E2 & _ & _ & I4).
        injection E1 as <-. injection E2 as <-. now rewrite S4, I4, T2.
      + destruct S4 as (_ & _ & ->), I4 as (_ & _ & ->). exact T2.
      + destruct S4 as (_ & _ & ->), I4 as (_ & _ & ->). exact T2.
    - now rewrite I2.
    - lia.
    - exact F1.
    - now rewrite F2.
  Qed.

  Lemma step_plain s i o s' r : no_violation E0 -> e_has_checkers _ _ _ E0 = false ->
    (forall a c l, snd (e_update _ _ _ E0 a c l) = Ok tt) -> tinv s i -> plain_op o ->
    step _ _ _ EO s o = (s', r) ->
    (but_suggestions [(o, r)] = [] /\ tinv s' i /\ alg s' = alg s) \/
    (but_suggestions [(o, r)] = [(o, r)] /\
     exists i', step _ _ _ EI i o = (i', r) /\ tinv s' i' /\ alg s' = Delegate false (Some i')).
  Proof.
    intros Hnv Hch Hup Ht Hp. destruct o as [|rs|c l cv]; cbn [step].
    - destruct (ask _ _ _ EO s) as [s1 r1] eqn:E1. intros [= <- <-].
      destruct (suggs s) as [|c0 l0] eqn:Es.
      + right. destruct (ask_plain _ _ _ _ Hnv Hch Ht Es E1) as (i' & Ei & Ht' & Ha & Hb).
        split; [destruct r1 as [[c b]|e]; [now subst b|reflexivity]|].
        exists i'. rewrite Ei. auto.
      + left. destruct (ask_suggested _ _ _ _ Hnv Ht (ltac:(now rewrite Es)) E1) as (Ht' & Ha & c & ->). auto.
    - unfold suggest. destruct Ht as [T1 T2 T3 T4 T5 T6].
      destruct rs; intros [= <- <-]; left; (split; [reflexivity|]); (split; [constructor; assumption|reflexivity]).
    - destruct c as [c| |]; try easy. destruct l as [f| |]; try easy. destruct cv; try easy.
      destruct (tell _ _ _ EO s (CParam c) (LReal f) None) as [s1 r1] eqn:E1. intros [= <- <-].
      right. split; [reflexivity|].
      destruct (tell_plain _ _ _ _ _ _ Hnv Hup Ht E1) as (i' & Ei & Ht' & Ha). exists i'. rewrite Ei. auto.
  Qed.

  Lemma transparent ops : forall s i s' h, no_violation E0 -> e_has_checkers _ _ _ E0 = false ->
    (forall a c l, snd (e_update _ _ _ E0 a c l) = Ok tt) -> tinv s i -> Forall plain_op ops ->
    perform EO s ops = (s', h) ->
    exists i', perform EI i (map fst (but_suggestions h)) = (i', but_suggestions h) /\ tinv s' i' /\
      (alg s' = Delegate false (Some i') \/ (but_suggestions h = [] /\ alg s' = alg s)).
  Proof.
    induction ops as [|o ops IH]; intros s i s' h Hnv Hch Hup Ht Hp; cbn [perform].
    - intros [= <- <-]. exists i. cbn. auto.
    - destruct (step _ _ _ EO s o) as [s1 r1] eqn:E1. destruct (perform EO s1 ops) as [s2 h2] eqn:E2.
      intros [= <- <-]. inversion Hp as [|? ? Hp1 Hp2]; subst.
      change ((o, r1) :: h2) with ([(o, r1)] ++ h2). unfold but_suggestions. rewrite filter_app.
      fold (but_suggestions [(o, r1)]). fold (but_suggestions h2).
      destruct (step_plain _ _ _ _ _ Hnv Hch Hup Ht Hp1 E1) as [(Hb & Ht1 & Ha)|(Hb & i1 & Ei & Ht1 & Ha)].
      + rewrite Hb. cbn [app]. destruct (IH _ _ _ _ Hnv Hch Hup Ht1 Hp2 E2) as (i' & Ei & Ht' & Hf).
        exists i'. split; [exact Ei|]. split; [exact Ht'|]. rewrite Ha in Hf. exact Hf.
      + rewrite Hb. cbn [app map fst perform]. rewrite Ei.
        destruct (IH _ _ _ _ Hnv Hch Hup Ht1 Hp2 E2) as (i' & Ei' & Ht' & Hf).
        exists i'. rewrite Ei'. split; [reflexivity|]. split; [exact Ht'|]. left.
        destruct Hf as [Hf|(Hf & Hf')]; [exact Hf|]. rewrite Hf in Ei'. cbn in Ei'. injection Ei' as <-.
        now rewrite Hf', Ha.
  Qed.

  (** * The last call of an accepted tell *)
  Lemma finish_last s c l nu s' : tell_finish _ _ _ EO s c l nu = (s', Ok tt) ->
    dtell (alg s) c l = (alg s', Ok tt).
  Proof.
    unfold tell_finish.
    match goal with |- context [match read_num_obj _ _ _ EO s with Ok n => @?f n | Err e => @?g e end] =>
      destruct (match read_num_obj _ _ _ EO s with Ok n => f n | Err e => g e end) as [s1 r1] eqn:E1 end.
    assert (Ha : alg s1 = alg s).
    { destruct (read_num_obj _ _ _ EO s); [|now injection E1 as <- _].
      destruct (_ && negb nu); [|now injection E1 as <- _].
      destruct (e_update _ _ _ EO _ c l). now injection E1 as <- _. }
    destruct r1; [|easy]. destruct (mem c (asked s1)).
    - cbn [e_tell ngopt_env o_alg log]. rewrite Ha. destruct (dtell (alg s) c l) as [d [[]|]]; [|easy].
      intros [= <-]. reflexivity.
    - cbn [e_tell_not_asked ngopt_env o_alg log]. rewrite Ha. destruct (dtell (alg s) c l) as [d [[]|]]; [|easy].
      intros [= <-]. reflexivity.
  Qed.

  Lemma process_last s c l s' : tell_process _ _ _ EO s c l None = (s', Ok tt) ->
    exists s1 l', dtell (d_refresh create_de replaces s1) c l' = (alg s', Ok tt) /\
      alg s1 = alg s /\ nobj s1 = nobj s /\ o_num_ask _ _ _ s1 = o_num_ask _ _ _ s /\
      o_num_tell _ _ _ s1 = o_num_tell _ _ _ s /\
      (violates E0 c -> e_budget _ _ _ E0 <> None -> exists s2,
         l' = fl_add l (Fin (e_penalty _ _ _ E0 s2 c)) /\
         o_num_ask _ _ _ s2 = o_num_ask _ _ _ s /\ o_num_tell _ _ _ s2 = o_num_tell _ _ _ s).
  Proof.
    unfold tell_process. cbn [e_callbacks_tell ngopt_env].
    match goal with |- context [set_alg _ _ _ ?x (d_refresh _ _ ?x)] => set (s1 := x) end.
    set (s2 := set_alg _ _ _ s1 _).
    destruct (satisfies _ _ _ EO s2 c) as [s3 ok] eqn:E3. apply satisfies_sim in E3 as (_ & -> & ->).
    cbn [e_budget e_penalty ngopt_env].
    intros HH. apply finish_last in HH. exists s1. eexists. split; [exact HH|].
    do 4 (split; [reflexivity|]). intros Hv Hb. exists s2. rewrite Hv. cbn [negb andb].
    destruct (e_budget _ _ _ E0); [|easy]. auto.
  Qed.

  Lemma dtell_inner d i c l d' : d_get create d = Ok i -> d_replaced d = false ->
    dtell d c l = (d', Ok tt) ->
    exists i', tell _ _ _ EI i (CParam c) (LReal l) None = (i', Ok true) /\ d' = Delegate false (Some i').
  Proof.
    intros Hg Hr. unfold d_tell, d_env. rewrite Hg, Hr.
    destruct (tell _ _ _ EI i (CParam c) (LReal l) None) as [i' [b|e]] eqn:Ei; [|easy].
    intros [= <-]. exists i'. split; [|reflexivity].
    destruct b; [reflexivity|]. apply tell_tell_spec in Ei. now pose proof (ts_false _ _ _ _ _ Ei eq_refl).
  Qed.

  Lemma penalised_twice s i c f s' : d_get create (alg s) = Ok i -> d_replaced (alg s) = false ->
    violates E0 c -> violates EI c -> e_budget _ _ _ E0 <> None -> e_budget _ _ _ EI <> None ->
    tell _ _ _ EO s (CParam c) (LReal f) None = (s', Ok true) ->
    exists s1 i1 i', alg s' = Delegate false (Some i') /\
      o_num_ask _ _ _ s1 = o_num_ask _ _ _ s /\ o_num_tell _ _ _ s1 = o_num_tell _ _ _ s /\
      o_num_ask _ _ _ i1 = o_num_ask _ _ _ i /\ o_num_tell _ _ _ i1 = o_num_tell _ _ _ i /\
      o_trace _ _ _ i' = o_trace _ _ _ i ++
        [EAlgTell c (fl_add (clip_loss (fl_add (clip_loss f) (Fin (e_penalty _ _ _ E0 s1 c))))
                            (Fin (e_penalty _ _ _ EI i1 c))) (mem c (o_asked _ _ _ i))].
  Proof.
    intros Hg Hr Hv Hvi Hb Hbi HH.
    pose proof (tell_scalar_nobj EO _ _ _ _ _ HH) as Hn.
    pose proof (tell_tell_spec EO _ _ _ _ _ _ HH) as [S1 _ _ _ _ _].
    unfold tell in HH. cbn [check_loss loss_size] in HH.
    destruct (update_curve_same s (VFloat (clip_loss f))) as [B1 B2 B3 B4 B5 B6 B7 B8 B9 B10 B11 B12 B13].
    set (s0 := update_curve _ _ _ s (VFloat (clip_loss f))) in *. clearbody s0.
    destruct (assign_num_obj _ _ _ s0 1) as [s1 r1] eqn:E1. apply assign_num_obj_spec in E1.
    destruct r1 as [u|e]; [destruct E1 as (-> & _)|easy].
    cbn [tell_reference scalar_loss] in HH.
    match type of HH with context [tell_process _ _ _ _ ?x _ _ _] => set (s4 := x) in HH end.
    destruct (tell_process _ _ _ EO s4 c (clip_loss f) None) as [s5 [[]|]] eqn:E5; [|easy].
    injection HH as ->.
    destruct (process_last _ _ _ _ E5) as (s6 & l' & D1 & D2 & D3 & D4 & D5 & D6).
    rewrite (refresh_steady s6) in D1 by (right; right; rewrite D3; cbn; lia).
    destruct (D6 Hv Hb) as (s7 & -> & A1 & A2).
    assert (Ha : alg s6 = alg s) by (rewrite D2; exact B12). rewrite Ha in D1.
    destruct (dtell_inner _ _ _ _ _ Hg Hr D1) as (i' & Ei & Ei').
    destruct (told_violating_heard EI _ _ _ _ Hvi Hbi Ei) as (i1 & I1 & I2 & I3).
    exists s7, i1, i'. split; [exact Ei'|].
    split; [rewrite A1; cbn; now rewrite ?B1, ?B2, ?B3|]. split; [rewrite A2; cbn; now rewrite ?B1, ?B2, ?B3|].
    auto.
  Qed.

  (** * Several objectives *)
  Lemma replaced s c l s' : replaces = true -> d_replaced (alg s) = false -> (1 < n_losses l)%nat ->
    tell _ _ _ EO s (CParam c) l None = (s', Ok true) ->
    exists f d, tell _ _ _ ED create_de (CParam c) (LReal f) None = (d, Ok true) /\
      alg s' = Delegate true (Some d).
  Proof.
    intros Hrep Hr Hl HH. pose proof (tell_tell_spec EO _ _ _ _ _ _ HH) as [_ _ _ _ _ Sn].
    unfold tell in HH. destruct (check_loss l) as [lv|e] eqn:El; [|easy].
    destruct (update_curve_same s lv) as [B1 B2 B3 B4 B5 B6 B7 B8 B9 B10 B11 B12 B13].
    set (s0 := update_curve _ _ _ s lv) in *. clearbody s0.
    destruct (loss_size lv) as [n|e]; [|easy].
    destruct (assign_num_obj _ _ _ s0 n) as [s1 r1] eqn:E1. apply assign_num_obj_spec in E1.
    destruct r1 as [u|e]; [destruct E1 as (-> & _)|easy].
    cbn [tell_reference] in HH.
    destruct (scalar_loss _ _ _ EO _ c lv) as [s3 r3] eqn:E3. destruct r3 as [f|e]; [|easy].
    destruct (tell_process _ _ _ EO s3 c f None) as [s5 [[]|]] eqn:E5; [|easy].
    injection HH as ->.
    assert (Ha3 : alg s3 = alg s).
    { unfold scalar_loss in E3. destruct lv; try (injection E3 as <- _; exact B12).
      destruct (e_hv_add _ _ _ EO _ c l0) as [h rr]. injection E3 as <- _. exact B12. }
    pose proof (tell_process_spec EO _ _ _ _ _ _ E5) as Q5.
    destruct (process_last _ _ _ _ E5) as (s6 & l' & D1 & D2 & D3 & D4 & D5 & D6).
    assert (Hrf : d_refresh create_de replaces s6 = Delegate true (Some create_de)).
    { unfold d_refresh. rewrite Hrep, D2, Ha3, Hr, D3, <- (qs_nobj _ _ _ _ _ Q5), Sn.
      destruct (Nat.ltb_spec 1 (n_losses l)); [reflexivity|lia]. }
    rewrite Hrf in D1. unfold d_tell, d_env, d_get in D1. cbn [d_optim d_replaced] in D1.
    destruct (tell _ _ _ ED create_de (CParam c) (LReal l') None) as [d [b|e]] eqn:Ei; [|easy].
    injection D1 as D1. exists l', d. split; [|now rewrite D1].
    destruct b; [exact Ei|]. apply tell_tell_spec in Ei. now pose proof (ts_false _ _ _ _ _ Ei eq_refl).
  Qed.

  (** * Creation fails *)
  Lemma failing_run e ops s s' h : create = Err e -> alg s = d_init -> (nobj s' <= 1)%nat ->
    perform EO s ops = (s', h) -> alg s' = d_init.
  Proof.
    intros Hc Ha Hn HH. apply run_sim in HH; [|right; right; exact Hn].
    destruct HH as (t & _ & ->). rewrite Ha. clear - Hc.
    induction t as [|x t IH]; [reflexivity|]. cbn [after fold_left]. 
    assert (Hx : hear d_init x = d_init).
    { destruct x; cbn; unfold d_ask, d_tell, d_get; cbn; rewrite ?Hc; reflexivity. }
    rewrite Hx. exact IH.
  Qed.

  Lemma failing_ask s s' r : create = Err AssertionError -> alg s = d_init -> suggs s = [] ->
    o_skip _ _ _ s = false -> (nobj s <= 1)%nat -> no_violation E0 ->
    ask _ _ _ EO s = (s', r) ->
    alg s' = d_init /\
    (e_has_checkers _ _ _ E0 = false -> r = Err AssertionError) /\
    (e_has_checkers _ _ _ E0 = true -> exists s1, let c := snd (e_spawn _ _ _ E0 s1) in
        r = if mem c (asked s) then Err RuntimeError else Ok (c, false)).
  Proof.
    intros Hc Ha Hs Hk0 Hn Hnv. unfold ask. cbn [e_callbacks_ask ngopt_env].
    rewrite (refresh_steady s), set_alg_same by (right; right; exact Hn).
    destruct (ask_candidate _ _ _ EO s) as [s1 r1] eqn:E1.
    assert (H1 : alg s1 = d_init /\ asked s1 = asked s /\
      (e_has_checkers _ _ _ E0 = false -> r1 = Err AssertionError) /\
      (e_has_checkers _ _ _ E0 = true -> exists s2, r1 = Ok (Some (snd (e_spawn _ _ _ E0 s2), false)))).
    { revert E1. unfold ask_candidate. rewrite Hk0. cbn [andb].
      destruct (Nat.max 1 _) as [|n] eqn:En; [lia|]. cbn [ask_loop]. rewrite Hs.
      unfold ask_algorithm. cbn [e_ask ngopt_env o_alg log].
      assert (Hd : dask (alg s) = (d_init, Err AssertionError)).
      { unfold d_ask, d_get. rewrite Ha. cbn. now rewrite Hc. }
      rewrite Hd. cbn [e_has_checkers ngopt_env e_spawn].
      destruct (e_has_checkers _ _ _ E0).
      - match goal with |- context [e_spawn _ _ _ E0 ?x] =>
          pose proof (k_spawn _ Hk x) as Hsp; set (s2 := x) in *; destruct (e_spawn _ _ _ E0 s2) as [a c] eqn:Esp end.
        cbn in Hsp. subst a. rewrite (outer_satisfied _ c Hnv).
        destruct (_ && _); intros [= <- <-]; cbn; (do 2 (split; [reflexivity|])); (split; [easy|]);
          intros _; exists s2; now rewrite Esp.
      - intros [= <- <-]. cbn. repeat split; easy. }
    destruct H1 as (A1 & A2 & A3 & A4). destruct (e_has_checkers _ _ _ E0).
    - destruct (A4 eq_refl) as (s2 & ->). rewrite (outer_satisfied s1 _ Hnv). cbn [negb andb]. rewrite A2.
      destruct (mem _ (asked s)) eqn:Em; intros [= <- <-]; (split; [exact A1|]); (split; [easy|]);
        intros _; exists s2; cbn; now rewrite Em.
    - rewrite (A3 eq_refl). intros [= <- <-]. repeat split; easy.
  Qed.

  Lemma failing_tell s c f s' r : create = Err AssertionError -> alg s = d_init ->
    tell _ _ _ EO s (CParam c) (LReal f) None = (s', r) -> r <> Ok true.
  Proof.
    intros Hc Ha HH ->. pose proof (tell_scalar_nobj EO _ _ _ _ _ HH) as Hn.
    unfold tell in HH. cbn [check_loss loss_size] in HH.
    destruct (update_curve_same s (VFloat (clip_loss f))) as [B1 B2 B3 B4 B5 B6 B7 B8 B9 B10 B11 B12 B13].
    set (s0 := update_curve _ _ _ s (VFloat (clip_loss f))) in *. clearbody s0.
    destruct (assign_num_obj _ _ _ s0 1) as [s1 r1] eqn:E1. apply assign_num_obj_spec in E1.
    destruct r1 as [u|e]; [destruct E1 as (-> & _)|easy].
    cbn [tell_reference scalar_loss] in HH.
    match type of HH with context [tell_process _ _ _ _ ?x _ _ _] => set (s4 := x) in HH end.
    destruct (tell_process _ _ _ EO s4 c (clip_loss f) None) as [s5 [[]|]] eqn:E5; [|easy].
    destruct (process_last _ _ _ _ E5) as (s6 & l' & D1 & D2 & D3 & D4 & D5 & D6).
    rewrite (refresh_steady s6) in D1 by (right; right; rewrite D3; cbn; lia).
    assert (Ha6 : alg s6 = d_init) by (rewrite D2; cbn; now rewrite B12). rewrite Ha6 in D1.
    unfold d_tell, d_get in D1. cbn in D1. now rewrite Hc in D1.
  Qed.

  (** * No candidate satisfies the constraints *)
  Notation trials E := (Nat.max 1 (e_max_trials _ _ _ E / 2)).
  Hypothesis Hv0 : forall c, violates E0 c.
  Hypothesis Hvi : forall c, violates EI c.
  Hypothesis Hp0 : e_penalize _ _ _ E0 = false.
  Hypothesis Hpi : e_penalize _ _ _ EI = false.
  Hypothesis Hcb : forall s, snd (e_callbacks_ask _ _ _ EI s) = Ok tt.
  Hypothesis Hok : forall s, exists c, snd (e_ask _ _ _ EI s) = Ok c.

  Record fresh (i : inner) : Prop := { fr_sugg : o_suggestions _ _ _ i = []; fr_skip : o_skip _ _ _ i = false }.

  Lemma outer_loop n : forall s i last s' x, suggs s = [] -> d_get create (alg s) = Ok i ->
    d_replaced (alg s) = false -> fresh i ->
    ask_loop _ _ _ EO n s last = (s', Ok x) ->
    exists i', d_get create (alg s') = Ok i' /\ d_replaced (alg s') = false /\
      o_trace _ _ _ i' = o_trace _ _ _ i ++ repeat EAlgAsk (n * trials EI).
  Proof.
    induction n as [|n IH]; intros s i last s' x Hs Hg Hr [F1 F2]; cbn [ask_loop].
    - intros [= <- _]. exists i. cbn. rewrite app_nil_r. auto.
    - rewrite Hs. unfold ask_algorithm. cbn [e_ask ngopt_env o_alg log].
      assert (Hd : exists i1 r1, ask _ _ _ EI i = (i1, r1) /\
        dask (alg s) = (Delegate false (Some i1), match r1 with Ok (c, _) => Ok c | Err e => Err e end)).
      { destruct (ask _ _ _ EI i) as [i1 r1] eqn:Ei. exists i1, r1. split; [reflexivity|].
        unfold d_ask, d_env. now rewrite Hg, Hr, Ei. }
      destruct Hd as (i1 & r1 & Ei & Ed). rewrite Ed. clear Ed.
      pose proof (ask_sugg EI _ _ _ F1 Ei) as (Hs1 & _).
      destruct (ask_violated EI _ _ _ Hvi Hpi Hcb Hok F1 F2 Ei) as (T1 & K1 & R1).
      destruct r1 as [[c b]|e]; [|subst e; easy].
      destruct (satisfies _ _ _ EO _ c) as [s3 ok] eqn:E3. apply satisfies_sim in E3 as (_ & -> & ->).
      rewrite Hv0. cbn [e_penalize ngopt_env]. rewrite Hp0. intros HH.
      eapply IH in HH; [|exact Hs|reflexivity|reflexivity|constructor; assumption].
      destruct HH as (i' & G' & R' & T'). exists i'. split; [exact G'|]. split; [exact R'|].
      rewrite T', T1, <- app_assoc. f_equal. cbn [Nat.mul]. now rewrite repeat_app.
  Qed.

  Lemma outer_ask s i s' x : suggs s = [] -> o_skip _ _ _ s = false -> (nobj s <= 1)%nat ->
    d_get create (alg s) = Ok i -> d_replaced (alg s) = false -> fresh i ->
    ask _ _ _ EO s = (s', Ok x) ->
    exists i', d_get create (alg s') = Ok i' /\
      o_trace _ _ _ i' = o_trace _ _ _ i ++ repeat EAlgAsk (trials E0 * trials EI).
  Proof.
    intros Hs Hk0 Hn Hg Hr Hf. unfold ask. cbn [e_callbacks_ask ngopt_env].
    rewrite (refresh_steady s), set_alg_same by (right; right; exact Hn).
    unfold ask_candidate. rewrite Hk0. cbn [andb e_max_trials ngopt_env].
    destruct (ask_loop _ _ _ EO _ s None) as [s1 [x1|e]] eqn:E1; [|easy].
    destruct (outer_loop _ _ _ _ _ _ Hs Hg Hr Hf E1) as (i' & G' & R' & T').
    destruct x1 as [[c b]|]; [|easy].
    destruct (satisfies _ _ _ EO s1 c) as [s3 ok] eqn:E3. apply satisfies_sim in E3 as (_ & -> & ->).
    rewrite Hv0. cbn [negb andb e_tabu_length e_solver e_satisfies_no_tabu ngopt_env].
    destruct (e_tabu_length _ _ _ E0 =? 0)%nat.
    - pose proof (k_solver _ Hk s1 c) as Hso. destruct (e_solver _ _ _ E0 s1 c) as [a c']. cbn in Hso.
      match goal with |- context [e_satisfies_no_tabu _ _ _ E0 ?y ?z] =>
        pose proof (k_sat2 _ Hk y z) as Hs2; destruct (e_satisfies_no_tabu _ _ _ E0 y z) as [a2 ok2] end.
      cbn in Hs2. destruct (_ && _); [easy|]. intros [= <- _]. exists i'.
      split; [|exact T']. cbn. rewrite ?(Hv0 c). destruct b; cbn; rewrite Hs2, Hso; exact G'.
    - pose proof (k_sat2 _ Hk s1 c) as Hs2. destruct (e_satisfies_no_tabu _ _ _ E0 s1 c) as [a2 ok2].
      cbn in Hs2. destruct (_ && _); [easy|]. intros [= <- _]. exists i'.
      split; [|exact T']. cbn. rewrite ?(Hv0 c). destruct b; cbn; rewrite Hs2; exact G'.
  Qed.
End Delegate.

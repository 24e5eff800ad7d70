(** Lemmas about comparisons *)
From Coq Require Import List Arith QArith Bool Lia Lqa.
From Verif.Model Require Import Prelude MultiValue Archive Compare.
From Verif.Spec Require Import Pruning Archive Compare.
From Verif.Proofs Require Import Prelude MultiValue Pruning Archive.
Import ListNotations.
Open Scope nat_scope.

Section Compare.
  Variable msqrt : Q -> Q.
  Variable pruning : list mv -> list (nat * nat) -> result (list (nat * nat)).
  Hypothesis Hprune : sub_pruning pruning.
  (** each data has its own object; all objects exist *)
  Record wf (s : archst) : Prop := {
    w_keys : NoDup (dkeys (st_archive s));
    w_ids : NoDup (map snd (st_archive s));
    w_arch : forall p, In p (st_archive s) -> snd p < length (st_heap s);
    w_bests : forall n b, st_bests s n = Some b -> b < length (st_heap s) }.
  Lemma wf_init : wf arch_init.
  Proof. constructor; cbn; try constructor; intros; contradiction || discriminate. Qed.
  Lemma dget_sublist (a a' : list (nat * nat)) k id : sublist a' a -> NoDup (dkeys a) -> dget k a' = Some id -> dget k a = Some id.
  Proof. intros Sub ND H. apply dget_some_in in H. apply dget_in_nodup; [exact ND|]. eapply sublist_in; eassumption. Qed.
  Lemma ids_inj a k k' id : NoDup (map (@snd nat nat) a) -> In (k, id) a -> In (k', id) a -> k = k'.
  Proof.
    induction a as [|(k0, i0) a IH]; intros ND A B; [destruct A|]. cbn in ND. inversion ND as [|? ? N ND']; subst. destruct A as [A|A], B as [B|B]; try congruence.
    - injection A as -> ->. elim N. now apply (in_map snd) in B.
    - injection B as -> ->. elim N. now apply (in_map snd) in A.
    - now apply IH.
  Qed.
  Lemma best_update_valid h a re id n cur : id < length h -> (forall p, In p a -> snd p < length h) -> (forall b, cur = Some b -> b < length h) ->
    forall b, best_update msqrt h a re id n cur = Some b -> b < length h.
  Proof.
    intros Hid Ha Hc b. unfold best_update. destruct cur as [b0|]; [|congruence]. destruct (re && (b0 =? id)).
    - destruct a as [|p a]; [discriminate|]. destruct (argmin_spec (fun i => mv_est msqrt n (hget h i)) (map snd (p :: a))) as (b' & E & I0 & _); [discriminate|]. rewrite E. intros K. injection K as <-.
      apply in_map_iff in I0. destruct I0 as (q & <- & Hq). now apply Ha.
    - destruct (qle _ _); intros K; injection K as <-; [exact Hid|now apply Hc].
  Qed.
  Lemma tell_effect s c key y s1 r : wf s -> arch_tell msqrt pruning s (c, key, y) = (s1, r) ->
    wf s1 /\ length (st_heap s) <= length (st_heap s1) /\
    (forall k id, k <> key -> dget k (st_archive s1) = Some id -> dget k (st_archive s) = Some id /\ hget (st_heap s1) id = hget (st_heap s) id) /\
    (dget key (st_archive s) = None -> st_heap s1 = st_heap s ++ [mv_new c y] /\
       forall n, st_bests s1 n = best_update msqrt (st_heap s1) (st_archive s ++ [(key, length (st_heap s))]) false (length (st_heap s)) n (st_bests s n)) /\
    (pruning = no_pruning -> forall k, (k = key \/ dget k (st_archive s) <> None) -> dget k (st_archive s1) <> None).
  Proof.
    intros [W1 W2 W3 W4] E. cbn [arch_tell] in E. unfold update_archive in E. set (s0 := ArchSt (st_heap s) (st_archive s) (st_bests s) (dset c y (st_loss s))) in *.
    destruct (archive_put msqrt c key y s0) as [[[h a] id] re] eqn:P. pose proof (put_ok msqrt c key y s0 h a id re W3 P) as Sh.
    assert (Keys : NoDup (dkeys a) /\ NoDup (map snd a) /\ (dget key (st_archive s) = None -> h = st_heap s ++ [mv_new c y] /\ a = st_archive s ++ [(key, length (st_heap s))] /\ id = length (st_heap s) /\ re = false) /\ (forall k, (k = key \/ dget k (st_archive s) <> None) -> dget k a <> None)).
    { unfold archive_put in P. cbn [st_heap st_archive] in P. change (st_archive s0) with (st_archive s) in P. destruct (dget key (st_archive s)) as [i|] eqn:D.
      - assert (K : a = st_archive s) by (revert P; cbn zeta; intros [= _ <- _ _]; reflexivity). subst a. split; [exact W1|]. split; [exact W2|]. split; [discriminate|]. intros k [->|K]; [congruence|exact K].
      - injection P as <- <- <- <-. change (st_heap s0) with (st_heap s). split; [|split; [|split; [auto|]]].
        + unfold dkeys. rewrite map_app. apply NoDup_app_snoc; [exact W1|]. now apply dget_none.
        + rewrite map_app. apply NoDup_app_snoc; [exact W2|]. intros K. apply in_map_iff in K. destruct K as (p & E' & K). specialize (W3 p K). cbn in E'. lia.
        + intros k K H. apply dget_none in H. apply H. unfold dkeys. rewrite map_app, in_app_iff. destruct K as [->|K]; [right; now left|]. left. destruct (in_dec Nat.eq_dec k (map fst (st_archive s))) as [J|J]; [exact J|]. elim K. now apply dget_none. }
    destruct Keys as (K1 & K2 & K3 & K4).
    assert (Va : forall p, In p a -> snd p < length h).
    { intros p Hp. destruct (ps_entries _ _ _ _ _ _ Sh p Hp) as [->|Hp']; [exact (ps_id _ _ _ _ _ _ Sh)|]. pose proof (W3 p Hp'). pose proof (ps_len _ _ _ _ _ _ Sh). cbn in *. lia. }
    assert (Shape : st_heap s1 = h /\ sublist (st_archive s1) a /\ (forall n, st_bests s1 n = best_update msqrt h a re id n (st_bests s n)) /\ (pruning = no_pruning -> st_archive s1 = a)).
    { destruct (pruning h a) as [a'|e] eqn:Pr; injection E as <- <-; cbn.
      - split; [reflexivity|]. split; [now apply Hprune in Pr|]. split; [reflexivity|]. intros ->. unfold no_pruning in Pr. now injection Pr.
      - split; [reflexivity|]. split; [apply sublist_refl|]. split; reflexivity. }
    destruct Shape as (Sh1 & Sh2 & Sh3 & Sh4). pose proof (ps_len _ _ _ _ _ _ Sh) as Ln. cbn in Ln. split; [|split; [|split; [|split]]].
    - constructor.
      + unfold dkeys. eapply sublist_nodup; [apply sublist_map, Sh2|exact K1].
      + eapply sublist_nodup; [apply sublist_map, Sh2|exact K2].
      + intros p Hp. rewrite Sh1. apply Va. eapply sublist_in; eassumption.
      + intros n b. rewrite Sh3, Sh1. apply best_update_valid; [exact (ps_id _ _ _ _ _ _ Sh)|exact Va|]. intros b' Eb. specialize (W4 n b' Eb). lia.
    - now rewrite Sh1.
    - intros k i Nk D. apply (dget_sublist a) in D; [|exact Sh2|exact K1]. pose proof (dget_some_in _ _ _ D) as I0. destruct (ps_entries _ _ _ _ _ _ Sh _ I0) as [J|J]; [congruence|]. cbn in J. split; [now apply dget_in_nodup|]. rewrite Sh1.
      apply (ps_other _ _ _ _ _ _ Sh); [exact (W3 _ J)|]. intros ->. apply Nk. eapply ids_inj; [exact K2|exact I0|exact (ps_in _ _ _ _ _ _ Sh)].
    - intros D. destruct (K3 D) as (-> & -> & -> & ->). split; [exact Sh1|]. intros n. rewrite Sh3, Sh1. reflexivity.
    - intros Np k K. rewrite (Sh4 Np). now apply K4.
  Qed.
  Definition overwrite (c key : nat) (v : Q) (s : archst) : archst :=
    ArchSt (st_heap s ++ [mv_new c v]) (dset key (length (st_heap s)) (st_archive s)) (st_bests s) (st_loss s).
  Lemma dset_ids key i a : NoDup (map (@snd nat nat) a) -> ~ In i (map snd a) -> NoDup (map snd (dset key i a)) /\ forall p, In p (dset key i a) -> p = (key, i) \/ In p a.
  Proof.
    induction a as [|(k0, i0) a IH]; intros ND N; cbn [dset map snd] in *.
    - split; [repeat constructor; intros []|]. intros p [<-|[]]. now left.
    - inversion ND as [|? ? N0 ND']; subst. destruct (Nat.eqb_spec key k0) as [->|K].
      + cbn [map snd]. split; [constructor; [intros J; apply N; now right|exact ND']|]. intros p [<-|J]; [now left|right; now right].
      + destruct (IH ND' ltac:(intros J; apply N; now right)) as (A & B). cbn [map snd]. split.
        * constructor; [|exact A]. intros J. apply in_map_iff in J. destruct J as (p & E & J). destruct (B p J) as [->|J']; [cbn in E; apply N; now left|]. apply N0. rewrite <- E. now apply in_map.
        * intros p [<-|J]; [right; now left|]. destruct (B p J) as [->|J']; [now left|right; now right].
  Qed.
  Lemma overwrite_effect c key v s : wf s -> wf (overwrite c key v s) /\ known (overwrite c key v s) key = Some (mv_new c v) /\
    (forall k id, k <> key -> dget k (st_archive (overwrite c key v s)) = Some id -> dget k (st_archive s) = Some id /\ hget (st_heap (overwrite c key v s)) id = hget (st_heap s) id) /\
    (forall k, dget k (st_archive s) <> None -> dget k (st_archive (overwrite c key v s)) <> None).
  Proof.
    intros [W1 W2 W3 W4]. assert (N : ~ In (length (st_heap s)) (map snd (st_archive s))) by (intros K; apply in_map_iff in K; destruct K as (p & E & K); specialize (W3 p K); lia).
    destruct (dset_ids key (length (st_heap s)) (st_archive s) W2 N) as (D1 & D2). unfold overwrite. cbn [st_heap st_archive]. split; [constructor; cbn|split; [|split]].
    - now apply dset_keys_nodup.
    - exact D1.
    - intros p Hp. rewrite app_length. cbn. destruct (D2 p Hp) as [->|Hp']; [cbn; lia|]. specialize (W3 p Hp'). lia.
    - intros n b Hb. rewrite app_length. specialize (W4 n b Hb). lia.
    - unfold known. cbn [st_heap st_archive]. rewrite dget_dset, Nat.eqb_refl. cbn [option_map]. now rewrite hget_new.
    - intros k id Nk. rewrite dget_dset. destruct (Nat.eqb_spec k key); [contradiction|]. intros D. split; [exact D|]. apply hget_old. apply dget_some_in in D. exact (W3 _ D).
    - intros k K. rewrite dget_dset. destruct (k =? key); [discriminate|exact K].
  Qed.
  Lemma tell_winners_spec ws : forall first i s s' r, wf s -> NoDup (map snd ws) -> tell_winners msqrt pruning first i ws s = (s', r) ->
    wf s' /\
    (r = Ok tt -> forall j c key, nth_error ws j = Some (c, key) -> forall m, known s' key = Some m -> m = mv_new c (first + qnat (i + j))%Q) /\
    (forall key m, ~ In key (map snd ws) -> known s' key = Some m -> known s key = Some m) /\
    (pruning = no_pruning -> forall key, (r = Ok tt /\ In key (map snd ws)) \/ dget key (st_archive s) <> None -> dget key (st_archive s') <> None).
  Proof.
    induction ws as [|(c, key) ws IH]; intros first i s s' r W ND E; cbn [tell_winners] in E.
    - injection E as <- <-. split; [exact W|]. split; [intros _ [|j] ? ? H; discriminate H|]. split; [auto|]. intros _ k [(_ & [])|K]; exact K.
    - cbn [map snd] in ND. inversion ND as [|? ? Nk ND']; subst. destruct (arch_tell msqrt pruning s (c, key, (first + qnat i)%Q)) as (s1, r1) eqn:T.
      destruct (tell_effect s c key _ s1 r1 W T) as (W1 & _ & T1 & _ & T2). destruct r1 as [[]|e].
      + fold (overwrite c key (first + qnat i)%Q s1) in E. destruct (overwrite_effect c key (first + qnat i)%Q s1 W1) as (W2 & O1 & O2 & O3). destruct (IH first (S i) _ s' r W2 ND' E) as (W' & A & B & C). split; [exact W'|]. split; [|split].
        * intros Er [|j] c' k' H m Km; [|rewrite Nat.add_succ_r, <- Nat.add_succ_l; now apply (A Er j c' k')]. injection H as <- <-. rewrite Nat.add_0_r. apply (B key m Nk) in Km. congruence.
        * intros k m N Km. assert (N' : ~ In k (map snd ws)) by (intros J; apply N; now right). assert (Nk' : k <> key) by (intros ->; apply N; now left). apply (B k m N') in Km. unfold known in Km |- *. destruct (dget k (st_archive (overwrite _ _ _ _))) as [id|] eqn:D; [|discriminate Km]. cbn in Km. injection Km as <-.
          destruct (O2 k id Nk' D) as (D1 & H1). destruct (T1 k id Nk' D1) as (D2 & H2). rewrite D2. cbn. f_equal. change (hget (st_heap s) id = hget (st_heap (overwrite c key (first + qnat i) s1)) id). congruence.
        * intros Np k K. apply (C Np). destruct K as [(Er & [<-|K])|K]; [right|left; auto|right]; apply O3, (T2 Np); auto.
      + injection E as <- <-. split; [exact W1|]. split; [discriminate|]. split.
        * intros k m N Km. assert (Nk' : k <> key) by (intros ->; apply N; now left). unfold known in Km |- *. destruct (dget k (st_archive s1)) as [id|] eqn:D; [|discriminate Km]. cbn in Km. injection Km as <-. destruct (T1 k id Nk' D) as (D2 & H2). rewrite D2. cbn. congruence.
        * intros Np k [(Er & _)|K]; [discriminate Er|]. apply (T2 Np). auto.
  Qed.
  Lemma tell_winners_wf ws : forall first i s, wf s -> wf (fst (tell_winners msqrt pruning first i ws s)).
  Proof.
    induction ws as [|(c, key) ws IH]; intros first i s W; cbn [tell_winners]; [exact W|]. destruct (arch_tell msqrt pruning s (c, key, (first + qnat i)%Q)) as (s1, r1) eqn:T. destruct (tell_effect s c key _ s1 r1 W T) as (W1 & _). destruct r1; [|exact W1].
    apply IH. now apply overwrite_effect.
  Qed.
  Lemma run_ops_wf ops : wf (run_ops msqrt pruning ops).
  Proof.
    unfold run_ops. generalize wf_init. generalize arch_init. induction ops as [|o ops IH]; intros s W; [exact W|]. cbn [fold_left]. apply IH. destruct o as [c key y|ws ls]; cbn [run_op]; [|apply tell_winners_wf, W].
    destruct (arch_tell msqrt pruning s (c, key, y)) as (s1, r1) eqn:T. exact (proj1 (tell_effect s c key _ s1 r1 W T)).
  Qed.
  Lemma best_loser_spec s losers : (best_loser s losers <= 0)%Q /\ forall key m, In key losers -> known s key = Some m -> (best_loser s losers <= mv_mean m)%Q.
  Proof.
    unfold best_loser. generalize 0%Q as b. induction losers as [|k ls IH]; intros b; cbn [fold_left]; [split; [lra|intros ? ? []]|].
    set (b' := match dget k (st_archive s) with Some id => _ | None => b end). destruct (IH b') as (A & B).
    assert (Lb : (b' <= b)%Q) by (unfold b'; destruct (dget k (st_archive s)); [unfold qmin; destruct (qlt _ _) eqn:Q0; [apply qlt_iff in Q0; lra|lra]|lra]).
    split; [lra|]. intros key m [<-|I0] Km; [|now apply (B key m)]. unfold known in Km. unfold b' in *. destruct (dget k (st_archive s)) as [id|]; [|discriminate Km]. injection Km as <-. 
    assert (L2 : (qmin b (mv_mean (hget (st_heap s) id)) <= mv_mean (hget (st_heap s) id))%Q) by (unfold qmin; destruct (qlt _ _) eqn:Q0; [lra|apply qlt_false in Q0; lra]). lra.
  Qed.
  (** the best point of the criterion "minimum" *)
  Lemma winners_keep_best ws : forall first i s s' b, wf s -> NoDup (map snd ws) -> (forall k, In k (map snd ws) -> dget k (st_archive s) = None) ->
    tell_winners msqrt pruning first i ws s = (s', Ok tt) -> st_bests s Minimum = Some b -> (mv_min (hget (st_heap s) b) < first + qnat i)%Q ->
    st_bests s' Minimum = Some b /\ hget (st_heap s') b = hget (st_heap s) b.
  Proof.
    induction ws as [|(c, key) ws IH]; intros first i s s' b W ND New E B Lt; cbn [tell_winners] in E; [injection E as <-; auto|]. cbn [map snd] in ND. inversion ND as [|? ? Nk ND']; subst.
    destruct (arch_tell msqrt pruning s (c, key, (first + qnat i)%Q)) as (s1, r1) eqn:T. destruct (tell_effect s c key _ s1 r1 W T) as (W1 & Ln & T1 & T3 & _). destruct r1; [|discriminate E]. fold (overwrite c key (first + qnat i)%Q s1) in E.
    destruct (T3 (New key (or_introl eq_refl))) as (Hh & Hb). pose proof (w_bests s W Minimum b B) as Vb.
    assert (B1 : st_bests s1 Minimum = Some b).
    { rewrite (Hb Minimum), B. unfold best_update. cbn [andb]. rewrite Hh, hget_new, hget_old by exact Vb. cbn [mv_est mv_new mv_min]. destruct (qle _ _) eqn:Q0; [apply qle_iff in Q0; lra|reflexivity]. }
    destruct (overwrite_effect c key (first + qnat i)%Q s1 W1) as (W2 & _ & O2 & _).
    assert (Hb1 : hget (st_heap (overwrite c key (first + qnat i)%Q s1)) b = hget (st_heap s) b).
    { unfold overwrite. cbn [st_heap]. rewrite hget_old by lia. rewrite Hh. now apply hget_old. }
    destruct (IH first (S i) (overwrite c key (first + qnat i)%Q s1) s' b W2 ND') as (A1 & A2).
    - intros k Hk. assert (Nkk : k <> key) by (intros ->; contradiction). destruct (dget k (st_archive (overwrite c key (first + qnat i)%Q s1))) as [id|] eqn:D; [|reflexivity]. destruct (O2 k id Nkk D) as (D1 & _). destruct (T1 k id Nkk D1) as (D2 & _). rewrite (New k (or_intror Hk)) in D2. discriminate D2.
    - exact E.
    - exact B1.
    - rewrite Hb1. unfold qnat in *. rewrite Nat2Z.inj_succ. unfold Z.succ. rewrite inject_Z_plus. change (inject_Z 1) with 1%Q. lra.
    - split; [exact A1|]. now rewrite A2.
  Qed.
End Compare.

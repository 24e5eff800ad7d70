From Coq Require Import List Arith QArith Reals Lia Lra Bool.
From Verif.Model Require Import Prelude MultiValue UidQueue Evolution Pso.
From Verif.Spec Require Import UidQueue Evolution Pso.
From Verif.Proofs Require Import Prelude MultiValue UidQueue Evolution.
Import ListNotations.
Open Scope nat_scope.

Notation dst s := (pso_s s).

Section PSO.
  Variable llambda : nat.
  Hypothesis Hpos : 1 <= llambda.
  Notation step := (pso_step llambda).
  Notation pending u q := (In u (os_iter (uq_asked q))).

  (** asks and new candidates act on the population as in differential evolution *)
  Lemma pso_ask_dest u s s' r asked : step asked s (OAsk u) = (s', r) ->
    de_step llambda false true None (dst s) (OAsk u) = (dst s', r).
  Proof.
    cbn [pso_step de_step]. unfold pso_ask, de_ask.
    destruct (length (de_pop (dst s)) <? llambda); [intros [= <- <-]; reflexivity|].
    destruct (uq_ask (de_q (dst s))) as [[uid q]|e]; [|intros [= <- <-]; reflexivity].
    destruct (dget uid (de_pop (dst s))); intros [= <- <-]; reflexivity.
  Qed.
  Lemma pso_new_dest u lin par s s' r asked : step asked s (ONew u lin par) = (s', r) ->
    de_step llambda false true None (dst s) (ONew u lin par) = (dst s', r).
  Proof. cbn. intros [= <- <-]. reflexivity. Qed.

  (** *** any history *)
  Definition bp_told (s : pso) : Prop := forall c b, dget c (pso_bp s) = Some b -> loss b (de_c (dst s)) <> None.
  Record gen (s : pso) : Prop := { g_sized : sized llambda (dst s); g_cov : covers (dst s); g_bp : bp_told s }.

  Lemma gen_init : gen pso_init.
  Proof. constructor; [split; cbn; [constructor|lia]|easy|easy]. Qed.

  Lemma loss_set c l k x : loss x (set_cand_loss c l k) = if x =? c then Some l else loss x k.
  Proof. unfold loss, set_cand_loss. cbn. apply dget_dset. Qed.

  (** the state in which a tell is handled *)
  Definition told_state (c : nat) (l0 : Q) (s : pso) : pso :=
    PSO (DESt (set_cand_loss c l0 (de_c (dst s))) (de_pop (dst s)) (de_q (dst s))) (pso_best s) (pso_bp s).
  Definition upd (c : nat) (l : Q) (s : pso) : option nat :=
    if lo_lt (Some l) (best_loss s) then Some c else pso_best s.

  Lemma tna_spec c l s s' r : sized llambda (dst s) -> covers (dst s) -> pso_tell_not_asked llambda c l s = (s', r) ->
    r = Ok tt /\ de_c (dst s') = de_c (dst s) /\ pso_bp s' = pso_bp s /\
    (length (de_pop (dst s)) < llambda /\ de_pop (dst s') = dset c c (de_pop (dst s)) /\
       de_q (dst s') = uq_tell c (de_q (dst s)) /\ pso_best s' = upd c l s \/
     length (de_pop (dst s)) = llambda /\ exists w m, maximal (dst s) w m /\
       (lt_loss (loss m (de_c (dst s))) (Some l) /\ s' = s \/
        le_loss (Some l) (loss m (de_c (dst s))) /\ de_pop (dst s') = dset c c (ddel w (de_pop (dst s))) /\
          (exists q, uq_discard w (de_q (dst s)) = Ok q /\ de_q (dst s') = uq_tell c q) /\ pso_best s' = upd c l s)).
  Proof.
    intros [Hn Hl] Hc E. unfold pso_tell_not_asked in E.
    destruct (Nat.ltb_spec (length (de_pop (dst s))) llambda) as [Hlt|Hge].
    - injection E as <- <-. cbn. split; [reflexivity|]. split; [reflexivity|]. split; [reflexivity|]. left. repeat split; easy.
    - destruct (worst (de_c (dst s)) (de_pop (dst s))) as [[uid w]|] eqn:Ew.
      2: { apply worst_none in Ew. rewrite Ew in Hge. cbn in Hge. lia. }
      destruct (worst_spec _ _ _ _ Ew) as [Hin Hmax].
      assert (Hget : dget uid (de_pop (dst s)) = Some w) by (apply dget_in_nodup; assumption).
      assert (HM : maximal (dst s) uid w).
      { split; [exact Hget|]. intros k x Hx. apply dget_some_in in Hx. exact (Hmax _ Hx). }
      assert (Hlen : length (de_pop (dst s)) = llambda) by lia.
      destruct (lo_lt (loss w (de_c (dst s))) (Some l)) eqn:Elt.
      + injection E as <- <-. repeat split. right. split; [exact Hlen|]. exists uid, w. split; [exact HM|].
        left. split; [apply lo_lt_iff; exact Elt|reflexivity].
      + destruct (discard_ok uid (de_q (dst s)) (Hc uid (dget_mem _ _ _ Hget))) as [q Eq]. rewrite Eq in E.
        injection E as <- <-. split; [reflexivity|]. split; [reflexivity|]. split; [reflexivity|]. right. split; [exact Hlen|]. exists uid, w. split; [exact HM|].
        right. split; [apply lo_lt_false; exact Elt|]. split; [reflexivity|]. split; [|reflexivity].
        exists q. split; [exact Eq|reflexivity].
  Qed.

  Lemma tell_spec asked c l0 l s s' r : gen s -> step asked s (OTell c l0 l) = (s', r) ->
    let s1 := told_state c l0 s in
    let k := lineage c (de_c (dst s)) in
    r = Ok tt /\ de_c (dst s') = set_cand_loss c l0 (de_c (dst s)) /\
    (asked = true /\ dmem k (de_pop (dst s)) = true /\ de_pop (dst s') = dset k c (de_pop (dst s)) /\
       de_q (dst s') = uq_tell k (de_q (dst s)) /\ pso_best s' = upd c l s1 /\
       (exists v, loss (match dget c (pso_bp s) with Some b => b | None => c end) (de_c (dst s1)) = Some v /\
          pso_bp s' = if qle l v then dset c c (pso_bp s) else pso_bp s) \/
     (asked = true -> dmem k (de_pop (dst s)) = false) /\ pso_bp s' = pso_bp s /\
       (length (de_pop (dst s)) < llambda /\ de_pop (dst s') = dset c c (de_pop (dst s)) /\
          de_q (dst s') = uq_tell c (de_q (dst s)) /\ pso_best s' = upd c l s1 \/
        length (de_pop (dst s)) = llambda /\ exists w m, maximal (dst s1) w m /\
          (lt_loss (loss m (de_c (dst s1))) (Some l) /\ s' = s1 \/
           le_loss (Some l) (loss m (de_c (dst s1))) /\ de_pop (dst s') = dset c c (ddel w (de_pop (dst s))) /\
             (exists q, uq_discard w (de_q (dst s)) = Ok q /\ de_q (dst s') = uq_tell c q) /\ pso_best s' = upd c l s1))).
  Proof.
    intros [Hs Hc Hb] E s1 k. cbn [pso_step] in E. fold (told_state c l0 s) in E. fold s1 in E.
    assert (Hs1 : sized llambda (dst s1)) by exact Hs. assert (Hc1 : covers (dst s1)) by exact Hc.
    destruct asked.
    - unfold pso_tell in E.
      assert (Ek : lineage c (de_c (dst s1)) = k) by reflexivity. rewrite Ek in E.
      change (de_pop (dst s1)) with (de_pop (dst s)) in E.
      change (de_q (dst s1)) with (de_q (dst s)) in E.
      destruct (dmem k (de_pop (dst s))) eqn:Em.
      + destruct (loss (match dget c (pso_bp s1) with Some b => b | None => c end) (de_c (dst s1))) as [v|] eqn:Ev.
        * injection E as <- <-. split; [reflexivity|]. split; [reflexivity|]. left. repeat split. exists v. split; [exact Ev|reflexivity].
        * exfalso. change (pso_bp s1) with (pso_bp s) in Ev. change (de_c (dst s1)) with (set_cand_loss c l0 (de_c (dst s))) in Ev.
          rewrite loss_set in Ev. destruct (dget c (pso_bp s)) as [b|] eqn:Eb.
          -- destruct (b =? c); [discriminate|]. exact (Hb _ _ Eb Ev).
          -- rewrite Nat.eqb_refl in Ev. discriminate.
      + destruct (tna_spec _ _ _ _ _ Hs1 Hc1 E) as (A & B & C & D). split; [exact A|]. split; [exact B|]. right.
        split; [easy|]. split; [exact C|]. exact D.
    - destruct (tna_spec _ _ _ _ _ Hs1 Hc1 E) as (A & B & C & D). split; [exact A|]. split; [exact B|]. right.
      split; [easy|]. split; [exact C|]. exact D.
  Qed.

  Lemma inherit_get u par bp c b : dget c (inherit u par bp) = Some b ->
    dget c bp = Some b \/ exists p, par = Some p /\ dget p bp = Some b /\ c = u.
  Proof.
    unfold inherit. destruct par as [p|]; [|auto]. destruct (dget p bp) as [b'|] eqn:E; [|auto].
    rewrite dget_dset. destruct (Nat.eqb_spec c u) as [->|]; [|auto]. intros [= ->]. right. exists p. auto.
  Qed.

  Lemma gen_step asked s o s' r : gen s -> step asked s o = (s', r) -> gen s'.
  Proof.
    intros HG E. pose proof HG as [Hs Hc Hb].
    assert (HB : forall c b, dget c (pso_bp s') = Some b -> loss b (de_c (dst s')) <> None).
    { destruct o as [u|u lin par|c l0 l|c].
      - cbn [pso_step] in E. unfold pso_ask in E.
        destruct (length (de_pop (dst s)) <? llambda); [injection E as <- <-; exact Hb|].
        destruct (uq_ask (de_q (dst s))) as [[uid q]|e]; [|injection E as <- <-; exact Hb].
        destruct (dget uid (de_pop (dst s))) as [p|]; injection E as <- <-; [|exact Hb].
        cbn [pso_bp pso_s de_c]. intros c b H. change (loss b (new_cand u uid (Some p) (de_c (dst s)))) with (loss b (de_c (dst s))).
        apply (inherit_get u (Some p)) in H as [H|(p' & _ & H & _)]; exact (Hb _ _ H).
      - cbn in E. injection E as <- <-. cbn [pso_bp pso_s de_c]. intros c b H.
        change (loss b (new_cand u lin par (de_c (dst s)))) with (loss b (de_c (dst s))).
        apply (inherit_get u par) in H as [H|(p' & _ & H & _)]; exact (Hb _ _ H).
      - destruct (tell_spec _ _ _ _ _ _ _ HG E) as (_ & Ec & H). rewrite Ec. intros x b Hx. rewrite loss_set.
        destruct (Nat.eqb_spec b c) as [->|Hne]; [discriminate|].
        destruct H as [(_ & _ & _ & _ & _ & v & _ & Ebp)|(_ & Ebp & _)]; rewrite Ebp in Hx.
        + destruct (qle l v); [|exact (Hb _ _ Hx)]. rewrite dget_dset in Hx.
          destruct (x =? c); [congruence|exact (Hb _ _ Hx)].
        + exact (Hb _ _ Hx).
      - cbn in E. injection E as <- <-. exact Hb. }
    assert (HS : sized llambda (dst s') /\ covers (dst s')).
    { destruct o as [u|u lin par|c l0 l|c].
      - apply pso_ask_dest in E. eapply general_step; eauto.
      - apply pso_new_dest in E. eapply general_step; eauto.
      - destruct (tell_spec _ _ _ _ _ _ _ HG E) as (_ & _ & H). destruct Hs as [Hn Hl].
        destruct H as [(_ & Em & Ep & Eq & _)|(_ & _ & H)].
        + split; [split|].
          * rewrite Ep. now apply dset_keys_nodup.
          * rewrite Ep. now rewrite dset_length_old.
          * intros x. rewrite Ep, Eq, dmem_dset, orb_true_iff, Nat.eqb_eq, in_queue_tell. intros [->|Hx]; auto.
        + destruct H as [(Hlt & Ep & Eq & _)|(Hlen & w & m & [Hw _] & [(_ & ->)|(_ & Ep & (q & Ed & Eq) & _)])].
          * split; [split|].
            -- rewrite Ep. now apply dset_keys_nodup.
            -- rewrite Ep. pose proof (dset_length_le c c (de_pop (dst s))). lia.
            -- intros x. rewrite Ep, Eq, dmem_dset, orb_true_iff, Nat.eqb_eq, in_queue_tell. intros [->|Hx]; auto.
          * split; [split; assumption|exact Hc].
          * assert (Hwm : dmem w (de_pop (dst s)) = true) by (eapply dget_mem; exact Hw).
            split; [split|].
            -- rewrite Ep. now apply dset_keys_nodup, ddel_keys_nodup.
            -- rewrite Ep. pose proof (dset_length_le c c (ddel w (de_pop (dst s)))).
               pose proof (ddel_length w (de_pop (dst s)) Hwm). lia.
            -- intros x. rewrite Ep, Eq, dmem_dset, orb_true_iff, Nat.eqb_eq, in_queue_tell.
               intros [->|Hx]; [auto|]. right. rewrite dmem_ddel in Hx by easy. apply andb_true_iff in Hx as [Hne Hx].
               apply negb_true_iff, Nat.eqb_neq in Hne. eapply discard_keeps; eauto.
      - cbn in E. injection E as <- <-. split; assumption. }
    destruct HS. constructor; assumption.
  Qed.

  Lemma gen_reach allowed s out fin : pso_reach llambda allowed s out fin -> gen s.
  Proof. induction 1 as [|s out fin o s' r H IH Ho Ha Hr E]; [apply gen_init|eapply gen_step; eauto]. Qed.

  (** the particles were asked or told *)
  Lemma vals_step s out fin o s' r : gen s -> (forall c, o <> OReject c) ->
    (forall k m, dget k (de_pop (dst s)) = Some m -> In m out \/ In m fin) ->
    step (is_asked out o) s o = (s', r) ->
    forall k m, dget k (de_pop (dst s')) = Some m -> In m (outstanding_after out o r) \/ In m (done_after fin o).
  Proof.
    intros HG Hrej HV E. destruct o as [u|u lin par|c l0 l|c].
    - cbn [pso_step] in E. unfold pso_ask in E.
      destruct (length (de_pop (dst s)) <? llambda).
      + injection E as <- <-. intros k m. cbn. rewrite dget_dset. destruct (k =? u).
        * intros [= ->]. left. now left.
        * intros H. destruct (HV k m H); [left; now right|now right].
      + destruct (uq_ask (de_q (dst s))) as [[uid q]|e]; [|injection E as <- <-; exact HV].
        destruct (dget uid (de_pop (dst s))) as [p|]; injection E as <- <-; intros k m H;
          destruct (HV k m H); cbn; auto.
    - cbn in E. injection E as <- <-. exact HV.
    - destruct (tell_spec _ _ _ _ _ _ _ HG E) as (-> & _ & H). cbn [outstanding_after done_after].
      assert (HV' : forall k m, dget k (de_pop (dst s)) = Some m ->
        In m (filter (fun x => negb (x =? c)) out) \/ In m (c :: fin)).
      { intros k m Hm. rewrite in_others. destruct (Nat.eq_dec m c) as [->|]; [right; now left|].
        destruct (HV k m Hm); [left; auto|right; now right]. }
      assert (HD : forall k0 (d : list (nat * nat)), (forall k m, dget k d = Some m -> In m (filter (fun x => negb (x =? c)) out) \/ In m (c :: fin)) ->
        forall k m, dget k (dset k0 c d) = Some m -> In m (filter (fun x => negb (x =? c)) out) \/ In m (c :: fin)).
      { intros k0 d Hd k m. rewrite dget_dset. destruct (k =? k0); [intros [= <-]; right; now left|apply Hd]. }
      destruct H as [(_ & _ & Ep & _)|(_ & _ & [(_ & Ep & _)|(_ & w & m & _ & [(_ & ->)|(_ & Ep & _)])])].
      + rewrite Ep. apply HD. exact HV'.
      + rewrite Ep. apply HD. exact HV'.
      + exact HV'.
      + rewrite Ep. apply HD. intros k x. rewrite dget_ddel by apply HG. destruct (k =? w); [discriminate|apply HV'].
    - exfalso. eapply Hrej. reflexivity.
  Qed.

  Lemma vals_reach allowed s out fin : pso_reach llambda allowed s out fin ->
    forall k m, dget k (de_pop (dst s)) = Some m -> In m out \/ In m fin.
  Proof.
    induction 1 as [|s out fin o s' r H IH Ho Ha Hr E]; [cbn; discriminate|].
    eapply vals_step; eauto. eapply gen_reach; eauto.
  Qed.

  (** *** each candidate told at most once *)
  Definition once (out fin : list nat) (o : ev_op) : Prop := match o with OTell c _ _ => ~ In c fin | _ => True end.

  Lemma told_pso_step s out fin o s' r : gen s -> op_ok (de_c (dst s)) o -> once out fin o -> (forall c, o <> OReject c) ->
    told_inv (dst s) out fin -> step (is_asked out o) s o = (s', r) ->
    told_inv (dst s') (outstanding_after out o r) (done_after fin o).
  Proof.
    intros HG Hok Ho Hrej HI E. pose proof HG as [Hs Hc Hb].
    destruct o as [u|u lin par|c l0 l|c].
    - apply pso_ask_dest in E. exact (told_step llambda false (dst s) out fin (OAsk u) (dst s') r Hpos Hs Hc Hok I HI E).
    - apply pso_new_dest in E. exact (told_step llambda false (dst s) out fin (ONew u lin par) (dst s') r Hpos Hs Hc Hok I HI E).
    - destruct (tell_spec _ _ _ _ _ _ _ HG E) as (-> & Ec & H). cbn [outstanding_after done_after].
      assert (HK : forall x, known x (de_c (dst s')) = known x (de_c (dst s))) by (intros x; rewrite Ec; reflexivity).
      assert (HL : forall x, In x out -> lineage x (de_c (dst s')) = lineage x (de_c (dst s))) by (intros x _; rewrite Ec; reflexivity).
      assert (HLo : forall x, x <> c -> loss x (de_c (dst s')) = loss x (de_c (dst s))).
      { intros x Hx. rewrite Ec, loss_set. destruct (Nat.eqb_spec x c); easy. }
      destruct H as [(_ & Em & Ep & _)|(_ & _ & H)].
      + apply (told_inv_put (dst s) (dst s') out fin c (lineage c (de_c (dst s)))); auto.
      + apply (told_inv_put (dst s) (dst s') out fin c c); auto.
        destruct H as [(_ & Ep & _)|(_ & w & m & _ & [(_ & ->)|(_ & Ep & _)])]; auto.
        right. right. exists w. split; [reflexivity|]. split; [apply Hs|exact Ep].
    - exfalso. eapply Hrej. reflexivity.
  Qed.

  Lemma told_pso_reach (allowed : list nat -> list nat -> ev_op -> Prop) s out fin :
    (forall out fin o, allowed out fin o -> once out fin o) ->
    pso_reach llambda allowed s out fin -> gen s /\ told_inv (dst s) out fin.
  Proof.
    intros Hal H. induction H as [|s out fin o s' r H IH Ho Ha Hr E].
    - split; [apply gen_init|]. constructor; cbn; easy.
    - destruct IH as [A B]. split; [eapply gen_step; eauto|]. eapply told_pso_step; eauto.
  Qed.

  (** *** the best point *)
  Definition best_inv (s : pso) (fin : list nat) : Prop :=
    (forall c, In c fin -> le_loss (best_loss s) (loss c (de_c (dst s)))) /\
    (forall c, In c fin -> loss c (de_c (dst s)) <> None) /\
    (fin <> [] -> exists b, pso_best s = Some b /\ In b fin) /\
    (fin = [] -> pso_best s = None).

  Lemma best_in s fin b : best_inv s fin -> pso_best s = Some b -> In b fin.
  Proof.
    intros (_ & _ & H3 & H4) E. destruct fin as [|x fin]; [rewrite (H4 eq_refl) in E; discriminate|].
    destruct H3 as (b' & E' & H); [discriminate|]. congruence.
  Qed.

  Lemma upd_spec c l s fin s' : best_inv s fin -> ~ In c fin ->
    de_c (dst s') = set_cand_loss c l (de_c (dst s)) -> pso_best s' = upd c l (told_state c l s) ->
    best_inv s' (c :: fin).
  Proof.
    intros HB Hf Ec Eb. pose proof HB as (H1 & H2 & H3 & H4).
    assert (HL : forall x, In x fin -> loss x (de_c (dst s')) = loss x (de_c (dst s))).
    { intros x Hx. rewrite Ec, loss_set. destruct (Nat.eqb_spec x c) as [->|]; [contradiction|reflexivity]. }
    assert (Hc : loss c (de_c (dst s')) = Some l) by (rewrite Ec, loss_set, Nat.eqb_refl; reflexivity).
    assert (HBl : best_loss (told_state c l s) = best_loss s).
    { unfold best_loss. cbn [told_state pso_best pso_s de_c]. destruct (pso_best s) as [b|] eqn:E; [|reflexivity].
      rewrite loss_set. destruct (Nat.eqb_spec b c) as [->|]; [|reflexivity]. exfalso. apply Hf. eapply best_in; eauto. }
    unfold upd in Eb. rewrite HBl in Eb. cbn [told_state pso_best] in Eb.
    assert (Hle : le_loss (best_loss s') (Some l) /\ le_loss (best_loss s') (best_loss s)).
    { destruct (lo_lt (Some l) (best_loss s)) eqn:E.
      - unfold best_loss at 1 2. rewrite Eb, Hc. split; [apply le_loss_refl|]. apply lt_le_loss, lo_lt_iff. exact E.
      - apply lo_lt_false in E.
        assert (X : best_loss s' = best_loss s).
        { unfold best_loss. rewrite Eb. destruct (pso_best s) as [b|] eqn:Eb'; [|reflexivity]. apply HL. eapply best_in; eauto. }
        rewrite X. split; [exact E|apply le_loss_refl]. }
    destruct Hle as [Hle1 Hle2]. split; [|split; [|split]].
    - intros x [<-|Hx]; [rewrite Hc; exact Hle1|]. rewrite HL by easy. eapply le_loss_trans; [exact Hle2|auto].
    - intros x [<-|Hx]; [rewrite Hc; discriminate|]. rewrite HL by easy. auto.
    - intros _. destruct (lo_lt (Some l) (best_loss s)) eqn:E; [exists c; split; [exact Eb|left; reflexivity]|].
      destruct (pso_best s) as [b|] eqn:Eb'.
      + exists b. split; [exact Eb|right; eapply best_in; eauto].
      + exfalso. unfold best_loss in E. rewrite Eb' in E. discriminate.
    - discriminate.
  Qed.

  Lemma best_step s out fin o s' r : gen s -> plain_once out fin o -> (forall c, o <> OReject c) ->
    told_inv (dst s) out fin -> best_inv s fin -> step (is_asked out o) s o = (s', r) -> best_inv s' (done_after fin o).
  Proof.
    intros HG Ho Hrej HI HB E. pose proof HB as (H1 & H2 & H3 & H4).
    destruct o as [u|u lin par|c l0 l|c]; cbn [done_after].
    - cbn [pso_step] in E. unfold pso_ask in E.
      destruct (length (de_pop (dst s)) <? llambda); [injection E as <- <-; exact HB|].
      destruct (uq_ask (de_q (dst s))) as [[uid q]|e]; [|injection E as <- <-; exact HB].
      destruct (dget uid (de_pop (dst s))) as [p|]; injection E as <- <-; exact HB.
    - cbn in E. injection E as <- <-. exact HB.
    - destruct Ho as [Hf ->]. destruct (tell_spec _ _ _ _ _ _ _ HG E) as (_ & Ec & H).
      destruct H as [(_ & _ & _ & _ & Eb & _)|(_ & _ & [(_ & _ & _ & Eb)|(_ & w & m & [Hw _] & [(Hlt & ->)|(_ & _ & _ & Eb)])])];
        try solve [apply (upd_spec c l s fin); assumption].
      (* worse than every particle *)
      apply (upd_spec c l s fin); try assumption.
      unfold upd. cbn [told_state pso_best].
      destruct (lo_lt (Some l) (best_loss (told_state c l s))) eqn:Elt; [|reflexivity]. exfalso.
      apply lo_lt_iff in Elt.
      assert (Hm : loss m (de_c (dst (told_state c l s))) <> None) by (intros X; rewrite X in Hlt; exact Hlt).
      cbn [told_state pso_s de_c] in Hm, Hlt. rewrite loss_set in Hm, Hlt.
      destruct (Nat.eqb_spec m c) as [->|Hne].
      { cbn in Hlt. exact (Qlt_irrefl _ Hlt). }
      assert (Hmf : In m fin) by (apply (ti_loss _ _ _ HI); exact Hm).
      assert (HBl : best_loss (told_state c l s) = best_loss s).
      { unfold best_loss. cbn [told_state pso_best pso_s de_c]. destruct (pso_best s) as [b|] eqn:Eb; [|reflexivity].
        rewrite loss_set. destruct (Nat.eqb_spec b c) as [->|]; [|reflexivity]. exfalso. apply Hf. eapply best_in; eauto. }
      rewrite HBl in Elt. apply (not_le_lt _ _ Elt). eapply le_loss_trans; [apply H1; exact Hmf|].
      apply lt_le_loss. exact Hlt.
    - exfalso. eapply Hrej. reflexivity.
  Qed.

  Lemma best_reach (allowed : list nat -> list nat -> ev_op -> Prop) s out fin :
    (forall out fin o, allowed out fin o -> plain_once out fin o) ->
    pso_reach llambda allowed s out fin -> gen s /\ told_inv (dst s) out fin /\ best_inv s fin.
  Proof.
    intros Hal H.
    assert (Honce : forall out fin o, allowed out fin o -> once out fin o).
    { intros out' fin' o Ho. apply Hal in Ho. destruct o; try exact I. apply Ho. }
    induction H as [|s out fin o s' r H IH Ho Ha Hr E].
    - split; [apply gen_init|]. split; [constructor; cbn; easy|]. repeat split; try easy.
    - destruct IH as (A & B & C). split; [eapply gen_step; eauto|]. split; [eapply told_pso_step; eauto|].
      eapply best_step; eauto.
  Qed.

  (** *** fewer than [llambda] outstanding candidates *)
  Lemma workers_pso_step s out fin o s' r : gen s -> op_ok (de_c (dst s)) o -> few_workers llambda out fin o ->
    (forall c, o <> OReject c) -> told_inv (dst s) out fin -> workers_inv (dst s) out fin ->
    step (is_asked out o) s o = (s', r) ->
    r = Ok tt /\ workers_inv (dst s') (outstanding_after out o r) (done_after fin o).
  Proof.
    intros HG Hok [Ho Hbw] Hrej HI HW E. pose proof HG as [Hs Hc Hb].
    destruct o as [u|u lin par|c l0 l|c].
    - apply pso_ask_dest in E.
      exact (workers_step llambda false (dst s) out fin (OAsk u) (dst s') r Hpos Hs Hc Hok (conj I Hbw) HI HW E).
    - apply pso_new_dest in E.
      exact (workers_step llambda false (dst s) out fin (ONew u lin par) (dst s') r Hpos Hs Hc Hok (conj I I) HI HW E).
    - destruct Ho as [Hf _]. destruct (tell_spec _ _ _ _ _ _ _ HG E) as (-> & Ec & H). split; [reflexivity|].
      cbn [outstanding_after done_after].
      assert (HL : forall x, In x out -> lineage x (de_c (dst s')) = lineage x (de_c (dst s))) by (intros x _; rewrite Ec; reflexivity).
      apply (workers_put (dst s)); auto. cbn zeta.
      destruct H as [(Ha & Em & Ep & Eq & _)|(Hna & _ & H)].
      + left. cbn in Ha. apply existsb_exists in Ha as (y & Hin & Hy). apply Nat.eqb_eq in Hy. subst y.
        split; [exact Hin|]. split; [exact Em|]. split; [exact Eq|]. intros x. rewrite Ep, dmem_dset.
        destruct (Nat.eqb_spec x (lineage c (de_c (dst s)))) as [->|]; [|reflexivity]. rewrite Em. reflexivity.
      + right.
        assert (Hin : In c out -> dmem (lineage c (de_c (dst s))) (de_pop (dst s)) = false).
        { intros Hin. apply Hna. cbn. apply existsb_exists. exists c. split; [exact Hin|apply Nat.eqb_refl]. }
        split; [|split; [exact Hin|]].
        * destruct (dmem c (de_pop (dst s))) eqn:Em; [|reflexivity]. exfalso.
          destruct (ti_keys _ _ _ HI c Em) as [|[Ho' Hl']]; [contradiction|].
          specialize (Hin Ho'). rewrite Hl' in Hin. congruence.
        * destruct H as [(_ & Ep & Eq & _)|(_ & w & m & _ & [(_ & ->)|(_ & Ep & (q & Ed & Eq) & _)])].
          -- left. split; [exact Eq|]. intros x. rewrite Ep, dmem_dset. reflexivity.
          -- right. right. split; reflexivity.
          -- right. left. exists w, q. split; [exact Ed|]. split; [exact Eq|]. intros x.
             rewrite Ep, dmem_dset, dmem_ddel by apply Hs. reflexivity.
    - exfalso. eapply Hrej. reflexivity.
  Qed.

  Lemma workers_pso_reach (allowed : list nat -> list nat -> ev_op -> Prop) s out fin :
    (forall out fin o, allowed out fin o -> few_workers llambda out fin o) ->
    pso_reach llambda allowed s out fin -> gen s /\ told_inv (dst s) out fin /\ workers_inv (dst s) out fin.
  Proof.
    intros Hal H. induction H as [|s out fin o s' r H IH Ho Ha Hr E].
    - split; [apply gen_init|]. split; [constructor; cbn; easy|].
      constructor; cbn; try easy; [apply NoDup_nil|]; intros u; unfold dmem; cbn; intuition discriminate.
    - destruct IH as (A & B & C). pose proof (Hal _ _ _ Ha) as Hfw.
      split; [eapply gen_step; eauto|]. split.
      + eapply told_pso_step; eauto. destruct Hfw as [Hp _]. destruct o; try exact I. apply Hp.
      + eapply workers_pso_step; eauto.
  Qed.

  (** *** the personal best *)
  Record personal_inv (s : pso) (out fin : list nat) : Prop := {
    pi_known : forall c, known c (de_c (dst s)) = true -> In c out \/ In c fin;
    pi_parent : forall c, In c out \/ In c fin -> match parent c (de_c (dst s)) with None => True | Some p => In p fin end;
    pi_out : forall c, In c out -> dmem (lineage c (de_c (dst s))) (de_pop (dst s)) = true;
    pi_new : forall c, In c out -> dget c (pso_bp s) = match parent c (de_c (dst s)) with None => None | Some p => dget p (pso_bp s) end;
    pi_unknown : forall c, known c (de_c (dst s)) = false -> dget c (pso_bp s) = None /\ parent c (de_c (dst s)) = None;
    pi_fin : forall c, In c fin -> exists b, dget c (pso_bp s) = Some b /\ ancestor (de_c (dst s)) b c /\
                forall a, ancestor (de_c (dst s)) a c -> le_loss (loss b (de_c (dst s))) (loss a (de_c (dst s))) }.

  Lemma anc_fin s out fin a c : personal_inv s out fin -> ancestor (de_c (dst s)) a c -> In c fin -> In a fin.
  Proof.
    intros HP H. induction H as [|p c Hp H IH]; [auto|]. intros Hc. apply IH.
    pose proof (pi_parent _ _ _ HP c (or_intror Hc)) as X. rewrite Hp in X. exact X.
  Qed.

  Lemma anc_same k k' a c (P : nat -> Prop) : (forall x, P x -> parent x k' = parent x k) ->
    (forall x p, P x -> parent x k = Some p -> P p) -> P c -> (ancestor k' a c <-> ancestor k a c).
  Proof.
    intros He Hcl Hc. split; intros H.
    - induction H as [|p c Hp H IH]; [constructor|]. rewrite He in Hp by easy. econstructor; eauto.
    - induction H as [|p c Hp H IH]; [constructor|]. econstructor; [rewrite He by easy; exact Hp|]. eauto.
  Qed.

  Lemma parent_new u lin par k x : parent u k = None -> parent x (new_cand u lin par k) = if x =? u then par else parent x k.
  Proof.
    intros Hu. unfold parent, new_cand in *. cbn [ca_parent]. destruct par as [p|]; cbn.
    - rewrite dget_dset. destruct (x =? u); reflexivity.
    - destruct (Nat.eqb_spec x u) as [->|]; [exact Hu|reflexivity].
  Qed.

  (** when all outstanding candidates leave a free particle, the next one asked for has been told *)
  Lemma next_told s out fin t p q : sized llambda (dst s) -> told_inv (dst s) out fin -> workers_inv (dst s) out fin ->
    (forall c, known c (de_c (dst s)) = true -> In c out \/ In c fin) ->
    llambda <= length (de_pop (dst s)) -> length out < llambda ->
    uq_ask (de_q (dst s)) = Ok (t, q) -> dget t (de_pop (dst s)) = Some p -> In p fin.
  Proof.
    intros Hs HI [] Hkn Hge Hbw Ea Ep.
    assert (Hcase : uq_told (de_q (dst s)) = [] \/ exists t rest, uq_told (de_q (dst s)) = t :: rest).
    { destruct (uq_told (de_q (dst s))) as [|t' rest]; [now left|right; now exists t', rest]. }
    destruct Hcase as [Et|(t' & rest & Et)].
    { exfalso. assert (Hle : length (dkeys (de_pop (dst s))) <= length (map (fun c => lineage c (de_c (dst s))) out)).
      { apply NoDup_incl_length; [apply Hs|]. intros k Hk. apply dmem_in in Hk.
        pose proof (proj2 (wi_queue k) Hk) as [H|H]; [rewrite Et in H; easy|].
        apply wi_pending in H as [_ (c & H1 & <-)]. now apply in_map with (f := fun c => lineage c (de_c (dst s))). }
      unfold dkeys in Hle. rewrite !map_length in Hle. lia. }
    destruct (wfq_ask _ _ _ wi_wf Et) as (q' & Eq & _). rewrite Eq in Ea. injection Ea as -> ->.
    assert (Hnp : ~ pending t (de_q (dst s))).
    { apply wfq_iff in wi_wf as (_ & _ & D). intros H. eapply (D t); eauto. rewrite Et. now left. }
    destruct (Hkn p (ti_val _ _ _ HI _ _ Ep)) as [Hp|Hp]; [|exact Hp]. exfalso.
    destruct (ti_vals _ _ _ HI _ _ Ep Hp) as [-> Hl]. apply Hnp, wi_pending. split; [eapply dget_mem; eauto|]. eauto.
  Qed.

  Lemma inherit_eq u par bp c : dget u bp = None ->
    dget c (inherit u par bp) = if c =? u then match par with None => None | Some p => dget p bp end else dget c bp.
  Proof.
    intros Hu. unfold inherit. destruct par as [p|].
    - destruct (dget p bp) as [b|] eqn:E; [apply dget_dset|]. destruct (Nat.eqb_spec c u) as [->|]; easy.
    - destruct (Nat.eqb_spec c u) as [->|]; easy.
  Qed.

  (** a new candidate without parent, or child of a told one *)
  Lemma personal_new s out fin u lin par s' : told_inv (dst s) out fin -> personal_inv s out fin -> known u (de_c (dst s)) = false ->
    match par with None => True | Some p => In p fin end ->
    de_c (dst s') = new_cand u lin par (de_c (dst s)) -> pso_bp s' = inherit u par (pso_bp s) ->
    dmem lin (de_pop (dst s')) = true -> (forall k, dmem k (de_pop (dst s)) = true -> dmem k (de_pop (dst s')) = true) ->
    personal_inv s' (u :: out) fin.
  Proof.
    intros HI HP Hu Hpar Ec Ebp Hlin Hpop. destruct (pi_unknown _ _ _ HP u Hu) as [Hbu Hpu].
    assert (Hf : forall x, In x out \/ In x fin -> x <> u).
    { intros x [Hx|Hx] ->; [apply (ti_out _ _ _ HI) in Hx|apply (ti_fin _ _ _ HI) in Hx]; congruence. }
    assert (Hb : forall x, dget x (pso_bp s') = if x =? u then match par with None => None | Some p => dget p (pso_bp s) end else dget x (pso_bp s)).
    { intros x. rewrite Ebp. apply inherit_eq. exact Hbu. }
    assert (Hp : forall x, parent x (de_c (dst s')) = if x =? u then par else parent x (de_c (dst s))).
    { intros x. rewrite Ec. apply parent_new. exact Hpu. }
    assert (Hk : forall x, known x (de_c (dst s')) = (x =? u) || known x (de_c (dst s))).
    { intros x. rewrite Ec. unfold known, new_cand. cbn. apply dmem_dset. }
    assert (Hlo : forall x, loss x (de_c (dst s')) = loss x (de_c (dst s))) by (intros x; rewrite Ec; reflexivity).
    assert (Hne : forall x, x <> u -> (x =? u) = false) by (intros x; apply Nat.eqb_neq).
    constructor.
    - intros c. rewrite Hk, orb_true_iff, Nat.eqb_eq. intros [->|H]; [left; now left|].
      destruct (pi_known _ _ _ HP c H); [left; now right|now right].
    - intros c H. rewrite Hp. destruct (Nat.eqb_spec c u) as [->|Hcu]; [exact Hpar|].
      apply (pi_parent _ _ _ HP). destruct H as [[->|H]|H]; [contradiction|now left|now right].
    - intros c [<-|H]; rewrite Ec, lineage_new by exact Hu; [rewrite Nat.eqb_refl; exact Hlin|].
      rewrite Hne by (apply Hf; now left). apply Hpop, (pi_out _ _ _ HP). exact H.
    - intros c H. rewrite Hb, Hp. destruct (Nat.eqb_spec c u) as [->|Hcu].
      + destruct par as [p|]; [|reflexivity]. rewrite Hb, Hne by (apply Hf; now right). reflexivity.
      + assert (Hc : In c out) by (destruct H as [->|H]; [contradiction|exact H]).
        rewrite (pi_new _ _ _ HP c Hc). pose proof (pi_parent _ _ _ HP c (or_introl Hc)) as X.
        destruct (parent c (de_c (dst s))) as [p|]; [|reflexivity]. rewrite Hb, Hne by (apply Hf; now right). reflexivity.
    - intros c. rewrite Hk, orb_false_iff. intros [E1 E2]. rewrite Hb, Hp, E1. exact (pi_unknown _ _ _ HP c E2).
    - intros c Hc. destruct (pi_fin _ _ _ HP c Hc) as (b & B1 & B2 & B3).
      assert (HA : forall a, ancestor (de_c (dst s')) a c <-> ancestor (de_c (dst s)) a c).
      { intros a. apply (anc_same _ _ a c (fun x => In x fin)); [| |exact Hc].
        - intros x Hx. rewrite Hp, Hne by (apply Hf; now right). reflexivity.
        - intros x p' Hx Ex. pose proof (pi_parent _ _ _ HP x (or_intror Hx)) as X. rewrite Ex in X. exact X. }
      exists b. rewrite Hb, Hne by (apply Hf; now right). split; [exact B1|]. split; [apply HA; exact B2|].
      intros a Ha. rewrite !Hlo. apply B3, HA. exact Ha.
  Qed.

  Lemma personal_tell s out fin c l s' v : told_inv (dst s) out fin -> personal_inv s out fin -> In c out -> ~ In c fin ->
    de_c (dst s') = set_cand_loss c l (de_c (dst s)) ->
    (forall k, dmem k (de_pop (dst s)) = true -> dmem k (de_pop (dst s')) = true) ->
    loss (match dget c (pso_bp s) with Some b => b | None => c end) (set_cand_loss c l (de_c (dst s))) = Some v ->
    pso_bp s' = (if qle l v then dset c c (pso_bp s) else pso_bp s) ->
    personal_inv s' (filter (fun x => negb (x =? c)) out) (c :: fin).
  Proof.
    intros HI HP Hin Hf Ec Hpop Hv Ebp.
    assert (Hp : forall x, parent x (de_c (dst s')) = parent x (de_c (dst s))) by (intros x; rewrite Ec; reflexivity).
    assert (HA : forall a x, ancestor (de_c (dst s')) a x <-> ancestor (de_c (dst s)) a x).
    { intros a x. apply (anc_same _ _ a x (fun _ => True)); auto. }
    assert (Hbp : forall x, x <> c -> dget x (pso_bp s') = dget x (pso_bp s)).
    { intros x Hx. rewrite Ebp. destruct (qle l v); [|reflexivity]. rewrite dget_dset. destruct (Nat.eqb_spec x c); easy. }
    assert (Hlf : forall x, In x fin -> loss x (de_c (dst s')) = loss x (de_c (dst s))).
    { intros x Hx. rewrite Ec, loss_set. destruct (Nat.eqb_spec x c) as [->|]; easy. }
    assert (Hlc : loss c (de_c (dst s')) = Some l) by (rewrite Ec, loss_set, Nat.eqb_refl; reflexivity).
    constructor.
    - intros x Hx. rewrite Ec in Hx. change (known x (de_c (dst s)) = true) in Hx. rewrite in_others.
      destruct (Nat.eq_dec x c) as [->|Hne]; [right; now left|].
      destruct (pi_known _ _ _ HP x Hx); [left; auto|right; now right].
    - intros x Hx. rewrite Hp.
      assert (Hx' : In x out \/ In x fin) by (rewrite in_others in Hx; destruct Hx as [[? _]|[<-|?]]; auto).
      pose proof (pi_parent _ _ _ HP x Hx') as X. destruct (parent x (de_c (dst s))); [now right|exact I].
    - intros x Hx. apply in_others in Hx as [Hx _]. rewrite Ec. apply Hpop, (pi_out _ _ _ HP). exact Hx.
    - intros x Hx. apply in_others in Hx as [Hx Hne]. rewrite Hbp, Hp by exact Hne. rewrite (pi_new _ _ _ HP x Hx).
      pose proof (pi_parent _ _ _ HP x (or_introl Hx)) as X. destruct (parent x (de_c (dst s))) as [p|]; [|reflexivity].
      symmetry. apply Hbp. intros ->. contradiction.
    - intros x Hx. rewrite Ec in Hx. change (known x (de_c (dst s)) = false) in Hx. rewrite Hp, Hbp.
      + exact (pi_unknown _ _ _ HP x Hx).
      + intros ->. rewrite (ti_out _ _ _ HI c Hin) in Hx. discriminate.
    - assert (Hold : forall x, In x fin -> exists b, dget x (pso_bp s') = Some b /\ ancestor (de_c (dst s')) b x /\
        forall a, ancestor (de_c (dst s')) a x -> le_loss (loss b (de_c (dst s'))) (loss a (de_c (dst s')))).
      { intros x Hx. destruct (pi_fin _ _ _ HP x Hx) as (b & B1 & B2 & B3). exists b.
        rewrite Hbp by (intros ->; contradiction). split; [exact B1|]. split; [apply HA; exact B2|].
        intros a Ha. apply HA in Ha. rewrite !Hlf; [auto| |]; eapply anc_fin; eauto. }
      intros x [<-|Hx]; [|exact (Hold x Hx)].
      pose proof (pi_new _ _ _ HP c Hin) as Hn. pose proof (pi_parent _ _ _ HP c (or_introl Hin)) as Hpf.
      destruct (parent c (de_c (dst s))) as [p|] eqn:Epar.
      + destruct (Hold p Hpf) as (b & B1 & B2 & B3). rewrite Hbp in B1 by (intros ->; contradiction).
        assert (Hbf : In b fin) by (apply HA in B2; eapply anc_fin; eauto).
        rewrite Hn, B1 in Hv. rewrite <- Ec in Hv.
        destruct (qle l v) eqn:El.
        * exists c. rewrite Ebp, dget_dset, Nat.eqb_refl. split; [reflexivity|]. split; [constructor|].
          intros a Ha. inversion Ha as [|p' c' Hp' Ha']; subst; [apply le_loss_refl|].
          rewrite Hp, Epar in Hp'. injection Hp' as ->. eapply le_loss_trans; [|exact (B3 a Ha')].
          rewrite Hlc, Hv. apply qle_iff in El. exact El.
        * exists b. rewrite Ebp, Hn, B1. split; [reflexivity|]. split; [econstructor; [rewrite Hp; exact Epar|exact B2]|].
          intros a Ha. inversion Ha as [|p' c' Hp' Ha']; subst.
          -- rewrite Hlc, Hv. cbn. apply Qnot_lt_le. intros X. apply Qlt_le_weak, qle_iff in X. congruence.
          -- rewrite Hp, Epar in Hp'. injection Hp' as ->. exact (B3 a Ha').
      + rewrite Hn in Hv. rewrite loss_set, Nat.eqb_refl in Hv. injection Hv as <-.
        assert (El : qle l l = true) by (apply qle_iff, Qle_refl). rewrite El in Ebp.
        exists c. rewrite Ebp, dget_dset, Nat.eqb_refl. split; [reflexivity|]. split; [constructor|].
        intros a Ha. inversion Ha as [|p' c' Hp' Ha']; subst; [apply le_loss_refl|]. rewrite Hp, Epar in Hp'. discriminate.
  Qed.

  Lemma personal_step s out fin o s' r : gen s -> op_ok (de_c (dst s)) o -> asked_only llambda out fin o ->
    (forall c, o <> OReject c) -> told_inv (dst s) out fin -> workers_inv (dst s) out fin -> personal_inv s out fin ->
    step (is_asked out o) s o = (s', r) -> personal_inv s' (outstanding_after out o r) (done_after fin o).
  Proof.
    intros HG Hok [[Hpo Hbw] Hao] Hrej HI HW HP E. pose proof HG as [Hs Hc Hb].
    destruct o as [u|u lin par|c l0 l|c]; [|contradiction| |exfalso; eapply Hrej; reflexivity].
    - cbn [done_after]. cbn in Hok. cbn [pso_step] in E. unfold pso_ask in E.
      destruct (Nat.ltb_spec (length (de_pop (dst s))) llambda) as [Hlt|Hge].
      + injection E as <- <-. cbn [outstanding_after]. eapply (personal_new s out fin u u None); eauto; try reflexivity.
        * cbn. rewrite dmem_dset, Nat.eqb_refl. reflexivity.
        * intros k Hk. cbn. rewrite dmem_dset, Hk. apply orb_true_r.
      + destruct (uq_ask (de_q (dst s))) as [[t q]|e] eqn:Eq; [|injection E as <- <-; exact HP].
        destruct (dget t (de_pop (dst s))) as [p|] eqn:Ep; injection E as <- <-.
        * cbn [outstanding_after]. eapply (personal_new s out fin u t (Some p)); eauto; try reflexivity.
          -- eapply next_told; eauto. apply (pi_known _ _ _ HP).
          -- cbn. eapply dget_mem; eauto.
        * cbn [outstanding_after]. destruct HP. constructor; auto.
    - cbn in Hao. destruct Hpo as [Hf ->]. destruct (tell_spec _ _ _ _ _ _ _ HG E) as (-> & Ec & H).
      cbn [outstanding_after done_after].
      assert (Has : is_asked out (OTell c l l) = true).
      { cbn. apply existsb_exists. exists c. split; [exact Hao|apply Nat.eqb_refl]. }
      pose proof (pi_out _ _ _ HP c Hao) as Hm.
      destruct H as [(_ & _ & Ep & _ & _ & v & Hv & Ebp)|(Hna & _)].
      + eapply (personal_tell s out fin c l s' v); eauto. intros k Hk. rewrite Ep, dmem_dset, Hk. apply orb_true_r.
      + rewrite (Hna Has) in Hm. discriminate.
  Qed.

  Lemma personal_reach s out fin : pso_reach llambda (asked_only llambda) s out fin -> personal_inv s out fin.
  Proof.
    intros H.
    assert (K : forall s out fin, pso_reach llambda (asked_only llambda) s out fin ->
      gen s /\ told_inv (dst s) out fin /\ workers_inv (dst s) out fin).
    { intros s0 out0 fin0. apply workers_pso_reach. intros ? ? ? [? _]. assumption. }
    induction H as [|s out fin o s' r H IH Ho Ha Hr E].
    - constructor; cbn; easy.
    - destruct (K _ _ _ H) as (A & B & C). eapply personal_step; eauto.
  Qed.
End PSO.

Section Move.
  Open Scope R_scope.
  Lemma clip_R_box a e : 0 <= e -> e <= 1 - e -> e <= clip_R a e (1 - e) <= 1 - e.
  Proof.
    intros H0 H1. unfold clip_R, Rmin, Rmax.
    destruct (Rle_dec e a); destruct (Rle_dec (1 - e) _); lra.
  Qed.
  Lemma clip_R_id a e : e <= a <= 1 - e -> clip_R a e (1 - e) = a.
  Proof.
    intros [H0 H1]. unfold clip_R, Rmin, Rmax.
    destruct (Rle_dec e a); destruct (Rle_dec (1 - e) _); lra.
  Qed.
End Move.

(** ** playing concrete histories *)
Section Play.
  Variable llambda : nat.
  Variable allowed : list nat -> list nat -> ev_op -> Prop.
  Fixpoint pso_play (s : pso) (out fin : list nat) (ops : list ev_op) : pso * list nat * list nat :=
    match ops with
    | [] => (s, out, fin)
    | o :: ops => let (s', r) := pso_step llambda (is_asked out o) s o in
                  pso_play s' (outstanding_after out o r) (done_after fin o) ops
    end.
  Fixpoint legal (s : pso) (out fin : list nat) (ops : list ev_op) : Prop :=
    match ops with
    | [] => True
    | o :: ops => op_ok (de_c (pso_s s)) o /\ allowed out fin o /\ (forall c, o <> OReject c) /\
        let (s', r) := pso_step llambda (is_asked out o) s o in
        legal s' (outstanding_after out o r) (done_after fin o) ops
    end.
  Lemma play_reach ops : forall s out fin, pso_reach llambda allowed s out fin -> legal s out fin ops ->
    let '(s', out', fin') := pso_play s out fin ops in pso_reach llambda allowed s' out' fin'.
  Proof.
    induction ops as [|o ops IH]; intros s out fin H L; [exact H|].
    cbn [legal] in L. destruct L as (L1 & L2 & L3 & L4). cbn [pso_play].
    destruct (pso_step llambda (is_asked out o) s o) as [s' r] eqn:E. apply IH; [|exact L4].
    eapply pso_reach_step; eauto.
  Qed.
End Play.

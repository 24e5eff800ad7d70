From Coq Require Import List Arith ZArith QArith Bool Lqa Lia Permutation.
From Verif.Model Require Import Prelude MultiValue Float Optimizer.
From Verif.Spec Require Import Optimizer.
From Verif.Proofs Require Import Prelude MultiValue.
Import ListNotations.

Section Opt.
  Context {ALG ARC HV : Type}.
  Variable E : env ALG ARC HV.
  Notation ost := (ost ALG ARC HV).
  Notation ask := (ask ALG ARC HV E).
  Notation tell := (tell ALG ARC HV E).
  Notation step := (step ALG ARC HV E).
  Notation perform := (perform E).
  Notation num_ask := (o_num_ask ALG ARC HV).
  Notation num_tell := (o_num_tell ALG ARC HV).
  Notation num_tna := (o_num_tna ALG ARC HV).
  Notation asked := (o_asked ALG ARC HV).
  Notation suggs := (o_suggestions ALG ARC HV).
  Notation num_obj := (o_num_obj ALG ARC HV).
  Notation hv := (o_hv ALG ARC HV).
  Notation arc := (o_arc ALG ARC HV).
  Notation curve := (o_curve ALG ARC HV).
  Notation closs := (o_loss ALG ARC HV).
  Notation trace := (o_trace ALG ARC HV).

  Lemma mem_in c l : mem c l = true <-> In c l.
  Proof.
    unfold mem. rewrite existsb_exists. split.
    - intros (x & Hx & Ex). apply Nat.eqb_eq in Ex. now subst.
    - intros H. exists c. split; [easy|apply Nat.eqb_refl].
  Qed.
  Lemma mem_false c l : mem c l = false <-> ~ In c l.
  Proof. rewrite <- mem_in. destruct (mem c l); intuition congruence. Qed.
  Lemma without_notin c l : ~ In c l -> without c l = l.
  Proof.
    unfold without. induction l as [|a l IH]; cbn; [easy|]. intros H.
    destruct (Nat.eqb_spec a c); cbn; [intuition|]. f_equal. apply IH. tauto.
  Qed.

  (** fields untouched by the choice of a candidate *)
  Record ask_frame (s s' : ost) : Prop := {
    af_tell : num_tell s' = num_tell s;
    af_tna : num_tna s' = num_tna s;
    af_asked : asked s' = asked s;
    af_nobj : num_obj s' = num_obj s;
    af_hv : hv s' = hv s;
    af_arc : arc s' = arc s;
    af_curve : curve s' = curve s;
    af_loss : closs s' = closs s;
    af_frozen : o_frozen _ _ _ s' = o_frozen _ _ _ s;
    af_num : (num_ask s <= num_ask s')%nat }.

  Lemma af_refl s : ask_frame s s.
  Proof. constructor; auto. Qed.
  Lemma af_trans s1 s2 s3 : ask_frame s1 s2 -> ask_frame s2 s3 -> ask_frame s1 s3.
  Proof. intros [] []. constructor; try congruence. lia. Qed.

  Lemma ask_algorithm_frame s s' r : ask_algorithm ALG ARC HV E s = (s', r) -> ask_frame s s'.
  Proof.
    unfold ask_algorithm. destruct (e_ask _ _ _ E _) as [a [c|e]].
    - intros [= <- <-]. constructor; reflexivity.
    - destruct e; try (intros [= <- <-]; constructor; reflexivity).
      destruct (e_has_checkers _ _ _ E); [|intros [= <- <-]; constructor; reflexivity].
      destruct (e_spawn _ _ _ E _) as [a' c]. intros [= <- <-]. constructor; reflexivity.
  Qed.

  Lemma ask_algorithm_num s s' r : ask_algorithm ALG ARC HV E s = (s', r) ->
    num_ask s' = num_ask s /\ suggs s' = suggs s /\ o_skip _ _ _ s' = o_skip _ _ _ s.
  Proof.
    unfold ask_algorithm. destruct (e_ask _ _ _ E _) as [a [c|e]].
    - intros [= <- <-]. auto.
    - destruct e; try (intros [= <- <-]; auto; fail).
      destruct (e_has_checkers _ _ _ E); [|intros [= <- <-]; auto].
      destruct (e_spawn _ _ _ E _) as [a' c]. intros [= <- <-]. auto.
  Qed.

  Lemma ask_loop_frame n : forall s last s' r,
    ask_loop ALG ARC HV E n s last = (s', r) -> ask_frame s s'.
  Proof.
    induction n as [|n IH]; intros s last s' r; cbn [ask_loop].
    - intros [= <- <-]. apply af_refl.
    - destruct (match suggs s with
                | [] => let '(s0, r0) := ask_algorithm ALG ARC HV E s in (s0, r0, false)
                | c :: l => (set_suggestions ALG ARC HV s l, Ok c, true)
                end) as [[s1 r1] sg] eqn:E1.
      assert (F1 : ask_frame s s1).
      { destruct (suggs s) as [|c l].
        - destruct (ask_algorithm ALG ARC HV E s) as [s0 r0] eqn:E0. injection E1 as <- <- <-.
          now apply ask_algorithm_frame in E0.
        - injection E1 as <- <- <-. constructor; reflexivity. }
      destruct r1 as [c|e]; [|intros [= <- <-]; exact F1].
      unfold satisfies. destruct (e_satisfies _ _ _ E s1 c) as [a ok].
      destruct ok.
      + destruct (_ && _); intros [= <- <-]; (eapply af_trans; [exact F1|constructor; reflexivity]).
      + destruct (e_penalize _ _ _ E).
        * destruct (e_tell _ _ _ E _ c PosInf) as [a2 [u|e]].
          -- intros H. apply IH in H. eapply af_trans; [exact F1|]. eapply af_trans; [|exact H].
             constructor; cbn; auto; lia.
          -- intros [= <- <-]. eapply af_trans; [exact F1|]. constructor; reflexivity.
        * intros H. apply IH in H. eapply af_trans; [exact F1|]. eapply af_trans; [|exact H].
          constructor; cbn; auto; lia.
  Qed.

  (** with at least one trial, the loop gives a candidate or an error *)
  Lemma ask_loop_some n : forall s last s' c, (0 < n)%nat \/ last <> None ->
    ask_loop ALG ARC HV E n s last = (s', Ok c) -> c <> None.
  Proof.
    induction n as [|n IH]; intros s last s' c Hn; cbn [ask_loop].
    - intros [= <- <-]. destruct Hn; [lia|easy].
    - destruct (match suggs s with
                | [] => let '(s0, r0) := ask_algorithm ALG ARC HV E s in (s0, r0, false)
                | c :: l => (set_suggestions ALG ARC HV s l, Ok c, true)
                end) as [[s1 r1] sg].
      destruct r1 as [c1|e]; [|easy].
      unfold satisfies. destruct (e_satisfies _ _ _ E s1 c1) as [a ok]. destruct ok.
      + destruct (_ && _); intros [= <- <-]; easy.
      + destruct (e_penalize _ _ _ E).
        * destruct (e_tell _ _ _ E _ c1 PosInf) as [a2 [u|e]]; [|easy].
          apply IH. now right.
        * apply IH. now right.
  Qed.

  Lemma ask_candidate_frame s s' r : ask_candidate ALG ARC HV E s = (s', r) -> ask_frame s s'.
  Proof.
    unfold ask_candidate. destruct (_ && _); [|apply ask_loop_frame].
    destruct (e_ask _ _ _ E _) as [a [c|e]]; intros [= <- <-]; constructor; reflexivity.
  Qed.

  Lemma ask_candidate_some s s' c : ask_candidate ALG ARC HV E s = (s', Ok c) -> c <> None.
  Proof.
    unfold ask_candidate. destruct (_ && _).
    - destruct (e_ask _ _ _ E _) as [a [c0|e]]; intros [= <- <-]; easy.
    - apply ask_loop_some. left. lia.
  Qed.

  (** everything about [ask] but the suggestions *)
  Lemma ask_spec s s' r : ask s = (s', r) ->
    num_tell s' = num_tell s /\ num_tna s' = num_tna s /\ num_obj s' = num_obj s /\
    hv s' = hv s /\ arc s' = arc s /\ curve s' = curve s /\ closs s' = closs s /\
    match r with
    | Ok (c, sg) => num_ask s' = S (num_ask s) /\
        asked s' = (if sg then asked s else asked s ++ [c]) /\ (sg = false -> ~ In c (asked s))
    | Err _ => (num_ask s <= num_ask s')%nat /\ asked s' = asked s
    end.
  Proof.
    unfold Optimizer.ask. destruct (e_callbacks_ask _ _ _ E s) as [a [u|e]].
    2: { intros [= <- <-]. cbn. repeat split; auto. }
    destruct (ask_candidate ALG ARC HV E _) as [s1 r1] eqn:E1.
    pose proof (ask_candidate_frame _ _ _ E1) as [f1 f2 f3 f4 f5 f6 f7 f8 f9 f10]. cbn in *.
    destruct r1 as [[[c sg]|]|e].
    2: { now apply ask_candidate_some in E1. }
    2: { intros [= <- <-]. repeat split; auto. }
    unfold satisfies. destruct (e_satisfies _ _ _ E s1 c) as [a2 ok].
    destruct (if negb ok && (e_tabu_length _ _ _ E =? 0)%nat
              then let '(a0, c') := e_solver _ _ _ E (set_alg _ _ _ s1 a2) c in
                   (set_alg _ _ _ (set_alg _ _ _ s1 a2) a0, c')
              else (set_alg _ _ _ s1 a2, c)) as [s2 c2] eqn:E2.
    assert (H2 : exists a3, s2 = set_alg _ _ _ s1 a3).
    { destruct (_ && _).
      - destruct (e_solver _ _ _ E _ c) as [a0 c']. injection E2 as <- <-. exists a0. reflexivity.
      - injection E2 as <- <-. exists a2. reflexivity. }
    destruct H2 as [a3 ->]. clear E2.
    match goal with |- context [if ok then ?x else ?y] =>
      assert (H3 : exists a4, (if ok then x else y) = set_alg _ _ _ s1 a4)
        by (destruct ok; eexists; reflexivity) end.
    destruct H3 as [a4 ->]. cbn [o_asked set_alg].
    destruct (negb sg && mem c2 (asked s1)) eqn:Em.
    - intros [= <- <-]. cbn. repeat split; auto.
    - intros [= <- <-]. destruct sg; cbn in *; repeat split; auto; try lia; try congruence.
      intros _. rewrite <- f3. now apply mem_false.
  Qed.

  (** [ask_loop] without violated constraints *)
  Lemma ask_no_violation s s' r : no_violation E -> ask s = (s', r) ->
    match r with
    | Err _ => num_ask s' = num_ask s /\ suggs s' = suggs s
    | Ok (c, sg) => match suggs s with
                    | c0 :: l => c = c0 /\ sg = true /\ suggs s' = l /\ trace s' = trace s
                    | [] => sg = false /\ suggs s' = []
                    end
    end.
  Proof.
    intros Hnv. unfold Optimizer.ask. destruct (e_callbacks_ask _ _ _ E s) as [a [u|e]].
    2: { intros [= <- <-]. cbn. auto. }
    destruct (ask_candidate ALG ARC HV E _) as [s1 r1] eqn:E1.
    assert (H1 : match r1 with
      | Err _ => num_ask s1 = num_ask s /\ suggs s1 = suggs s
      | Ok None => False
      | Ok (Some (c, sg)) => num_ask s1 = num_ask s /\ match suggs s with
                      | c0 :: l => c = c0 /\ sg = true /\ suggs s1 = l /\ trace s1 = trace s
                      | [] => sg = false /\ suggs s1 = []
                      end
      end).
    { revert E1. unfold ask_candidate. cbn [o_skip o_suggestions set_alg].
      destruct (suggs s) as [|c0 l] eqn:Es.
      - rewrite andb_true_r. destruct (o_skip _ _ _ s).
        + destruct (e_ask _ _ _ E _) as [a1 [c1|e1]]; intros [= <- <-]; cbn; auto.
        + destruct (Nat.max 1 _) as [|n] eqn:En; [lia|]. cbn [ask_loop o_suggestions set_alg]. rewrite Es.
          destruct (ask_algorithm ALG ARC HV E _) as [s2 r2] eqn:E2.
          apply ask_algorithm_num in E2 as (E2 & E3 & E4). cbn in E2, E3.
          destruct r2 as [c2|e2]; [|intros [= <- <-]; split; congruence].
          unfold satisfies. specialize (Hnv s2 c2). destruct (e_satisfies _ _ _ E s2 c2) as [a2 ok].
          cbn in Hnv. subst ok. destruct (_ && _); intros [= <- <-]; cbn; repeat split; congruence.
      - rewrite andb_false_r.
        destruct (Nat.max 1 _) as [|n] eqn:En; [lia|]. cbn [ask_loop o_suggestions set_alg]. rewrite Es.
        unfold satisfies.
        match goal with |- context [e_satisfies _ _ _ E ?s2 ?c2] =>
          specialize (Hnv s2 c2); destruct (e_satisfies _ _ _ E s2 c2) as [a2 ok] end.
        cbn in Hnv. subst ok. destruct (_ && _); intros [= <- <-]; cbn; repeat split; congruence. }
    destruct r1 as [[[c sg]|]|e].
    - unfold satisfies. specialize (Hnv s1 c). destruct (e_satisfies _ _ _ E s1 c) as [a2 ok].
      cbn in Hnv. subst ok. cbn [negb andb].
      destruct (negb sg && mem c _) eqn:Em.
      + intros [= <- <-]. cbn. destruct H1 as [Hn H1]. split; [exact Hn|].
        destruct (suggs s) as [|c0 l].
        * tauto.
        * destruct H1 as (_ & -> & _). easy.
      + destruct H1 as [_ H1]. intros [= <- <-]. destruct (suggs s) as [|c0 l].
        * destruct H1 as (-> & H1). cbn. auto.
        * destruct H1 as (-> & -> & H2 & H3). cbn. auto.
    - easy.
    - intros [= <- <-]. exact H1.
  Qed.

  (** tells *)
  Lemma assign_num_obj_spec s n s' r : assign_num_obj ALG ARC HV s n = (s', r) ->
    match r with
    | Ok _ => s' = set_num_obj _ _ _ s n /\ n <> 0%nat /\ (num_obj s = 0%nat \/ num_obj s = n)
    | Err e => s' = s /\ e = ValueError /\ (n = 0%nat \/ (num_obj s <> 0%nat /\ n <> num_obj s))
    end.
  Proof.
    unfold assign_num_obj.
    destruct (Nat.eqb_spec n 0); [intros [= <- <-]; auto|].
    destruct (Nat.eqb_spec (num_obj s) 0); [intros [= <- <-]; auto|].
    destruct (Nat.eqb_spec n (num_obj s)) as [->|]; intros [= <- <-]; [|auto].
    split; [now destruct s|auto].
  Qed.

  Lemma update_curve_same s l : same_but_curve s (update_curve ALG ARC HV s l).
  Proof.
    unfold update_curve. destruct l; try (constructor; reflexivity).
    destruct (rev _) as [|[n ?] ?]; [constructor; reflexivity|].
    destruct (_ <? _)%nat; constructor; reflexivity.
  Qed.

  Lemma sbc_trans (s1 s2 s3 : ost) : same_but_curve s1 s2 -> same_but_curve s2 s3 -> same_but_curve s1 s3.
  Proof. intros [] []. constructor; congruence. Qed.

  (** what the last part of a tell does *)
  Record finish_spec (s : ost) (c : nat) (l : fl) (nu : bool) (s' : ost) (r : result unit) : Prop := {
    fs_ask : num_ask s' = num_ask s;
    fs_sugg : suggs s' = suggs s;
    fs_nobj : num_obj s' = num_obj s;
    fs_hv : hv s' = hv s;
    fs_curve : curve s' = curve s;
    fs_loss : closs s' = closs s;
    fs_skip : o_skip _ _ _ s' = o_skip _ _ _ s;
    fs_arc : nu = true -> arc s' = arc s;
    fs_res : match r with
      | Ok _ => num_tell s' = S (num_tell s) /\
                num_tna s' = (num_tna s + if mem c (asked s) then 0 else 1)%nat /\
                asked s' = without c (asked s)
      | Err _ => num_tell s' = num_tell s /\ num_tna s' = num_tna s /\ asked s' = asked s
      end;
    fs_trace : r = Ok tt -> exists t0, trace s' = trace s ++ t0 ++ [EAlgTell c l (mem c (asked s))] /\
      (nu = true -> t0 = []) /\ (nu = false -> num_obj s = 1%nat -> t0 = [EArchive c l]) }.

  Lemma tell_finish_spec s c l nu s' r : tell_finish ALG ARC HV E s c l nu = (s', r) ->
    finish_spec s c l nu s' r.
  Proof.
    unfold tell_finish. destruct (read_num_obj ALG ARC HV E s) as [n|e] eqn:En.
    2: { intros [= <- <-]. constructor; auto; easy. }
    destruct (((n =? 1)%nat || ((1 <? n)%nat && negb (e_no_hypervolume _ _ _ E))) && negb nu) eqn:Eu.
    - assert (nu = false) by (apply andb_true_iff in Eu as [_ Eu]; now destruct nu). subst nu.
      cbn [o_arc log]. destruct (e_update _ _ _ E (arc s) c l) as [a [u|e]].
      2: { intros [= <- <-]. constructor; cbn; auto; easy. }
      cbn [o_asked set_arc log]. destruct (mem c (asked s)) eqn:Em.
      + destruct (e_tell _ _ _ E _ c l) as [a2 [u2|e2]]; intros [= <- <-]; constructor; cbn;
          rewrite ?Em; auto; try easy.
        * split; [lia|]. split; [lia|]. reflexivity.
        * intros _. exists [EArchive c l]. rewrite <- !app_assoc. cbn. split; [reflexivity|]. split; [discriminate|auto].
      + destruct (e_tell_not_asked _ _ _ E _ c l) as [a2 [u2|e2]]; intros [= <- <-]; constructor; cbn;
          rewrite ?Em; auto; try easy.
        * split; [lia|]. split; [lia|]. symmetry. apply without_notin. now apply mem_false.
        * intros _. exists [EArchive c l]. rewrite <- !app_assoc. cbn. split; [reflexivity|]. split; [discriminate|auto].
    - assert (Hnu : nu = false -> num_obj s <> 1%nat).
      { intros ->. rewrite andb_true_r in Eu. apply orb_false_iff in Eu as [Eu _].
        apply Nat.eqb_neq in Eu. unfold read_num_obj in En. destruct (hv s).
        - destruct (_ =? _)%nat; congruence.
        - congruence. }
      destruct (mem c (asked s)) eqn:Em.
      + destruct (e_tell _ _ _ E _ c l) as [a2 [u2|e2]]; intros [= <- <-]; constructor; cbn;
          rewrite ?Em; auto; try easy.
        * split; [lia|]. split; [lia|]. reflexivity.
        * intros _. exists []. cbn. intuition.
      + destruct (e_tell_not_asked _ _ _ E _ c l) as [a2 [u2|e2]]; intros [= <- <-]; constructor; cbn;
          rewrite ?Em; auto; try easy.
        * split; [lia|]. split; [lia|]. symmetry. apply without_notin. now apply mem_false.
        * intros _. exists []. cbn. intuition.
  Qed.

  (** effects of a tell whose arguments passed the checks *)
  Record process_spec (s : ost) (c : nat) (l : fl) (s' : ost) (r : result unit) : Prop := {
    qs_ask : num_ask s' = num_ask s;
    qs_sugg : suggs s' = suggs s;
    qs_nobj : num_obj s' = num_obj s;
    qs_hv : hv s' = hv s;
    qs_curve : curve s' = curve s;
    qs_loss : closs s' = dset c l (closs s);
    qs_res : match r with
      | Ok _ => num_tell s' = S (num_tell s) /\
                num_tna s' = (num_tna s + if mem c (asked s) then 0 else 1)%nat /\
                asked s' = without c (asked s)
      | Err _ => num_tell s' = num_tell s /\ num_tna s' = num_tna s /\ asked s' = asked s
      end }.

  Lemma tell_process_spec s c l cv s' r : tell_process ALG ARC HV E s c l cv = (s', r) ->
    process_spec s c l s' r.
  Proof.
    unfold tell_process. destruct (e_callbacks_tell _ _ _ E _ c l) as [a [u|e]].
    2: { intros [= <- <-]. constructor; cbn; auto. }
    unfold satisfies. destruct (e_satisfies _ _ _ E _ c) as [a2 ok].
    destruct cv as [cv|]; intros H; apply tell_finish_spec in H; destruct H; constructor; cbn in *; auto.
  Qed.

  Record tell_spec (s : ost) (c : cand_in) (l : loss_in) (s' : ost) (r : result bool) : Prop := {
    ts_ask : num_ask s' = num_ask s;
    ts_sugg : suggs s' = suggs s;
    ts_nobj : num_obj s <> 0%nat -> num_obj s' = num_obj s;
    ts_res : match r with
      | Ok true => exists c0, told_candidate c = Some c0 /\ num_tell s' = S (num_tell s) /\
                num_tna s' = (num_tna s + if mem c0 (asked s) then 0 else 1)%nat /\
                asked s' = without c0 (asked s)
      | _ => num_tell s' = num_tell s /\ num_tna s' = num_tna s /\ asked s' = asked s
      end;
    ts_false : r = Ok false -> c = CRef None;
    ts_n : match r with Ok _ => num_obj s' = n_losses l | _ => True end }.

  Lemma check_loss_size l lv n : check_loss l = Ok lv -> loss_size lv = Ok n -> n = n_losses l.
  Proof.
    assert (Hf : forall l r, as_floats l = Ok r -> length r = length l).
    { induction l0 as [|i l0 IH]; cbn; intros r; [now intros [= <-]|].
      destruct i; try easy; destruct (as_floats l0); cbn; try easy; intros [= <-]; cbn; f_equal; auto. }
    destruct l as [f|l|]; cbn; try easy.
    - intros [= <-] [= <-]. easy.
    - destruct l as [|i l]; [intros [= <-] [= <-]; easy|].
      destruct l as [|j l].
      + destruct i; intros [= <-]; cbn; try easy. now intros [= <-].
      + assert (check_loss (LSeq (i :: j :: l)) = bind (as_floats (i :: j :: l)) (fun r => Ok (VArray r)))
          as E1 by (destruct i; reflexivity).
        intros H. change (check_loss (LSeq (i :: j :: l)) = Ok lv) in H. rewrite E1 in H.
        destruct (as_floats (i :: j :: l)) as [r|] eqn:Ef; [|easy]. cbn in H. injection H as <-.
        cbn. intros [= <-]. now apply Hf in Ef.
  Qed.

  Lemma tell_tell_spec s c l cv s' r : tell s c l cv = (s', r) -> tell_spec s c l s' r.
  Proof.
    unfold Optimizer.tell. destruct (check_loss l) as [lv|e] eqn:El.
    2: { intros [= <- <-]. constructor; auto; easy. }
    pose proof (update_curve_same s lv) as Hc. set (s0 := update_curve ALG ARC HV s lv) in *. clearbody s0.
    destruct Hc.
    assert (Hbad : (s0, Err TypeError) = (s', r) -> tell_spec s c l s' r).
    { intros [= <- <-]. constructor; auto; easy. }
    assert (Hgood : forall X : ost * result bool, c <> CBad -> (match c with CBad => (s0, Err TypeError) | _ => X end = X)).
    { intros X H. destruct c; try easy. }
    destruct (match c with CBad => true | _ => false end) eqn:Ecb.
    { destruct c; try easy. }
    rewrite Hgood by (intros ->; easy). clear Hgood Hbad.
    destruct (loss_size lv) as [n|e] eqn:En.
    2: { intros [= <- <-]. constructor; auto; easy. }
    pose proof (check_loss_size _ _ _ El En) as Hn.
    destruct (assign_num_obj ALG ARC HV s0 n) as [s1 r1] eqn:E1. apply assign_num_obj_spec in E1.
    destruct r1 as [u1|e1].
    2: { destruct E1 as (-> & _). intros [= <- <-]. constructor; auto; easy. }
    destruct E1 as (-> & Hn0 & Hno).
    set (s2 := match c with CParam c0 => set_frozen _ _ _ (set_num_obj _ _ _ s0 n) (c0 :: o_frozen _ _ _ (set_num_obj _ _ _ s0 n)) | _ => set_num_obj _ _ _ s0 n end).
    assert (H2 : num_ask s2 = num_ask s /\ suggs s2 = suggs s /\ num_obj s2 = n /\ num_tell s2 = num_tell s
                 /\ num_tna s2 = num_tna s /\ asked s2 = asked s).
    { unfold s2. destruct c; cbn; auto 10. }
    clearbody s2. destruct H2 as (A1 & A2 & A3 & A4 & A5 & A6).
    destruct (tell_reference ALG ARC HV E s2 c lv) as [s3 r3] eqn:E3.
    assert (H3 : num_ask s3 = num_ask s /\ suggs s3 = suggs s /\ num_obj s3 = n /\ num_tell s3 = num_tell s
                 /\ num_tna s3 = num_tna s /\ asked s3 = asked s /\
                 match r3 with Ok o => told_candidate c = o /\ (o = None -> c = CRef None) | Err _ => True end).
    { revert E3. unfold tell_reference. destruct c as [c0|v|]; try easy.
      - intros [= <- <-]. cbn. repeat split; auto; easy.
      - destruct (hv s2); [intros [= <- <-]; repeat split; auto|].
        destruct lv; intros [= <- <-]; cbn; repeat split; auto. now intros ->. }
    destruct H3 as (B1 & B2 & B3 & B4 & B5 & B6 & B7).
    destruct r3 as [[c0|]|e3].
    2: { intros [= <- <-]. destruct B7 as [B7 B8]. constructor; auto; try congruence. intros H. rewrite B3. destruct Hno; congruence. }
    2: { intros [= <- <-]. constructor; auto; try congruence. intros H. rewrite B3. destruct Hno; congruence. }
    destruct (scalar_loss ALG ARC HV E s3 c0 lv) as [s4 r4] eqn:E4.
    assert (H4 : num_ask s4 = num_ask s /\ suggs s4 = suggs s /\ num_obj s4 = n /\ num_tell s4 = num_tell s
                 /\ num_tna s4 = num_tna s /\ asked s4 = asked s).
    { revert E4. unfold scalar_loss. destruct lv as [f|b|].
      - intros [= <- <-]. auto 10.
      - destruct (e_hv_add _ _ _ E _ c0 b) as [h r0]. intros [= <- <-]. cbn. auto 10.
      - intros [= <- <-]. auto 10. }
    destruct H4 as (C1 & C2 & C3 & C4 & C5 & C6).
    destruct r4 as [f|e4].
    2: { intros [= <- <-]. constructor; auto; try congruence. intros H. rewrite C3. destruct Hno; congruence. }
    destruct (tell_process ALG ARC HV E s4 c0 f cv) as [s5 r5] eqn:E5.
    apply tell_process_spec in E5. destruct E5. intros [= <- <-].
    constructor; try congruence.
    - intros H. destruct Hno; congruence.
    - destruct r5 as [u5|e5].
      + exists c0. destruct B7. rewrite <- C4, <- C5, <- C6. auto.
      + rewrite <- C4, <- C5, <- C6. auto.
    - destruct r5; easy.
    - destruct r5; [|easy]. congruence.
  Qed.

  (** histories *)
  Lemma perform_app s ops1 ops2 : perform s (ops1 ++ ops2) =
    let '(s1, h1) := perform s ops1 in let '(s2, h2) := perform s1 ops2 in (s2, h1 ++ h2).
  Proof.
    revert s. induction ops1 as [|o ops1 IH]; intros s; cbn.
    - now destruct (perform s ops2).
    - destruct (step s o) as [s1 r1]. rewrite IH. destruct (perform s1 ops1) as [s2 h2].
      now destruct (perform s2 ops2).
  Qed.

  Lemma outstanding_snoc h e : outstanding (h ++ [e]) = outstanding_step (outstanding h) e.
  Proof. unfold outstanding. now rewrite fold_left_app. Qed.
  Lemma pending_snoc h e : pending (h ++ [e]) = pending_step (pending h) e.
  Proof. unfold pending. now rewrite fold_left_app. Qed.
  Lemma unasked_from_app h1 : forall l h2, unasked_tells_from l (h1 ++ h2) =
    (unasked_tells_from l h1 + unasked_tells_from (fold_left outstanding_step h1 l) h2)%nat.
  Proof.
    induction h1 as [|e h1 IH]; intros l h2; [easy|].
    cbn [app unasked_tells_from fold_left]. rewrite IH. lia.
  Qed.
  Lemma unasked_snoc h e : unasked_tells (h ++ [e]) =
    (unasked_tells h + unasked_tells_from (outstanding h) [e])%nat.
  Proof. unfold unasked_tells. now rewrite unasked_from_app. Qed.

  Record hist_inv (s : ost) (h : history) : Prop := {
    hi_tell : num_tell s = tells_completed h;
    hi_tna : num_tna s = unasked_tells h;
    hi_asked : asked s = outstanding h;
    hi_nodup : NoDup (asked s);
    hi_ask : (asks_returned h <= num_ask s)%nat;
    hi_ask_eq : no_violation E \/ asks_raised h = 0%nat -> num_ask s = asks_returned h;
    hi_sugg : no_violation E -> suggs s = pending h }.

  Lemma hist_step s h o s' r : hist_inv s h -> step s o = (s', r) -> hist_inv s' (h ++ [(o, r)]).
  Proof.
    intros [H1 H2 H3 H4 H5 H6 H7] Hs.
    unfold tells_completed, asks_returned, asks_raised in *.
    destruct o as [|rs|c l cv]; cbn [Optimizer.step] in Hs.
    - destruct (ask s) as [s1 r1] eqn:Ea. injection Hs as -> <-.
      pose proof (ask_spec _ _ _ Ea) as (A1 & A2 & _ & _ & _ & _ & _ & A3).
      pose proof (ask_no_violation s s' r1) as Hnv.
      destruct r1 as [[c sg]|e].
      + destruct A3 as (B1 & B2 & B3).
        constructor.
        * unfold tells_completed. rewrite filter_app, app_length. cbn. lia.
        * rewrite unasked_snoc. cbn. lia.
        * rewrite outstanding_snoc, B2. cbn. destruct sg; congruence.
        * rewrite B2. destruct sg; [easy|]. apply NoDup_app_snoc; auto.
        * unfold asks_returned. rewrite filter_app, app_length. cbn. lia.
        * unfold asks_returned, asks_raised. rewrite !filter_app, !app_length. cbn.
          intros H. rewrite B1, H6; [lia|]. destruct H; [now left|right; lia].
        * intros H. rewrite pending_snoc. specialize (Hnv H Ea). specialize (H7 H).
          rewrite <- H7. destruct (suggs s) as [|c0 l0].
          -- destruct Hnv as (-> & ->). easy.
          -- destruct Hnv as (-> & -> & -> & _). easy.
      + destruct A3 as (B1 & B2).
        constructor.
        * unfold tells_completed. rewrite filter_app, app_length. cbn. lia.
        * rewrite unasked_snoc. cbn. lia.
        * rewrite outstanding_snoc, B2. cbn. easy.
        * now rewrite B2.
        * unfold asks_returned. rewrite filter_app, app_length. cbn. lia.
        * unfold asks_returned, asks_raised. rewrite !filter_app, !app_length. cbn.
          intros [H|H]; [|lia]. specialize (Hnv H Ea) as [-> _]. rewrite H6; [lia|now left].
        * intros H. rewrite pending_snoc. specialize (Hnv H Ea) as [_ ->]. cbn. auto.
    - destruct (suggest _ _ _ s rs) as [s1 r1] eqn:Ea. injection Hs as -> <-.
      assert (HH : (r1 = Ok tt /\ exists c, rs = Ok c /\ s' = set_suggestions _ _ _ s (c :: suggs s)) \/
                   (exists e, r1 = Err e) /\ s' = s).
      { revert Ea. unfold suggest. destruct rs as [c|e]; intros [= <- <-]; eauto. }
      destruct HH as [(-> & c & -> & ->)|((e & ->) & ->)].
      + constructor; unfold tells_completed, asks_returned, asks_raised; cbn [o_num_tell o_num_tna o_asked o_num_ask o_suggestions set_suggestions];
          rewrite ?filter_app, ?app_length, ?unasked_snoc, ?outstanding_snoc, ?pending_snoc; cbn; auto; try lia.
        * intros H. rewrite H6; [lia|]. destruct H; [now left|right; lia].
        * intros H. f_equal. auto.
      + constructor; unfold tells_completed, asks_returned, asks_raised;
          rewrite ?filter_app, ?app_length, ?unasked_snoc, ?outstanding_snoc, ?pending_snoc; cbn; auto; try lia.
        * intros H. rewrite H6; [lia|]. destruct H; [now left|right; lia].
        * intros H. destruct rs; auto.
    - destruct (tell s c l cv) as [s1 r1] eqn:Ea. injection Hs as -> <-.
      apply tell_tell_spec in Ea. destruct Ea as [A1 A2 _ A3 _ _].
      destruct r1 as [[|]|e].
      + destruct A3 as (c0 & B1 & B2 & B3 & B4).
        constructor; unfold tells_completed, asks_returned, asks_raised;
          rewrite ?filter_app, ?app_length, ?unasked_snoc, ?outstanding_snoc, ?pending_snoc; cbn; auto; try lia.
        * rewrite B1, B3. fold (mem c0 (outstanding h)). rewrite <- H3. lia.
        * rewrite B1, B4. congruence.
        * rewrite B4. now apply NoDup_filter.
        * intros H. rewrite A1, H6; [lia|]. destruct H; [now left|right; lia].
        * intros H. rewrite A2. auto.
      + destruct A3 as (B2 & B3 & B4).
        constructor; unfold tells_completed, asks_returned, asks_raised;
          rewrite ?filter_app, ?app_length, ?unasked_snoc, ?outstanding_snoc, ?pending_snoc; cbn; auto; try lia; try congruence.
        * intros H. rewrite A1, H6; [lia|]. destruct H; [now left|right; lia].
        * intros H. rewrite A2. auto.
      + destruct A3 as (B2 & B3 & B4).
        constructor; unfold tells_completed, asks_returned, asks_raised;
          rewrite ?filter_app, ?app_length, ?unasked_snoc, ?outstanding_snoc, ?pending_snoc; cbn; auto; try lia; try congruence.
        * intros H. rewrite A1, H6; [lia|]. destruct H; [now left|right; lia].
        * intros H. rewrite A2. auto.
  Qed.

  Lemma hist_init arc0 alg0 : hist_inv (o_init _ _ _ arc0 alg0) [].
  Proof. constructor; cbn; auto; constructor. Qed.

  Lemma hist_run arc0 alg0 ops s h :
    perform (o_init _ _ _ arc0 alg0) ops = (s, h) -> hist_inv s h.
  Proof.
    revert s h. induction ops as [|o ops IH] using rev_ind; intros s h.
    - intros [= <- <-]. apply hist_init.
    - rewrite perform_app. destruct (perform _ ops) as [s1 h1]. specialize (IH _ _ eq_refl).
      cbn. destruct (step s1 o) as [s2 r2] eqn:Es. intros [= <- <-].
      eapply hist_step; eauto.
  Qed.

  (** suggestions *)
  Lemma pending_perm h s arc0 alg0 ops : no_violation E ->
    perform (o_init _ _ _ arc0 alg0) ops = (s, h) ->
    Permutation (suggested h) (suggestions_asked h ++ pending h).
  Proof.
    intros Hnv. revert s h. induction ops as [|o ops IH] using rev_ind; intros s h.
    - intros [= <- <-]. constructor.
    - rewrite perform_app. destruct (perform _ ops) as [s1 h1] eqn:E1.
      specialize (IH _ _ eq_refl). apply hist_run in E1. destruct E1.
      cbn [Spec.Optimizer.perform]. destruct (step s1 o) as [s2 r2] eqn:Es. intros [= <- <-].
      unfold suggested, suggestions_asked in *. rewrite !flat_map_app, pending_snoc.
      destruct o as [|rs|c l cv]; cbn [Optimizer.step] in Es.
      + destruct (ask s1) as [s3 r3] eqn:Ea. injection Es as -> <-.
        apply (ask_no_violation _ _ _ Hnv) in Ea. rewrite (hi_sugg0 Hnv) in Ea.
        destruct r3 as [[c [|]]|e]; cbn; rewrite ?app_nil_r; auto.
        destruct (pending h1) as [|c0 l]; [now destruct Ea|].
        destruct Ea as (-> & _ & _ & _). cbn. etransitivity; [exact IH|].
        rewrite <- app_assoc. cbn. reflexivity.
      + destruct (suggest _ _ _ s1 rs) as [s3 r3] eqn:Ea. injection Es as -> <-.
        revert Ea. unfold suggest. destruct rs as [c|e]; intros [= <- <-]; cbn; rewrite ?app_nil_r; auto.
        rewrite <- Permutation_cons_append, IH. apply Permutation_middle.
      + destruct (tell s1 c l cv) as [s3 r3] eqn:Ea. injection Es as -> <-.
        destruct r3 as [[|]|e]; cbn; rewrite ?app_nil_r; auto.
  Qed.

  (** number of objectives *)
  Lemma num_obj_step s o s' r : step s o = (s', r) -> num_obj s <> 0%nat -> num_obj s' = num_obj s.
  Proof.
    destruct o as [|rs|c l cv]; cbn [Optimizer.step].
    - destruct (ask s) as [s1 r1] eqn:Ea. intros [= <- _] _. apply ask_spec in Ea. tauto.
    - destruct rs; intros [= <- _]; reflexivity.
    - destruct (tell s c l cv) as [s1 r1] eqn:Ea. intros [= <- _] H.
      apply tell_tell_spec in Ea. now apply (ts_nobj _ _ _ _ _ Ea).
  Qed.
  Lemma num_obj_run ops : forall s s' h, perform s ops = (s', h) -> num_obj s <> 0%nat -> num_obj s' = num_obj s.
  Proof.
    induction ops as [|o ops IH]; intros s s' h; cbn.
    - now intros [= <- _].
    - destruct (step s o) as [s1 r1] eqn:Es. destruct (perform s1 ops) as [s2 h2] eqn:Er.
      intros [= <- _] H. pose proof (num_obj_step _ _ _ _ Es H) as H1.
      rewrite <- H1. eapply IH; [exact Er|congruence].
  Qed.
  Lemma n_losses_run ops : forall s s' h, perform s ops = (s', h) ->
    forall c l cv, In (OTell c l cv, RDone) h -> n_losses l = num_obj s'.
  Proof.
    induction ops as [|o ops IH]; intros s s' h; cbn.
    - now intros [= <- <-] c l cv [].
    - destruct (step s o) as [s1 r1] eqn:Es. destruct (perform s1 ops) as [s2 h2] eqn:Er.
      intros [= <- <-] c l cv [Hin|Hin].
      + injection Hin as -> ->. cbn in Es. destruct (tell s c l cv) as [s3 r3] eqn:Ea.
        injection Es as -> Hr. destruct r3 as [[|]|e]; try easy.
        pose proof (tell_tell_spec _ _ _ _ _ _ Ea) as [_ _ _ _ _ Hn].
        rewrite (num_obj_run _ _ _ _ Er); [easy|]. rewrite Hn.
        revert Ea. unfold Optimizer.tell. destruct (check_loss l) as [lv|] eqn:El; [|easy].
        destruct c; try easy; (destruct (loss_size lv) as [n|] eqn:En; [|easy]);
          pose proof (check_loss_size _ _ _ El En) as <-;
          (destruct (assign_num_obj _ _ _ _ n) as [s4 r4] eqn:E4);
          apply assign_num_obj_spec in E4; (destruct r4; [tauto|easy]).
      + eapply IH; eauto.
  Qed.

  (** rejected tells *)
  Lemma as_floats_bad l : In IOther l -> exists e, as_floats l = Err e.
  Proof.
    induction l as [|i l IH]; cbn; [easy|]. intros [->|H]; [eexists; reflexivity|].
    destruct (IH H) as [e He]. destruct i; rewrite ?He; eexists; reflexivity.
  Qed.
  Lemma as_floats_good l : ~ In IOther l -> exists r, as_floats l = Ok r /\ length r = length l.
  Proof.
    induction l as [|i l IH]; cbn; [now exists []|]. intros H.
    destruct IH as (r & -> & Hr); [tauto|].
    destruct i; [| |tauto]; eexists; (split; [reflexivity|]); cbn; congruence.
  Qed.

  Lemma rejected_spec s c l cv : rejected s c l ->
    exists s' e, tell s c l cv = (s', Err e) /\ same_but_curve s s'.
  Proof.
    assert (Hrefl : same_but_curve s s) by (constructor; reflexivity).
    intros Hr. unfold Optimizer.tell. destruct (check_loss l) as [lv|e] eqn:El.
    2: { eauto. }
    pose proof (update_curve_same s lv) as Hc. set (s0 := update_curve ALG ARC HV s lv) in *. clearbody s0.
    destruct (match c with CBad => true | _ => false end) eqn:Eb; [destruct c; try easy; eauto|].
    assert (Hsz : (exists e, loss_size lv = Err e) \/ exists n, loss_size lv = Ok n /\
        (n = 0%nat \/ (num_obj s <> 0%nat /\ n <> num_obj s))).
    { destruct Hr as [Hb|[->|Hn]]; [|easy|].
      - destruct l as [f|l|]; cbn in Hb; try easy.
        destruct l as [|i [|j l]].
        + cbn in El. injection El as <-. right. exists 0%nat. auto.
        + destruct i; cbn in El; injection El as <-; try easy; left; eexists; reflexivity.
        + destruct (as_floats_bad (i :: j :: l)) as [e He].
          { destruct i; exact Hb. }
          assert (check_loss (LSeq (i :: j :: l)) = bind (as_floats (i :: j :: l)) (fun r => Ok (VArray r)))
            as E1 by (destruct i; reflexivity).
          rewrite E1, He in El. easy.
      - destruct (loss_size lv) as [n|e] eqn:En; [|eauto]. right. exists n. split; [easy|].
        right. now rewrite (check_loss_size _ _ _ El En). }
    destruct Hsz as [[e He]|(n & Hn & Hbad)].
    { exists s0, e. rewrite He. destruct c; easy. }
    rewrite Hn. destruct (assign_num_obj _ _ _ s0 n) as [s1 r1] eqn:E1. apply assign_num_obj_spec in E1.
    destruct r1 as [u|e].
    - destruct E1 as (_ & A1 & A2). rewrite (sb_nobj _ _ Hc) in A2. exfalso; intuition congruence.
    - destruct E1 as (-> & -> & _). exists s0, ValueError. destruct c; easy.
  Qed.

  (** scalar tells *)
  Lemma tell_scalar s c f cv s' r : tell s (CParam c) (LReal f) cv = (s', r) ->
    num_obj s = 0%nat \/ num_obj s = 1%nat ->
    exists s4 r4, tell_process ALG ARC HV E s4 c (clip_loss f) cv = (s', r4) /\
      r = match r4 with Ok _ => Ok true | Err e => Err e end /\
      num_obj s4 = 1%nat /\ arc s4 = arc s /\ trace s4 = trace s /\ closs s4 = closs s /\
      num_tell s4 = num_tell s /\ asked s4 = asked s /\ hv s4 = hv s.
  Proof.
    unfold Optimizer.tell. cbn [check_loss loss_size]. intros H Hno.
    pose proof (update_curve_same s (VFloat (clip_loss f))) as Hc.
    set (s0 := update_curve ALG ARC HV s (VFloat (clip_loss f))) in *. clearbody s0. destruct Hc.
    destruct (assign_num_obj ALG ARC HV s0 1) as [s1 r1] eqn:E1. apply assign_num_obj_spec in E1.
    destruct r1 as [u|e].
    - destruct E1 as (-> & _). cbn [tell_reference scalar_loss] in H.
      destruct (tell_process _ _ _ E _ c (clip_loss f) cv) as [s5 r5] eqn:E5.
      injection H as -> <-. eexists _, r5. split; [exact E5|]. split; [easy|]. cbn. auto 10.
    - destruct E1 as (_ & _ & [?|?]); [easy|]. rewrite sb_nobj in *. lia.
  Qed.

  Lemma tell_scalar_nobj s c f cv s' : tell s (CParam c) (LReal f) cv = (s', Ok true) ->
    num_obj s = 0%nat \/ num_obj s = 1%nat.
  Proof.
    intros H. destruct (Nat.eq_dec (num_obj s) 0); [auto|right].
    apply tell_tell_spec in H. destruct H as [_ _ H _ _ H2]. rewrite H in H2; easy.
  Qed.

  Lemma dget_dset {V} c (v : V) d : dget c (dset c v d) = Some v.
  Proof.
    induction d as [|[k w] d IH]; cbn; [now rewrite Nat.eqb_refl|].
    destruct (Nat.eqb_spec c k); cbn.
    - subst. now rewrite Nat.eqb_refl.
    - destruct (Nat.eqb_spec c k); [easy|exact IH].
  Qed.

  Lemma process_feasible s c l s' : no_violation E -> num_obj s = 1%nat ->
    tell_process ALG ARC HV E s c l None = (s', Ok tt) ->
    trace s' = trace s ++ [EArchive c l; EAlgTell c l (mem c (asked s))] /\
    exists s0, e_update _ _ _ E (arc s) c l = (arc s', Ok tt) /\ arc s0 = arc s.
  Proof.
    intros Hnv Hn. unfold tell_process.
    destruct (e_callbacks_tell _ _ _ E _ c l) as [a [u|e]]; [|easy].
    unfold satisfies. match goal with |- context [e_satisfies _ _ _ E ?s c] =>
      specialize (Hnv s c); destruct (e_satisfies _ _ _ E s c) as [a2 ok] end.
    cbn in Hnv. subst ok. cbn [negb andb]. intros H. split.
    - pose proof (tell_finish_spec _ _ _ _ _ _ H) as [_ _ _ _ _ _ _ _ _ Ht].
      destruct (Ht eq_refl) as (t0 & Et & _ & Ht0). cbn in Et, Ht0. rewrite Et, Ht0; auto.
    - exists s. split; [|easy]. revert H. unfold tell_finish.
      destruct (read_num_obj _ _ _ E _) as [n|] eqn:En; [|easy].
      assert (n = 1%nat).
      { revert En. unfold read_num_obj. cbn [o_hv o_num_obj set_alg set_loss]. rewrite Hn. destruct (hv s).
        - destruct (_ =? _)%nat; congruence.
        - congruence. }
      subst n. cbn [Nat.eqb orb negb andb]. cbn [o_arc log set_alg set_loss].
      destruct (e_update _ _ _ E (arc s) c l) as [a3 [u3|e3]]; [|easy].
      cbn [o_asked set_arc log set_alg set_loss].
      destruct (mem c (asked s)).
      + destruct (e_tell _ _ _ E _ c l) as [a4 [u4|e4]]; intros [= <-]. destruct u3. reflexivity.
      + destruct (e_tell_not_asked _ _ _ E _ c l) as [a4 [u4|e4]]; intros [= <-]. destruct u3. reflexivity.
  Qed.

  Lemma kept_clip f : fl_eq (clip_loss f) (kept_loss f).
  Proof.
    unfold clip_loss, kept_loss, max_loss.
    destruct f as [| |q|]; [vm_compute; reflexivity|exact I| |vm_compute; reflexivity].
    cbn [fl_lt]. destruct (Qlt_le_dec q (5 * 10 ^ 20)) as [H|H].
    - assert (qlt q 500000000000000000000 = true) as ->; [|cbn; reflexivity].
      apply qlt_iff. exact H.
    - assert (qlt q 500000000000000000000 = false) as ->; [|vm_compute; reflexivity].
      apply qlt_false. exact H.
  Qed.
  Lemma clip_exact f : fl_lt f max_loss = true -> clip_loss f = f.
  Proof. unfold clip_loss. now intros ->. Qed.
  Lemma clip_not_nan f : clip_loss f <> NaN.
  Proof. unfold clip_loss. destruct f as [| |q|]; cbn; try easy. now destruct (qlt q _). Qed.
  Lemma clip_le f : fl_le (clip_loss f) max_loss = true.
  Proof.
    unfold clip_loss. destruct f as [| |q|]; try easy. cbn [fl_lt max_loss].
    destruct (qlt q _) eqn:Eq; [|easy]. cbn. apply qlt_iff in Eq. apply qle_iff. now apply Qlt_le_weak.
  Qed.

  Lemma scalar_recorded s c f cv s' : tell s (CParam c) (LReal f) cv = (s', Ok true) ->
    dget c (closs s') = Some (clip_loss f).
  Proof.
    intros H. pose proof (tell_scalar_nobj _ _ _ _ _ H) as Hn.
    destruct (tell_scalar _ _ _ _ _ _ H Hn) as (s4 & r4 & E4 & Er & _ & _ & _ & Hl & _).
    apply tell_process_spec in E4. destruct E4. rewrite qs_loss0. apply dget_dset.
  Qed.

  Lemma scalar_forwarded s c f s' : no_violation E ->
    tell s (CParam c) (LReal f) None = (s', Ok true) ->
    trace s' = trace s ++ [EArchive c (clip_loss f); EAlgTell c (clip_loss f) (mem c (asked s))] /\
    e_update _ _ _ E (arc s) c (clip_loss f) = (arc s', Ok tt).
  Proof.
    intros Hnv H. pose proof (tell_scalar_nobj _ _ _ _ _ H) as Hn.
    destruct (tell_scalar _ _ _ _ _ _ H Hn) as (s4 & r4 & E4 & Er & A1 & A2 & A3 & A4 & A5 & A6 & A7).
    destruct r4 as [[]|]; [|easy].
    destruct (process_feasible _ _ _ _ Hnv A1 E4) as (B1 & s9 & B2 & _).
    rewrite A3, A6 in B1. rewrite A2 in B2. auto.
  Qed.

  (** violated constraints *)
  Lemma sum_pos cv : Exists (fun v => 0 < v)%Q cv -> violated cv = true.
  Proof.
    unfold violated. intros H. apply qlt_iff.
    assert (G : forall l, (0 <= fold_right (fun v r => qmax v 0 + r) 0 l)%Q).
    { induction l as [|v l IH]; cbn; [lra|]. pose proof (qmax_ge_r v 0). lra. }
    induction H as [v l Hv|v l H IH]; cbn.
    - specialize (G l). pose proof (qmax_ge_l v 0). lra.
    - pose proof (qmax_ge_r v 0). lra.
  Qed.

  Lemma process_violating s c l cv s' :
    told_violating E c cv ->
    tell_process ALG ARC HV E s c l cv = (s', Ok tt) ->
    arc s' = arc s /\ exists l', trace s' = trace s ++ [EAlgTell c l' (mem c (asked s))] /\
      (nonneg_penalties E ->
       l <> NaN -> l <> PosInf -> fl_le l l' = true).
  Proof.
    intros Hv. unfold tell_process.
    destruct (e_callbacks_tell _ _ _ E _ c l) as [a [u|e]]; [|easy].
    unfold satisfies. match goal with |- context [e_satisfies _ _ _ E ?s1 c] =>
      set (s2 := s1); destruct (e_satisfies _ _ _ E s2 c) as [a2 ok] eqn:Eok end.
    set (bad := negb ok && match e_budget _ _ _ E with Some _ => true | None => false end).
    set (s3 := set_alg _ _ _ s2 a2).
    set (l1 := if bad then fl_add l (Fin (e_penalty _ _ _ E s3 c)) else l).
    assert (Hl1 : (forall s0 c0, 0 <= e_penalty _ _ _ E s0 c0)%Q -> l <> NaN -> l <> PosInf ->
              fl_le l l1 = true /\ l1 <> PosInf /\ l1 <> NaN).
    { intros Hp H1 H2. unfold l1. destruct bad.
      - destruct l; cbn; try easy. repeat split; try easy. apply qle_iff. specialize (Hp s3 c). lra.
      - destruct l; cbn; try easy. repeat split; try easy. apply qle_iff. lra. }
    assert (T3 : trace s3 = trace s) by reflexivity.
    assert (A3 : arc s3 = arc s) by reflexivity.
    assert (K3 : asked s3 = asked s) by reflexivity.
    destruct cv as [cv|].
    - assert (Hnu : (bad || violated cv)%bool = true).
      { destruct Hv as [[Hv Hb]|(v & [= <-] & Hv)].
        - specialize (Hv s2). rewrite Eok in Hv. cbn in Hv. subst ok. unfold bad. cbn.
          destruct (e_budget _ _ _ E); easy.
        - rewrite (sum_pos _ Hv). now rewrite orb_true_r. }
      intros H. apply tell_finish_spec in H. destruct H.
      split; [rewrite <- A3; auto|]. destruct (fs_trace0 eq_refl) as (t0 & Ht & Ht0 & _).
      rewrite (Ht0 Hnu) in Ht. eexists. split; [rewrite <- T3, <- K3; exact Ht|].
      intros [Hp Hw] H1 H2. destruct (Hl1 Hp H1 H2) as (B1 & B2 & B3).
      unfold violation_amount.
      set (rat := if match e_budget _ _ _ E with Some b => (b <? 2 * num_tell s3)%nat | None => false end then 1%Q else 0%Q).
      set (p1 := e_pow _ _ _ E (1 + qnat (num_tell s3)) (1 # 2)).
      set (p2 := e_pow _ _ _ E (fold_right _ 0%Q cv) 1).
      assert (0 <= p1)%Q by apply Hw. assert (0 <= p2)%Q by apply Hw.
      assert (0 <= rat)%Q by (unfold rat; match goal with |- context [if ?b then _ else _] => destruct b end; discriminate).
      destruct l1 as [| |q1|]; [easy|destruct l; easy| |easy].
      destruct l as [| |q|]; [easy|easy| |easy]. cbn in B1. cbn [fl_le fl_add fl_mulq fl_pos].
      apply qle_iff in B1. apply qle_iff.
        pose proof (qmax_ge_r q1 0). 
        assert (0 <= (100000 * rat + qmax q1 0) * p1 * (1 * p2))%Q.
        { clearbody rat p1 p2. apply Qmult_le_0_compat; [apply Qmult_le_0_compat; [lra|easy]|lra]. }
        lra.
    - destruct Hv as [[Hv Hb]|(v & [=] & Hv)].
      assert (Hnu : bad = true).
      { specialize (Hv s2). rewrite Eok in Hv. cbn in Hv. subst ok. unfold bad. cbn.
        destruct (e_budget _ _ _ E); easy. }
      intros H. apply tell_finish_spec in H. destruct H.
      split; [rewrite <- A3; auto|]. destruct (fs_trace0 eq_refl) as (t0 & Ht & Ht0 & _).
      rewrite (Ht0 Hnu) in Ht. eexists. split; [rewrite <- T3, <- K3; exact Ht|].
      intros [Hp Hw] H1 H2. now destruct (Hl1 Hp H1 H2).
  Qed.

  Lemma scalar_violating s c f cv s' :
    told_violating E c cv ->
    tell s (CParam c) (LReal f) cv = (s', Ok true) ->
    arc s' = arc s /\ num_tell s' = S (num_tell s) /\
    exists l', trace s' = trace s ++ [EAlgTell c l' (mem c (asked s))] /\
      (nonneg_penalties E -> fl_le (clip_loss f) l' = true).
  Proof.
    intros Hv H. pose proof (tell_scalar_nobj _ _ _ _ _ H) as Hn.
    pose proof (tell_tell_spec _ _ _ _ _ _ H) as [_ _ _ (c0 & _ & Hnt & _) _ _].
    destruct (tell_scalar _ _ _ _ _ _ H Hn) as (s4 & r4 & E4 & Er & A1 & A2 & A3 & A4 & A5 & A6 & A7).
    destruct r4 as [[]|]; [|easy].
    destruct (process_violating _ _ _ _ _ Hv E4) as (B1 & l' & B2 & B3).
    split; [congruence|]. split; [easy|]. exists l'. split; [congruence|].
    intros Hpw. apply B3; auto. apply clip_not_nan.
    intros Hc. pose proof (clip_le f) as Hle. rewrite Hc in Hle. easy.
  Qed.

  (** any accepted tell of a violating candidate, scalar or not *)
  Lemma violating_archive s c l cv s' :
    told_violating E c cv ->
    tell s (CParam c) l cv = (s', Ok true) -> arc s' = arc s.
  Proof.
    intros Hv. unfold Optimizer.tell. destruct (check_loss l) as [lv|]; [|easy].
    pose proof (update_curve_same s lv) as Hc. set (s0 := update_curve ALG ARC HV s lv) in *. clearbody s0.
    destruct (loss_size lv) as [n|]; [|easy].
    destruct (assign_num_obj _ _ _ s0 n) as [s1 r1] eqn:E1. apply assign_num_obj_spec in E1.
    destruct r1; [|easy]. destruct E1 as (-> & _). cbn [tell_reference].
    destruct (scalar_loss _ _ _ E _ c lv) as [s2 r2] eqn:E2.
    assert (arc s2 = arc s).
    { revert E2. unfold scalar_loss. destruct lv.
      - intros [= <- _]. cbn. now destruct Hc.
      - destruct (e_hv_add _ _ _ E _ c l0). intros [= <- _]. cbn. now destruct Hc.
      - intros [= <- _]. cbn. now destruct Hc. }
    destruct r2 as [f|]; [|easy].
    destruct (tell_process _ _ _ E s2 c f cv) as [s3 r3] eqn:E3.
    destruct r3 as [[]|]; [|easy]. intros [= <-].
    destruct (process_violating _ _ _ _ _ Hv E3). congruence.
  Qed.

  Lemma second_tell s c l cv s1 l2 cv2 s2 :
    tell s (CParam c) l cv = (s1, Ok true) -> tell s1 (CParam c) l2 cv2 = (s2, Ok true) ->
    ~ In c (asked s1) /\ num_tna s2 = S (num_tna s1).
  Proof.
    intros H1 H2. apply tell_tell_spec in H1, H2.
    destruct H1 as [_ _ _ (c1 & [= <-] & _ & _ & A1) _ _].
    destruct H2 as [_ _ _ (c2 & [= <-] & _ & A2 & _) _ _].
    assert (Hn : ~ In c (asked s1)).
    { rewrite A1. unfold without. rewrite filter_In, Nat.eqb_refl. intuition. }
    split; [easy|]. apply mem_false in Hn. rewrite Hn in A2. lia.
  Qed.

  Lemma lifo arc0 alg0 ops s h : no_violation E ->
    perform (o_init _ _ _ arc0 alg0) ops = (s, h) ->
    suggs s = pending h /\
    forall s' c b, ask s = (s', Ok (c, b)) ->
      match pending h with
      | c0 :: l => c = c0 /\ b = true /\ suggs s' = l /\ trace s' = trace s
      | [] => b = false
      end.
  Proof.
    intros Hnv H. apply hist_run in H. pose proof (hi_sugg _ _ H Hnv) as Hs. split; [easy|].
    intros s' c b Ha. apply (ask_no_violation _ _ _ Hnv) in Ha. rewrite Hs in Ha.
    destruct (pending h); tauto.
  Qed.

  Lemma outstanding_spec arc0 alg0 ops s h :
    perform (o_init _ _ _ arc0 alg0) ops = (s, h) ->
    asked s = outstanding h /\ NoDup (outstanding h) /\
    (forall s' c, ask s = (s', Ok (c, false)) -> ~ In c (outstanding h)).
  Proof.
    intros H. apply hist_run in H. destruct H. rewrite <- hi_asked0. repeat split; auto.
    intros s' c Ha. apply ask_spec in Ha. destruct Ha as (_ & _ & _ & _ & _ & _ & _ & _ & _ & Ha). auto.
  Qed.
  Lemma ask_counts_one s s' c b : ask s = (s', Ok (c, b)) -> num_ask s' = S (num_ask s).
  Proof. intros H. apply ask_spec in H. tauto. Qed.

  (** acceptance *)
  Definition hv_inv (s : ost) : Prop :=
    match hv s with Some h => e_hv_num_obj _ _ _ E h = num_obj s /\ (2 <= num_obj s)%nat | None => True end.

  Lemma check_array l b : check_loss l = Ok (VArray b) -> b <> [] -> (2 <= length b)%nat.
  Proof.
    destruct l as [f|l|]; cbn; try easy.
    destruct l as [|i [|j l]].
    - now intros [= <-].
    - destruct i; easy.
    - intros H _. assert (E1 : bind (as_floats (i :: j :: l)) (fun r => Ok (VArray r)) = Ok (VArray b))
        by (destruct i; exact H).
      cbn in E1. destruct i, j; cbn in E1; try easy; destruct (as_floats l); cbn in E1; try easy;
        injection E1 as <-; cbn; lia.
  Qed.

  Lemma hv_inv_tell s c l cv s' r : hv_counts E -> hv_inv s -> tell s c l cv = (s', r) -> hv_inv s'.
  Proof.
    intros [Hc1 Hc2] Hi. unfold Optimizer.tell. destruct (check_loss l) as [lv|e] eqn:El; [|now intros [= <- _]].
    pose proof (update_curve_same s lv) as Hc. set (s0 := update_curve ALG ARC HV s lv) in *. clearbody s0.
    assert (Hi0 : hv_inv s0) by (unfold hv_inv in *; destruct Hc; rewrite sb_hv, sb_nobj; exact Hi).
    destruct (match c with CBad => true | _ => false end) eqn:Eb; [destruct c; try easy; now intros [= <- _]|].
    destruct (loss_size lv) as [n|e] eqn:En; [|destruct c; now intros [= <- _]].
    destruct (assign_num_obj _ _ _ s0 n) as [s1 r1] eqn:E1. apply assign_num_obj_spec in E1.
    destruct r1 as [u|e]; [|destruct E1 as (-> & _); destruct c; now intros [= <- _]].
    destruct E1 as (-> & Hn & Hno).
    set (s2 := match c with CParam c0 => set_frozen _ _ _ (set_num_obj _ _ _ s0 n) (c0 :: o_frozen _ _ _ (set_num_obj _ _ _ s0 n)) | _ => set_num_obj _ _ _ s0 n end).
    assert (H2 : hv_inv s2 /\ num_obj s2 = n).
    { unfold hv_inv in *. unfold s2. destruct c; cbn; (split; [|easy]); destruct (hv s0); auto;
        destruct Hi0; split; lia. }
    clearbody s2. destruct H2 as [H2 H2n].
    assert (Hlv : forall b, lv = VArray b -> (2 <= n)%nat /\ n = length b).
    { intros b ->. cbn in En. injection En as <-. split; [|easy].
      apply (check_array _ _ El). intros ->. easy. }
    destruct (tell_reference _ _ _ E s2 c lv) as [s3 r3] eqn:E3.
    assert (H3 : hv_inv s3 /\ num_obj s3 = n).
    { revert E3. unfold tell_reference. destruct c as [c0|v|]; try (now intros [= <- _]).
      destruct (hv s2) eqn:Eh; [now intros [= <- _]|].
      destruct lv as [f|b|]; try (now intros [= <- _]).
      intros [= <- _]. unfold hv_inv. cbn. rewrite Hc1. destruct (Hlv b eq_refl). split; [|easy]. lia. }
    destruct H3 as [H3 H3n].
    destruct r3 as [[c0|]|e]; try (destruct c; now intros [= <- _]).
    destruct (scalar_loss _ _ _ E s3 c0 lv) as [s4 r4] eqn:E4.
    assert (H4 : hv_inv s4).
    { revert E4. unfold scalar_loss. destruct lv as [f|b|]; try (now intros [= <- _]).
      destruct (e_hv_add _ _ _ E _ c0 b) as [h r0] eqn:Eh. intros [= <- _]. unfold hv_inv. cbn.
      specialize (Hc2 (match hv s3 with Some h => h | None => e_hv_auto _ _ _ E end) c0 b).
      rewrite Eh in Hc2. cbn in Hc2. destruct (Hlv b eq_refl). lia. }
    destruct r4 as [f|e]; try (destruct c; now intros [= <- _]).
    destruct (tell_process _ _ _ E s4 c0 f cv) as [s5 r5] eqn:E5.
    apply tell_process_spec in E5. destruct E5.
    assert (hv_inv s5) by (unfold hv_inv in *; now rewrite qs_hv0, qs_nobj0).
    destruct c; now intros [= <- _].
  Qed.

  Lemma hv_inv_run ops : hv_counts E -> forall s s' h, hv_inv s -> perform s ops = (s', h) -> hv_inv s'.
  Proof.
    intros Hc. induction ops as [|o ops IH]; intros s s' h Hi; cbn.
    - now intros [= <- _].
    - destruct (step s o) as [s1 r1] eqn:Es. destruct (perform s1 ops) as [s2 h2] eqn:Er. intros [= <- _].
      refine (IH _ _ _ _ Er). destruct o as [|rs|c l cv]; cbn [Optimizer.step] in Es.
      + destruct (ask s) as [s3 r3] eqn:Ea. injection Es as <- _. apply ask_spec in Ea.
        unfold hv_inv in *. destruct Ea as (_ & _ & -> & -> & _). exact Hi.
      + destruct rs; injection Es as <- _; exact Hi.
      + destruct (tell s c l cv) as [s3 r3] eqn:Ea. injection Es as <- _. eapply hv_inv_tell; eauto.
  Qed.

  Lemma check_good l : ~ bad_loss l -> exists lv, check_loss l = Ok lv /\ loss_size lv = Ok (n_losses l) /\ n_losses l <> 0%nat.
  Proof.
    destruct l as [f|l|]; cbn; intros H; [|destruct l as [|i [|j l]]|]; try tauto.
    - eexists. cbn. auto.
    - destruct i; try tauto. eexists. cbn. auto.
    - assert (H' : ~ In IOther (i :: j :: l)) by (destruct i; exact H).
      destruct (as_floats_good _ H') as (r & Hr & Hl). exists (VArray r).
      assert (check_loss (LSeq (i :: j :: l)) = bind (as_floats (i :: j :: l)) (fun r => Ok (VArray r)))
            as E1 by (destruct i; reflexivity).
      change (check_loss (LSeq (i :: j :: l)) = Ok (VArray r) /\ loss_size (VArray r) = Ok (S (S (length l))) /\ S (S (length l)) <> 0%nat).
      rewrite E1, Hr. cbn. rewrite Hl. cbn. auto.
  Qed.

  Lemma accepted s c l cv : never_raises E -> hv_counts E -> hv_inv s -> ~ bad_loss l ->
    num_obj s = 0%nat \/ num_obj s = n_losses l ->
    exists s', tell s (CParam c) l cv = (s', Ok true).
  Proof.
    intros Hnr [Hc1 Hc2] Hi Hb Hno. destruct (check_good l Hb) as (lv & El & En & Hn0).
    unfold Optimizer.tell. rewrite El, En.
    pose proof (update_curve_same s lv) as Hc. set (s0 := update_curve ALG ARC HV s lv) in *. clearbody s0.
    destruct (assign_num_obj _ _ _ s0 _) as [s1 r1] eqn:E1. apply assign_num_obj_spec in E1.
    destruct r1 as [u|e].
    2: { destruct E1 as (_ & _ & [?|?]); [easy|]. destruct Hc. rewrite sb_nobj in *. lia. }
    destruct E1 as (-> & _). cbn [tell_reference].
    match goal with |- context [scalar_loss _ _ _ E ?x c lv] => set (s2 := x) end.
    assert (Hh2 : hv s2 = hv s) by (unfold s2; cbn; now destruct Hc).
    assert (Hn2 : num_obj s2 = n_losses l) by reflexivity. clearbody s2.
    destruct (scalar_loss _ _ _ E s2 c lv) as [s3 r3] eqn:E3.
    assert (H3 : (exists f, r3 = Ok f) /\ num_obj s3 = n_losses l /\
              match hv s3 with Some h => e_hv_num_obj _ _ _ E h = n_losses l | None => True end).
    { revert E3. unfold scalar_loss. destruct lv as [f|b|].
      - intros [= <- <-]. split; [eauto|]. split; [easy|]. rewrite Hh2. unfold hv_inv in Hi.
        destruct (hv s); [|easy]. lia.
      - cbn in En. injection En as En. destruct (e_hv_add _ _ _ E _ c b) as [h r0] eqn:Eh. intros [= <- <-].
        split; [|split; [easy|]].
        + destruct (nr_hv E Hnr (match hv s2 with Some h => h | None => e_hv_auto _ _ _ E end) c b) as [f Hf].
          rewrite Eh in Hf. eauto.
        + cbn. rewrite <- En. specialize (Hc2 (match hv s2 with Some h => h | None => e_hv_auto _ _ _ E end) c b).
          now rewrite Eh in Hc2.
      - easy. }
    destruct H3 as ((f & ->) & Hn3 & Hh3).
    unfold tell_process.
    match goal with |- context [e_callbacks_tell _ _ _ E ?x c f] =>
      pose proof (nr_cb E Hnr x c f) as Hcb; destruct (e_callbacks_tell _ _ _ E x c f) as [a r4] end.
    cbn in Hcb. subst r4. unfold satisfies. destruct (e_satisfies _ _ _ E _ c) as [a2 ok].
    set (s4 := set_alg _ _ _ _ a2).
    assert (Hfin : forall l0 nu, exists s', tell_finish _ _ _ E s4 c l0 nu = (s', Ok tt)).
    { intros l0 nu. unfold tell_finish.
      assert (Hr : read_num_obj _ _ _ E s4 = Ok (n_losses l)).
      { unfold read_num_obj, s4. cbn [o_hv o_num_obj set_alg set_loss]. rewrite Hn3.
        destruct (hv s3); [|easy]. rewrite Hh3. now rewrite Nat.eqb_refl. }
      rewrite Hr. clearbody s4.
      match goal with |- context [match ?y with (s, r) => _ end] => set (x := y) end.
      assert (Hx : exists s5, x = (s5, Ok tt)).
      { unfold x. destruct (_ && _); [|eauto].
        match goal with |- context [e_update _ _ _ E ?y c l0] =>
          pose proof (nr_update E Hnr y c l0) as Hu; destruct (e_update _ _ _ E y c l0) as [a5 r5] end.
        cbn in Hu. subst r5. eauto. }
      destruct Hx as [s5 ->]. destruct (mem c (asked s5)).
      - match goal with |- context [e_tell _ _ _ E ?y c l0] =>
          pose proof (nr_tell E Hnr y c l0) as Hu; destruct (e_tell _ _ _ E y c l0) as [a5 r5] end.
        cbn in Hu. subst r5. eauto.
      - match goal with |- context [e_tell_not_asked _ _ _ E ?y c l0] =>
          pose proof (nr_tna E Hnr y c l0) as Hu; destruct (e_tell_not_asked _ _ _ E y c l0) as [a5 r5] end.
        cbn in Hu. subst r5. eauto. }
    destruct cv as [cv|];
      match goal with |- context [tell_finish _ _ _ E _ c ?x ?y] => destruct (Hfin x y) as [s6 ->] end; eauto.
  Qed.
End Opt.

(** the complete pipeline with the archive *)
From Verif.Model Require Import Archive.
From Verif.Spec Require Import MultiValue Pruning Archive.
From Verif.Proofs Require Archive.

Section Pipeline.
  Context {ALG HV : Type}.
  Variable E : env ALG archst HV.
  Variable msqrt : Q -> Q.
  Variable pruning : list mv -> list (nat * nat) -> result (list (nat * nat)).
  Variable key : nat -> nat.
  Hypothesis Hup : forall a c y, e_update _ _ _ E a c (Fin y) = arch_tell msqrt pruning a (c, key c, y).

  Lemma arch_run_app a h1 h2 :
    arch_run msqrt pruning a (h1 ++ h2) = arch_run msqrt pruning (arch_run msqrt pruning a h1) h2.
  Proof. revert a. induction h1 as [|o h1 IH]; intros a; cbn; auto. Qed.

  Lemma clip_in_range y : in_range y -> clip_loss (Fin y) = Fin y.
  Proof.
    intros [_ H]. apply clip_exact. cbn. apply qlt_iff. eapply Qle_lt_trans; [exact H|]. reflexivity.
  Qed.

  Lemma pipeline_archive alg0 ops s h : no_violation E ->
    perform E (o_init ALG archst HV arch_init alg0) ops = (s, h) ->
    (forall c l cv r, In (OTell c l cv, r) h ->
       r = RDone /\ cv = None /\ exists c0 y, c = CParam c0 /\ l = LReal (Fin y) /\ in_range y) ->
    o_arc _ _ _ s = arch_run msqrt pruning arch_init (scalar_tells key h).
  Proof.
    intros Hnv. revert s h. induction ops as [|o ops IH] using rev_ind; intros s h.
    - now intros [= <- <-].
    - rewrite perform_app. destruct (perform E _ ops) as [s1 h1] eqn:E1.
      cbn [Spec.Optimizer.perform]. destruct (step _ _ _ E s1 o) as [s2 r2] eqn:Es. intros [= <- <-] Hh.
      specialize (IH _ _ eq_refl (fun c l cv r Hin => Hh c l cv r (in_or_app _ _ _ (or_introl Hin)))).
      unfold scalar_tells in *. rewrite flat_map_app. rewrite arch_run_app, <- IH.
      destruct o as [|rs|c l cv]; cbn [Optimizer.step] in Es.
      + destruct (ask _ _ _ E s1) as [s3 r3] eqn:Ea. injection Es as <- <-. apply ask_spec in Ea. cbn. tauto.
      + destruct rs; injection Es as <- <-; reflexivity.
      + destruct (tell _ _ _ E s1 c l cv) as [s3 r3] eqn:Ea. injection Es as <- <-.
        edestruct (Hh c l cv) as (Hr & -> & c0 & y & -> & -> & Hy).
        { apply in_or_app. right. left. reflexivity. }
        destruct r3 as [[|]|]; try easy.
        apply (scalar_forwarded E _ _ _ _ Hnv) in Ea as [_ Ea].
        rewrite (clip_in_range _ Hy), Hup in Ea. cbn [flat_map app arch_run]. now rewrite Ea.
  Qed.

  Lemma pipeline_recommend alg0 ops s h : sub_pruning pruning -> no_violation E ->
    perform E (o_init ALG archst HV arch_init alg0) ops = (s, h) ->
    (forall c l cv r, In (OTell c l cv, r) h ->
       r = RDone /\ cv = None /\ exists c0 y, c = CParam c0 /\ l = LReal (Fin y) /\ in_range y) ->
    scalar_tells key h <> [] -> distinct_candidates (scalar_tells key h) ->
    exists t, best_told t (scalar_tells key h) /\ arch_recommend true (o_arc _ _ _ s) = Some (t_cand t).
  Proof.
    intros Hp Hnv Hr Hh Hne Hd. rewrite (pipeline_archive _ _ _ _ Hnv Hr Hh).
    apply Archive.recommend_best; auto.
    unfold losses_in_range. rewrite Forall_forall. intros t Ht. unfold scalar_tells in Ht.
    apply in_flat_map in Ht as ([o r] & Hin & Ht). destruct o as [|rs|c l cv]; try easy.
    destruct (Hh _ _ _ _ Hin) as (-> & -> & c0 & y & -> & -> & Hy). cbn in Ht.
    destruct Ht as [<-|[]]. exact Hy.
  Qed.
End Pipeline.

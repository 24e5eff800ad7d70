From Coq Require Import List Arith ZArith Bool Permutation Lia.
From Verif.Model Require Import Prelude Minimize.
From Verif.Spec Require Import Minimize.
Import ListNotations.

Section Min.
  Context {W L : Type}.
  Variable E : wenv W L.
  Variable budget : nat.
  Variable nw : Z.
  Variable batch : bool.
  Notation mst := (mst W L).
  Notation iteration := (iteration W L E budget nw batch).
  Notation loop := (loop W L E budget nw batch).
  Notation minimize := (minimize W L E budget nw batch).
  Notation run := (m_running W L).
  Notation fin := (m_finished W L).
  Notation mlog := (m_log W L).
  Notation rem := (m_remaining W L).
  Notation nask := (m_num_ask W L).
  Notation world := (m_world W L).
  Notation first := (m_first W L).

  Lemma submitted_app (a b : list (mevent L)) : submitted (a ++ b) = submitted a ++ submitted b.
  Proof. apply flat_map_app. Qed.
  Lemma told_app (a b : list (mevent L)) : told (a ++ b) = told a ++ told b.
  Proof. apply flat_map_app. Qed.
  Lemma asked_app (a b : list (mevent L)) : asked (a ++ b) = asked a ++ asked b.
  Proof. apply flat_map_app. Qed.

  Lemma submitted_snoc (a : list (mevent L)) e :
    submitted (a ++ [e]) = submitted a ++ match e with EvSubmit x => [x] | _ => [] end.
  Proof. rewrite submitted_app. destruct e; reflexivity. Qed.
  Lemma told_snoc (a : list (mevent L)) e :
    told (a ++ [e]) = told a ++ match e with EvTell x _ => [x] | _ => [] end.
  Proof. rewrite told_app. destruct e; reflexivity. Qed.
  Lemma asked_snoc (a : list (mevent L)) e :
    asked (a ++ [e]) = asked a ++ match e with EvAsk c => [c] | _ => [] end.
  Proof. rewrite asked_app. destruct e; reflexivity. Qed.
  Ltac lg := rewrite ?asked_snoc, ?submitted_snoc, ?told_snoc, ?asked_snoc, ?submitted_snoc, ?told_snoc;
    cbn beta iota; rewrite ?app_nil_r.
  Ltac mcbn := cbn [m_world m_num_ask m_running m_finished m_remaining m_first m_log set_world m_event].

  (** splitting a list at an element, with one more element at the end *)
  Lemma snoc_split {A} (l : list A) e p x q : l ++ [e] = p ++ x :: q ->
    (p = l /\ x = e /\ q = []) \/ (exists q', q = q' ++ [e] /\ l = p ++ x :: q').
  Proof.
    intros H. destruct q as [|z q] using rev_ind.
    - left. apply app_inj_tail in H. intuition.
    - right. exists q. rewrite app_comm_cons, app_assoc in H. apply app_inj_tail in H.
      destruct H as [-> ->]. auto.
  Qed.
  Lemma snoc_prefix {A} (l : list A) e p q : l ++ [e] = p ++ q ->
    p = l ++ [e] \/ (exists q', l = p ++ q').
  Proof.
    destruct q as [|z q] using rev_ind.
    - left. now rewrite app_nil_r in H.
    - right. rewrite app_assoc in H. apply app_inj_tail in H. destruct H. eauto.
  Qed.

  Section Inv.
  Variable init : list item.
  Variable nask0 : nat.
  Notation n0 := (length init).

  Record good (log : list (mevent L)) (r f : list item) : Prop := {
    g_acc : accounted init log r f;
    g_par : always (fun p => pending n0 p <= Z.max nw (Z.of_nat n0))%Z log;
    g_res : own_results log;
    g_cand : own_candidates log;
    g_batch : batch = true -> by_batches n0 log;
    g_stop : stop_is_final log }.

  Lemma pending_acc (log : list (mevent L)) r f : accounted init log r f ->
    pending n0 log = (Z.of_nat (length r) + Z.of_nat (length f))%Z.
  Proof.
    intros H. apply Permutation_length in H. rewrite !app_length in H. unfold pending. lia.
  Qed.

  Lemma good_nil r f : Permutation init (f ++ r) -> good [] r f.
  Proof.
    intros H. constructor.
    - unfold accounted. cbn. now rewrite app_nil_r.
    - intros p q Hp. symmetry in Hp. apply app_eq_nil in Hp as [-> _]. unfold pending. cbn. lia.
    - intros p x l q Hp. destruct p; easy.
    - intros p x q Hp. destruct p; easy.
    - intros _ p x q Hp. destruct p; easy.
    - intros p q Hp. destruct p; easy.
  Qed.

  (** events that are neither a submission nor a tell nor a stop nor an ask after a stop *)
  Lemma good_event log r f e : good log r f ->
    (match e with EvSubmit _ | EvTell _ _ => False | EvAsk _ => ~ In EvStop log | _ => True end) ->
    good (log ++ [e]) r f.
  Proof.
    intros [] He. constructor.
    - unfold accounted in *. rewrite submitted_app, told_app. destruct e; try easy; cbn; rewrite !app_nil_r; auto.
    - intros p q Hp. apply snoc_prefix in Hp as [->|[q' Hq]]; [|eauto].
      specialize (g_par0 log [] (eq_sym (app_nil_r log))). unfold pending in *. rewrite submitted_app, told_app.
      destruct e; try easy; cbn; rewrite !app_nil_r; auto.
    - intros p x l q Hp. apply snoc_split in Hp as [(-> & <- & ->)|(q' & -> & Hq)]; [easy|eauto].
    - intros p x q Hp. apply snoc_split in Hp as [(-> & <- & ->)|(q' & -> & Hq)]; [easy|eauto].
    - intros Hb p x q Hp. apply snoc_split in Hp as [(-> & <- & ->)|(q' & -> & Hq)]; [easy|eauto].
      now apply (g_batch0 Hb) in Hq.
    - intros p q Hp. apply snoc_split in Hp as [(-> & <- & ->)|(q' & -> & Hq)]; [easy|].
      pose proof (g_stop0 _ _ Hq) as [H1 H2]. rewrite asked_app, submitted_app, H1, H2.
      destruct e; try easy. exfalso. apply He. rewrite Hq. apply in_or_app. right. now left.
  Qed.

  (** the tell of the first finished job *)
  Lemma good_tell log r c j l f : good (log ++ [EvResult j l]) r ((c, j) :: f) ->
    good (log ++ [EvResult j l] ++ [EvTell (c, j) l]) r f.
  Proof.
    rewrite app_assoc. intros []. set (lg := log ++ [EvResult j l]) in *. constructor.
    - unfold accounted in *. rewrite submitted_app, told_app. cbn. rewrite app_nil_r.
      rewrite <- app_assoc. exact g_acc0.
    - intros p q Hp. apply snoc_prefix in Hp as [->|[q' Hq]]; [|eauto].
      specialize (g_par0 lg [] (eq_sym (app_nil_r lg))). unfold pending in *. rewrite submitted_app, told_app.
      cbn [submitted told flat_map]. rewrite !app_length. cbn. lia.
    - intros p x l' q Hp. apply snoc_split in Hp as [(-> & [= -> ->] & ->)|(q' & -> & Hq)]; [|eauto].
      exists log. reflexivity.
    - intros p x q Hp. apply snoc_split in Hp as [(-> & [=] & ->)|(q' & -> & Hq)]; eauto.
    - intros Hb p x q Hp. apply snoc_split in Hp as [(-> & [=] & ->)|(q' & -> & Hq)]; eauto.
      now apply (g_batch0 Hb) in Hq.
    - intros p q Hp. apply snoc_split in Hp as [(-> & [=] & ->)|(q' & -> & Hq)].
      pose proof (g_stop0 _ _ Hq) as [H1 H2]. rewrite asked_app, submitted_app, H1, H2. easy.
  Qed.

  (** a submission *)
  Lemma good_submit log r c j : good (log ++ [EvAsk c]) r [] -> ~ In EvStop log ->
    (Z.of_nat (length r) < nw)%Z ->
    (batch = true -> r = [] \/ exists p y, log = p ++ [EvSubmit y]) ->
    good (log ++ [EvAsk c] ++ [EvSubmit (c, j)]) (r ++ [(c, j)]) [].
  Proof.
    rewrite app_assoc. intros [] Hns Hr Hbat. set (lg := log ++ [EvAsk c]) in *. constructor.
    - unfold accounted in *. rewrite submitted_app, told_app. cbn in *. rewrite app_nil_r.
      rewrite !app_assoc. apply Permutation_app_tail. exact g_acc0.
    - intros p q Hp. apply snoc_prefix in Hp as [->|[q' Hq]]; [|eauto].
      pose proof (pending_acc _ _ _ g_acc0) as Hpe. unfold pending in *. rewrite submitted_app, told_app.
      cbn [submitted told flat_map]. rewrite !app_length. cbn in *. lia.
    - intros p x l' q Hp. apply snoc_split in Hp as [(-> & [=] & ->)|(q' & -> & Hq)]; eauto.
    - intros p x q Hp. apply snoc_split in Hp as [(-> & [= ->] & ->)|(q' & -> & Hq)]; eauto.
      exists log. reflexivity.
    - intros Hb p x q Hp. apply snoc_split in Hp as [(-> & [= ->] & ->)|(q' & -> & Hq)].
      + destruct (Hbat Hb) as [->|(p & y & ->)].
        * left. now rewrite (pending_acc _ _ _ g_acc0).
        * right. exists p, y, c. unfold lg. now rewrite <- app_assoc.
      + now apply (g_batch0 Hb) in Hq.
    - intros p q Hp. apply snoc_split in Hp as [(-> & [=] & ->)|(q' & -> & Hq)].
      exfalso. unfold lg in Hq.
      assert (Hi : In EvStop (log ++ [@EvAsk L c])) by (rewrite Hq; apply in_or_app; right; now left).
      apply in_app_or in Hi as [Hi|[Hi|[]]]; easy.
  Qed.

  (** invariant at the beginning of an iteration *)
  Record minv (s : mst) : Prop := {
    v_good : good (mlog s) (run s) (fin s);
    v_asked : asked (mlog s) = map fst (submitted (mlog s));
    v_nask : ~ In EvStop (mlog s) -> nask s = (nask0 + length (submitted (mlog s)))%nat;
    v_rem : ~ In EvStop (mlog s) -> rem s = (Z.of_nat budget - Z.of_nat (nask s))%Z;
    v_stop : In EvStop (mlog s) -> rem s = 0%Z }.

  (** what remains after an exception: the lists of the state are right, or the
      last told job is still in the finished list, or the last submitted job is in
      no list; [tick] tells that an interruption between statements happened *)
  Definition broken (tick : Prop) (s : mst) : Prop :=
    good (mlog s) (run s) (fin s) \/
    (tick /\ ((exists p x l f, mlog s = p ++ [EvTell x l] /\ fin s = x :: f /\ good (mlog s) (run s) f) \/
              (exists p x, mlog s = p ++ [EvSubmit x] /\ good (mlog s) (run s ++ [x]) (fin s)))).
  Definition can_tick : Prop := exists w e, snd (w_tick _ _ E w) = Err e.

  Lemma tell_finished_spec l : forall s s' r, fin s = l -> minv s ->
    tell_finished W L E s l = (s', r) ->
    match r with
    | Ok _ => minv s' /\ run s' = run s /\ fin s' = [] /\ rem s' = rem s /\ nask s' = nask s /\ first s' = first s
    | Err e => broken can_tick s'
    end.
  Proof.
    induction l as [|[c j] l IH]; intros s s' r Hf Hi; cbn [tell_finished].
    - intros [= <- <-]. auto 10.
    - destruct (w_result _ _ E (world s) j) as [w [v|e]].
      2: { intros [= <- <-]. left. cbn. apply Hi. }
      cbn [m_world m_event set_world].
      destruct Hi as [Hg Ha Hna Hr Hst]. rewrite Hf in Hg.
      assert (G1 : good (mlog s ++ [EvResult j v]) (run s) ((c, j) :: l)) by (apply good_event; auto).
      pose proof (good_tell _ _ _ _ _ _ G1) as G2. rewrite app_assoc in G2.
      destruct (w_tell _ _ E w c v) as [w2 [u|e]].
      2: { intros [= <- <-]. left. cbn. now rewrite Hf. }
      destruct (w_tick _ _ E w2) as [w3 r3] eqn:Et. destruct r3 as [u3|e3].
      2: { intros [= <- <-]. right. split; [exists w2, e3; now rewrite Et|]. left. cbn.
           exists (mlog s ++ [EvResult j v]), (c, j), v, l. auto. }
      cbn [m_num_ask m_running m_finished m_remaining m_first m_log m_world m_event set_world].
      intros H. apply IH in H; [|reflexivity|].
      + destruct r; [|exact H]. cbn in H. auto 10.
      + assert (HS : forall P : Prop, (In EvStop (mlog s) -> P) -> In EvStop ((mlog s ++ [EvResult j v]) ++ [EvTell (c, j) v]) -> P).
        { intros P HP Hin. apply HP. rewrite <- app_assoc in Hin. apply in_app_or in Hin as [Hin|[Hin|[Hin|[]]]]; easy. }
        assert (HS' : ~ In EvStop ((mlog s ++ [EvResult j v]) ++ [EvTell (c, j) v]) -> ~ In EvStop (mlog s)).
        { intros HH Hin. apply HH. apply in_or_app. left. apply in_or_app. now left. }
        constructor; mcbn.
        * exact G2.
        * lg. exact Ha.
        * intros Hn. lg. auto.
        * auto.
        * apply HS. auto.
  Qed.

  Lemma in_stop_snoc (l : list (mevent L)) e : e <> EvStop -> In EvStop (l ++ [e]) <-> In EvStop l.
  Proof.
    intros He. rewrite in_app_iff. cbn. split; [intros [H|[H|[]]]; congruence|now left].
  Qed.

  Definition refresh (s : mst) : mst :=
    MSt _ _ (world s) (nask s) (run s) (fin s)
      (if (0 <? rem s)%Z then Z.of_nat budget - Z.of_nat (nask s) else rem s)%Z (first s) (mlog s).

  Lemma refresh_id s : minv s -> refresh s = s.
  Proof.
    intros []. unfold refresh. destruct s as [w na r f re fi lg]. cbn in *.
    destruct (Z.ltb_spec 0 re); [|easy]. rewrite v_rem0; [easy|].
    intros HS. specialize (v_stop0 HS). lia.
  Qed.

  Lemma start_jobs_gen m : forall sx sy ry,
    fin sx = [] -> good (mlog sx) (run sx) (fin sx) ->
    asked (mlog sx) = map fst (submitted (mlog sx)) -> ~ In EvStop (mlog sx) ->
    nask sx = (nask0 + length (submitted (mlog sx)))%nat ->
    (0 < rem sx)%Z -> (Z.of_nat m <= nw - Z.of_nat (length (run sx)))%Z ->
    (batch = true -> m <> 0%nat -> run sx = [] \/ exists p y, mlog sx = p ++ [EvSubmit y]) ->
    start_jobs W L E m sx = (sy, ry) ->
    match ry with
    | Ok _ => minv (refresh sy) /\ fin sy = [] /\ first sy = first sx /\
          ((m <> 0%nat /\ rem sy = 0%Z) \/
           (rem sy = rem sx /\ nask sy = (nask sx + m)%nat /\ length (run sy) = (length (run sx) + m)%nat))
    | Err e => broken can_tick sy
    end.
  Proof.
    induction m as [|m IHm]; intros sx sy ry Hf Hg Ha Hns Hna Hr Hn2 Hb; cbn [start_jobs].
    - intros [= <- <-]. split; [|repeat split; auto; right; repeat split; lia].
      unfold refresh. constructor; mcbn; auto.
      + intros _. destruct (Z.ltb_spec 0 (rem sx)); [easy|lia].
      + easy.
    - destruct (w_ask _ _ E (world sx)) as [w [c|d|e d]].
      3: { intros [= <- <-]. left. exact Hg. }
      2: { intros [= <- <-]. mcbn. split; [|repeat split; auto]. unfold refresh. constructor; mcbn.
           all: try apply good_event; auto.
           - now lg.
           - intros HS. exfalso. apply HS. apply in_or_app. right. now left.
           - intros HS. exfalso. apply HS. apply in_or_app. right. now left. }
      cbn [m_world m_event set_world m_num_ask m_running m_finished m_remaining m_first m_log].
      assert (G1 : good (mlog sx ++ [EvAsk c]) (run sx) (fin sx)) by (apply good_event; auto).
      destruct (w_submit _ _ E w c) as [w2 [j|e]].
      2: { intros [= <- <-]. left. exact G1. }
      assert (G2 : good ((mlog sx ++ [EvAsk c]) ++ [EvSubmit (c, j)]) (run sx ++ [(c, j)]) (fin sx)).
      { rewrite <- app_assoc, Hf. apply good_submit; auto; [now rewrite <- Hf|lia]. }
      destruct (w_tick _ _ E w2) as [w3 r3] eqn:Et. destruct r3 as [u3|e3].
      2: { intros [= <- <-]. right. split; [exists w2, e3; now rewrite Et|]. right. cbn.
           exists (mlog sx ++ [EvAsk c]), (c, j). auto. }
      cbn [m_world m_event set_world m_num_ask m_running m_finished m_remaining m_first m_log].
      intros H. apply IHm in H; mcbn; auto.
      + destruct ry; [|exact H]. cbn [m_world m_num_ask m_running m_finished m_remaining m_first m_log] in H. destruct H as (H1 & H2 & H3 & H4).
        do 3 (split; [assumption|]).
        destruct H4 as [[H4 H5]|(H4 & H5 & H6)]; [now left|right].
        rewrite app_length in H6. cbn in H6. repeat split; lia.
      + lg. rewrite map_app, Ha. reflexivity.
      + rewrite !in_stop_snoc; easy.
      + lg. rewrite app_length. cbn [length]. lia.
      + rewrite app_length. cbn. lia.
      + intros _ _. right. eauto.
  Qed.

  Lemma split_jobs_spec l : forall w w' r f, split_jobs W L E w l = (w', Ok (r, f)) -> Permutation l (f ++ r).
  Proof.
    induction l as [|x l IH]; intros w w' r f; cbn.
    - now intros [= _ <- <-].
    - destruct (w_done _ _ E w (snd x)) as [w1 [b|e]]; [|easy].
      destruct (split_jobs W L E w1 l) as [w2 [[r2 f2]|e]] eqn:Es; [|easy].
      apply IH in Es. destruct b; intros [= _ <- <-]; cbn.
      + now constructor.
      + now apply Permutation_cons_app.
  Qed.

  Lemma good_perm log r f r' f' : good log r f -> Permutation (f ++ r) (f' ++ r') -> good log r' f'.
  Proof.
    intros [] Hp. constructor; auto. unfold accounted in *. etransitivity; [exact g_acc0|].
    now apply Permutation_app_head.
  Qed.

  (** the launching part of an iteration *)
  Definition launch (s : mst) : mst * result unit :=
    if negb batch || match run s with [] => true | _ => false end
    then start_jobs W L E (Z.to_nat (new_suggestions _ _ nw s)) s
    else (s, Ok tt).

  Definition launched (s : mst) : nat :=
    if negb batch || match run s with [] => true | _ => false end
    then Z.to_nat (new_suggestions _ _ nw s) else 0%nat.

  Lemma launch_spec s s' r : minv s -> fin s = [] -> launch s = (s', r) ->
    match r with
    | Ok _ => minv (refresh s') /\ fin s' = [] /\
        (launched s = 0%nat -> s' = s) /\
        (launched s <> 0%nat -> rem s' = 0%Z \/
           (rem s' = rem s /\ nask s' = (nask s + launched s)%nat /\ length (run s') = (length (run s) + launched s)%nat))
    | Err e => broken can_tick s'
    end.
  Proof.
    intros Hi Hf. unfold launch, launched.
    destruct (negb batch || _)%bool eqn:Eb.
    - set (n := Z.to_nat (new_suggestions _ _ nw s)).
      destruct (Nat.eq_dec n 0) as [E0|E0].
      + rewrite E0. cbn. intros [= <- <-]. rewrite (refresh_id _ Hi). split; [exact Hi|]. split; [exact Hf|]. split; easy.
      + assert (Hn : (Z.of_nat n <= rem s /\ Z.of_nat n <= nw - Z.of_nat (length (run s)))%Z).
        { unfold n, new_suggestions in *. lia. }
        assert (Hr : (0 < rem s)%Z) by lia.
        assert (Hns : ~ In EvStop (mlog s)).
        { intros HS. apply (v_stop _ Hi) in HS. lia. }
        intros H. apply start_jobs_gen in H; auto; try apply Hi; auto; try lia.
        * destruct r; [|exact H]. destruct H as (H1 & H2 & H3 & H4).
          do 2 (split; [assumption|]). split; [easy|].
          intros _. destruct H4 as [[_ ?]|?]; auto.
        * intros Hbt _. left. rewrite Hbt in Eb. cbn in Eb. now destruct (run s).
    - intros [= <- <-]. rewrite (refresh_id _ Hi). split; [exact Hi|]. split; [exact Hf|]. split; easy.
  Qed.

  (** the first part of an iteration *)
  Definition collect (s : mst) : mst * result unit :=
    match fin s with
    | _ :: _ => tell_finished W L E s (fin s)
    | [] => if first s then (s, Ok tt)
            else let '(w, r) := w_sleep _ _ E (world s) in (set_world _ _ s w, r)
    end.
  Lemma collect_spec s s' r : minv s -> collect s = (s', r) ->
    match r with
    | Ok _ => minv s' /\ fin s' = [] /\ run s' = run s /\ rem s' = rem s /\ nask s' = nask s /\ mlog s' = mlog s \/
              minv s' /\ fin s' = [] /\ run s' = run s /\ rem s' = rem s /\ nask s' = nask s /\ fin s <> []
    | Err _ => broken can_tick s'
    end.
  Proof.
    intros Hi. unfold collect. destruct (fin s) as [|x f] eqn:Ef.
    - destruct (first s).
      + intros [= <- <-]. auto 10.
      + destruct (w_sleep _ _ E (world s)) as [w r0]. intros [= <- <-].
        assert (minv (set_world _ _ s w)) by (destruct Hi; constructor; auto).
        destruct r0; [auto 10|]. left. apply Hi.
    - intros H. apply (tell_finished_spec _ _ _ _ Ef Hi) in H. destruct r; [|auto].
      right. assert (x :: f <> []) by discriminate. tauto.
  Qed.

  Lemma iteration_unfold s : iteration s =
    let '(s, r) := collect s in
    match r with
    | Err e => (s, Err e)
    | Ok _ =>
        let '(s, r) := launch s in
        match r with
        | Err e => (s, Err e)
        | Ok _ =>
            let '(w, r) := split_jobs W L E (world s) (run s) in
            match r with
            | Err e => (set_world _ _ (refresh s) w, Err e)
            | Ok (ru, fi) => (MSt _ _ w (nask s) ru fi (rem (refresh s)) false (mlog s), Ok tt)
            end
        end
    end.
  Proof. reflexivity. Qed.

  Lemma iteration_spec s s' r : minv s -> iteration s = (s', r) ->
    match r with Ok _ => minv s' | Err _ => broken can_tick s' end.
  Proof.
    intros Hi. rewrite iteration_unfold.
    destruct (collect s) as [s1 r1] eqn:E1. apply (collect_spec _ _ _ Hi) in E1.
    destruct r1 as [u|e]; [|intros [= <- <-]; exact E1].
    assert (H1 : minv s1 /\ fin s1 = []) by tauto. destruct H1 as [Hi1 Hf1].
    destruct (launch s1) as [s2 r2] eqn:E2. apply (launch_spec _ _ _ Hi1 Hf1) in E2.
    destruct r2 as [u2|e]; [|intros [= <- <-]; exact E2].
    destruct E2 as (Hi2 & Hf2 & _).
    destruct (split_jobs W L E (world s2) (run s2)) as [w [[ru fi]|e]] eqn:E3.
    - intros [= <- <-]. apply split_jobs_spec in E3. destruct Hi2 as [Hg Ha Hn Hr Hs].
      constructor; cbn in *; auto. eapply good_perm; [exact Hg|]. now rewrite Hf2.
    - intros [= <- <-]. left. apply (v_good _ Hi2).
  Qed.

  Lemma loop_spec fuel : forall s s' r, minv s -> loop fuel s = (s', r) ->
    match r with
    | MRaised _ => broken can_tick s'
    | MDone => minv s' /\ continue W L s' = false
    | _ => minv s'
    end.
  Proof.
    assert (Hw : forall s w, minv s -> minv (set_world _ _ s w)) by (intros s w []; constructor; auto).
    induction fuel as [|fuel IH]; intros s s' r Hi; cbn [Minimize.loop].
    - destruct (continue W L s) eqn:Ec; intros [= <- <-]; auto.
    - destruct (continue W L s) eqn:Ec; [|intros [= <- <-]; auto].
      destruct (w_timeout _ _ E (world s)) as [w late].
      destruct late; [intros [= <- <-]; auto|].
      destruct (iteration (set_world _ _ s w)) as [s1 r1] eqn:E1.
      apply (iteration_spec _ _ _ (Hw s w Hi)) in E1.
      destruct r1; [intros H; eapply IH; eauto|]. intros [= <- <-]. exact E1.
  Qed.
  End Inv.

  Lemma minv_init w na r f : minv (r ++ f) na (MSt _ _ w na r f (Z.of_nat budget - Z.of_nat na) true []).
  Proof.
    constructor; cbn; auto; try easy. apply good_nil. apply Permutation_app_comm.
  Qed.

  Lemma continue_false s : continue W L s = false -> rem s = 0%Z /\ run s = [] /\ fin s = [].
  Proof.
    unfold continue. rewrite !orb_false_iff, negb_false_iff. intros [[H1 H2] H3].
    apply Z.eqb_eq in H1. destruct (run s), (fin s); easy.
  Qed.

  (** C14 *)
  Lemma minimize_done fuel w na r f s : minimize fuel w na r f = (s, MDone) ->
    Permutation ((r ++ f) ++ submitted (mlog s)) (told (mlog s)) /\ run s = [] /\ fin s = [] /\
    asked (mlog s) = map fst (submitted (mlog s)) /\
    own_results (mlog s) /\ own_candidates (mlog s) /\
    (~ In EvStop (mlog s) -> (na + length (submitted (mlog s)) = budget)%nat /\ nask s = budget).
  Proof.
    intros H. unfold Minimize.minimize in H.
    apply (loop_spec _ _ _ _ _ _ (minv_init w na r f)) in H. destruct H as [Hi Hc].
    apply continue_false in Hc as (H1 & H2 & H3). destruct Hi as [[] Ha Hn Hr Hs].
    unfold accounted in *. rewrite H2, H3, !app_nil_r in *. repeat split; auto.
    - specialize (Hr H). specialize (Hn H). lia.
    - specialize (Hr H). specialize (Hn H). lia.
  Qed.

  (** C15 / C18: whatever the way the call ends *)
  Lemma minimize_any fuel w na r f s res : minimize fuel w na r f = (s, res) ->
    always (fun p => pending (length (r ++ f)) p <= Z.max nw (Z.of_nat (length (r ++ f))))%Z (mlog s) /\
    (batch = true -> by_batches (length (r ++ f)) (mlog s)) /\
    stop_is_final (mlog s) /\ own_results (mlog s) /\ own_candidates (mlog s).
  Proof.
    intros H. unfold Minimize.minimize in H.
    apply (loop_spec _ _ _ _ _ _ (minv_init w na r f)) in H.
    assert (G : exists ru fi, good (r ++ f) (mlog s) ru fi).
    { destruct res.
      - destruct H as [H _]. exists (run s), (fin s). apply H.
      - exists (run s), (fin s). apply H.
      - destruct H as [H|[_ [(p & x & l & fi & _ & _ & H)|(p & x & _ & H)]]]; eauto.
      - exists (run s), (fin s). apply H. }
    destruct G as (ru & fi & []). auto.
  Qed.

  (** C16 *)
  Lemma minimize_accounted fuel w na r f s res : no_tick E ->
    minimize fuel w na r f = (s, res) -> accounted (r ++ f) (mlog s) (run s) (fin s).
  Proof.
    intros Ht H. unfold Minimize.minimize in H.
    apply (loop_spec _ _ _ _ _ _ (minv_init w na r f)) in H.
    destruct res.
    - apply (g_acc _ _ _ _ (v_good _ _ _ (proj1 H))).
    - apply (g_acc _ _ _ _ (v_good _ _ _ H)).
    - destruct H as [H|[(w0 & e0 & H) _]]; [apply (g_acc _ _ _ _ H)|]. rewrite Ht in H. easy.
    - apply (g_acc _ _ _ _ (v_good _ _ _ H)).
  Qed.

  Lemma minimize_interrupted fuel w na r f s res :
    minimize fuel w na r f = (s, res) ->
    accounted (r ++ f) (mlog s) (run s) (fin s) \/
    (exists p x l fi, mlog s = p ++ [EvTell x l] /\ fin s = x :: fi /\ accounted (r ++ f) (mlog s) (run s) fi) \/
    (exists p x, mlog s = p ++ [EvSubmit x] /\ accounted (r ++ f) (mlog s) (run s ++ [x]) (fin s)).
  Proof.
    intros H. unfold Minimize.minimize in H.
    apply (loop_spec _ _ _ _ _ _ (minv_init w na r f)) in H.
    destruct res.
    - left. apply (g_acc _ _ _ _ (v_good _ _ _ (proj1 H))).
    - left. apply (g_acc _ _ _ _ (v_good _ _ _ H)).
    - destruct H as [H|[_ [(p & x & l & fi & H1 & H2 & H)|(p & x & H1 & H)]]].
      + left. apply (g_acc _ _ _ _ H).
      + right. left. exists p, x, l, fi. destruct H. auto.
      + right. right. exists p, x. destruct H. auto.
    - left. apply (g_acc _ _ _ _ (v_good _ _ _ H)).
  Qed.

  (** * Termination *)
  Definition halts (s : mst) : Prop := exists fuel, snd (loop fuel s) <> MFuel.

  Lemma halts_stop s : continue W L s = false -> halts s.
  Proof. intros H. exists 0%nat. cbn [Minimize.loop]. rewrite H. discriminate. Qed.

  Lemma halts_step s :
    (snd (w_timeout _ _ E (world s)) = false ->
     match iteration (set_world _ _ s (fst (w_timeout _ _ E (world s)))) with
     | (_, Err _) => True | (s', Ok _) => halts s' end) -> halts s.
  Proof.
    intros H. destruct (w_timeout _ _ E (world s)) as [w late] eqn:Ew. cbn [fst snd] in H.
    destruct late.
    - exists 1%nat. cbn [Minimize.loop]. destruct (continue W L s); [|discriminate]. now rewrite Ew.
    - specialize (H eq_refl). destruct (iteration (set_world _ _ s w)) as [s' [u|e]] eqn:Ei.
      + destruct H as [fuel H]. exists (S fuel). cbn [Minimize.loop]. destruct (continue W L s); [|discriminate].
        rewrite Ew, Ei. exact H.
      + exists 1%nat. cbn [Minimize.loop]. destruct (continue W L s); [|discriminate]. rewrite Ew, Ei. discriminate.
  Qed.

  Lemma split_none l : forall w w' r, split_jobs W L E w l = (w', Ok (r, [])) -> r = l.
  Proof.
    induction l as [|x l IH]; intros w w' r; cbn.
    - now intros [= _ <-].
    - destruct (w_done _ _ E w (snd x)) as [w1 [b|e]]; [|easy].
      destruct (split_jobs W L E w1 l) as [w2 [[r2 f2]|e]] eqn:Es; [|easy].
      destruct b; [easy|]. intros [= _ <- ->]. f_equal. eauto.
  Qed.

  Lemma split_len l w w' r f : split_jobs W L E w l = (w', Ok (r, f)) ->
    (length r + length f = length l)%nat.
  Proof.
    intros H. apply split_jobs_spec, Permutation_length in H. rewrite app_length in H. lia.
  Qed.

  Section Term.
  Variable init : list item.
  Variable nask0 : nat.
  Notation minv := (minv init nask0).
  Hypothesis Hnw : (1 <= nw)%Z.
  Hypothesis Hfair : fair_executor E.

  Lemma launched_le s : (launched s <> 0%nat -> 0 < rem s)%Z.
  Proof.
    unfold launched, new_suggestions. destruct (_ || _)%bool; [|easy]. lia.
  Qed.

  Lemma launched_rem s : (Z.of_nat (launched s) <= Z.max 0 (rem s))%Z.
  Proof.
    unfold launched, new_suggestions. destruct (_ || _)%bool; lia.
  Qed.

  (** what a complete iteration gives when nothing raises *)
  Lemma iteration_measure s s' u : minv s -> (0 <= rem s)%Z -> iteration s = (s', Ok u) ->
    minv s' /\ (0 <= rem s')%Z /\
    ((rem s' < rem s)%Z \/
     (rem s' = rem s /\ (length (run s') + length (fin s') = length (run s))%nat)).
  Proof.
    intros Hi Hr H. split; [now apply (iteration_spec _ _ _ _ _ Hi H)|]. revert H. rewrite iteration_unfold.
    destruct (collect s) as [s1 r1] eqn:E1. apply (collect_spec _ _ _ _ _ Hi) in E1.
    destruct r1 as [u1|e]; [|discriminate].
    assert (H1 : minv s1 /\ fin s1 = [] /\ run s1 = run s /\ rem s1 = rem s) by tauto.
    destruct H1 as (Hi1 & Hf1 & Hru1 & Hre1).
    destruct (launch s1) as [s2 r2] eqn:E2. apply (launch_spec _ _ _ _ _ Hi1 Hf1) in E2.
    destruct r2 as [u2|e]; [|discriminate].
    destruct E2 as (Hi2 & Hf2 & HA & HB).
    destruct (split_jobs W L E (world s2) (run s2)) as [w [[ru fi]|e]] eqn:E3; [|discriminate].
    intros [= <- <-]. cbn [m_world m_num_ask m_running m_finished m_remaining m_first m_log].
    apply split_len in E3. pose proof (launched_le s1) as Hl. pose proof (launched_rem s1) as Hl2.
    destruct (Nat.eq_dec (launched s1) 0) as [E0|E0].
    - pose proof (HA E0) as Hss. subst s2. pose proof (f_equal (m_remaining W L) (refresh_id _ _ _ Hi1)) as Hre; unfold refresh in Hre; cbn [m_remaining] in Hre; rewrite Hre. split; [lia|]. right. split; [lia|].
      rewrite <- Hru1. exact E3.
    - specialize (HB E0). specialize (Hl E0).
      assert (Hns : ~ In EvStop (mlog s1)) by (intros HS; apply (v_stop _ _ _ Hi1) in HS; lia).
      pose proof (v_rem _ _ _ Hi1 Hns) as Hr1.
      unfold refresh. mcbn. destruct HB as [HB|(HB1 & HB2 & HB3)].
      + rewrite HB. cbn [Z.ltb]. cbn. split; [lia|]. left. lia.
      + rewrite HB1. destruct (Z.ltb_spec 0 (rem s1)); [|lia]. rewrite HB2. split; [lia|]. left. lia.
  Qed.

  Lemma minv_world s w : minv s -> minv (set_world _ _ s w).
  Proof. intros []; constructor; auto. Qed.

  (** waiting for the running jobs *)
  Lemma halts_wait w1 jobs : eventually_done E w1 jobs -> forall s,
    minv s -> (0 <= rem s)%Z -> run s = jobs -> fin s = [] -> launched s = 0%nat ->
    fst (if first s then (fst (w_timeout _ _ E (world s)), Ok tt)
         else w_sleep _ _ E (fst (w_timeout _ _ E (world s)))) = w1 ->
    (forall s', minv s' -> (0 <= rem s')%Z -> rem s' = rem s -> (length (run s') + length (fin s') = length jobs)%nat ->
       fin s' <> [] -> halts s') ->
    halts s.
  Proof.
    induction 1 as [w jobs w' e Hs|w jobs w' ru x fi Hs|w jobs w' ru Hs _ IH];
      intros s Hi Hr Hrun Hfin Hl Hw Hk; apply halts_step; intros _;
      set (t := fst (w_timeout _ _ E (world s))) in *; rewrite iteration_unfold;
      unfold collect; rewrite (Hfin : fin (set_world _ _ s t) = []); mcbn;
      (assert (Hla : forall w0, launch (set_world _ _ s w0) = (set_world _ _ s w0, Ok tt))
         by (intros w0; unfold launch, launched, new_suggestions in *; mcbn; destruct (_ || _)%bool; [|easy];
             now rewrite Hl)).
    - destruct (first s).
      + rewrite Hla. mcbn. cbn [fst] in Hw. rewrite Hw, Hrun, Hs. exact I.
      + destruct (w_sleep _ _ E t) as [w2 [u|e2]]; [|exact I]. cbn [fst] in Hw. subst w2.
        unfold set_world at 1. mcbn. change (MSt W L w (nask s) (run s) (fin s) (rem s) (first s) (mlog s)) with (set_world _ _ s w).
        rewrite Hla. mcbn. rewrite Hrun, Hs. exact I.
    - assert (G : halts (MSt W L w' (nask s) ru (x :: fi) (rem (refresh s)) false (mlog s))).
      { pose proof (split_jobs_spec _ _ _ _ _ Hs) as Hp. pose proof (split_len _ _ _ _ _ Hs) as Hn.
        rewrite (refresh_id _ _ _ Hi).
        apply Hk; mcbn; auto; [|discriminate]. destruct Hi; constructor; auto. mcbn.
        eapply good_perm; [eassumption|]. rewrite Hfin, Hrun. exact Hp. }
      destruct (first s).
      + rewrite Hla. mcbn. cbn [fst] in Hw. rewrite Hw, Hrun, Hs. exact G.
      + destruct (w_sleep _ _ E t) as [w2 [u|e2]]; [|exact I]. cbn [fst] in Hw. subst w2.
        unfold set_world at 1. mcbn. change (MSt W L w (nask s) (run s) (fin s) (rem s) (first s) (mlog s)) with (set_world _ _ s w).
        rewrite Hla. mcbn. rewrite Hrun, Hs. exact G.
    - assert (G : halts (MSt W L w' (nask s) ru [] (rem (refresh s)) false (mlog s))).
      { pose proof (split_none _ _ _ _ Hs) as ->.
        rewrite (refresh_id _ _ _ Hi). apply IH; mcbn; auto.
        - destruct Hi; constructor; auto. mcbn. rewrite <- Hrun, <- Hfin. assumption.
        - rewrite <- Hl. unfold launched, new_suggestions. mcbn. now rewrite Hrun. }
      destruct (first s).
      + rewrite Hla. mcbn. cbn [fst] in Hw. rewrite Hw, Hrun, Hs. exact G.
      + destruct (w_sleep _ _ E t) as [w2 [u|e2]]; [|exact I]. cbn [fst] in Hw. subst w2.
        unfold set_world at 1. mcbn. change (MSt W L w (nask s) (run s) (fin s) (rem s) (first s) (mlog s)) with (set_world _ _ s w).
        rewrite Hla. mcbn. rewrite Hrun, Hs. exact G.
  Qed.

  Lemma halts_all n : forall k s, minv s -> (0 <= rem s)%Z -> Z.to_nat (rem s) = n ->
    (length (run s) + length (fin s) = k)%nat -> halts s.
  Proof.
    induction n as [n IHn] using lt_wf_ind. induction k as [k IHk] using lt_wf_ind.
    assert (Hfin : forall s, minv s -> (0 <= rem s)%Z -> Z.to_nat (rem s) = n ->
                    (length (run s) + length (fin s) = k)%nat -> fin s <> [] -> halts s).
    { intros s Hi Hr En Ek Hf. apply halts_step. intros _.
      destruct (iteration _) as [s' [u|e]] eqn:Ei; [|exact I].
      apply (iteration_measure _ _ _ (minv_world _ _ Hi) Hr) in Ei. cbn [set_world m_running m_remaining] in Ei.
      destruct Ei as (Hi' & Hr' & [Hlt|[He Hl]]).
      - eapply IHn; [|exact Hi'|exact Hr'|reflexivity|reflexivity]. lia.
      - eapply IHk; [|exact Hi'|exact Hr'| |reflexivity]; [|lia].
        destruct (fin s); [easy|]. cbn [length] in Ek. lia. }
    intros s Hi Hr En Ek. destruct (fin s) as [|x f] eqn:Ef.
    2: { apply Hfin; auto; rewrite Ef; auto; discriminate. }
    destruct (Nat.eq_dec (launched s) 0) as [E0|E0].
    - destruct (run s) as [|y ru] eqn:Er.
      + (* nothing left *)
        apply halts_stop. unfold continue. rewrite Er, Ef. unfold launched, new_suggestions in E0.
        rewrite Er, orb_true_r in E0. cbn [length] in E0. rewrite !orb_false_r, negb_false_iff, Z.eqb_eq. lia.
      + eapply halts_wait; try reflexivity; auto.
        * apply Hfair. rewrite Er. discriminate.
        * intros s' Hi' Hr' He Hl Hf'. apply Hfin; auto.
          -- now rewrite He.
          -- rewrite Hl, <- Ek. rewrite Er. cbn [length]. lia.
    - apply halts_step. intros _.
      destruct (iteration _) as [s' [u|e]] eqn:Ei; [|exact I].
      pose proof Ei as Ei2. rewrite iteration_unfold in Ei2.
      set (s0 := set_world W L s (fst (w_timeout W L E (world s)))) in *.
      destruct (collect s0) as [s1 r1] eqn:E1.
      apply (collect_spec _ _ _ _ _ (minv_world _ _ Hi)) in E1.
      destruct r1 as [u1|e]; [|discriminate].
      assert (H1 : minv s1 /\ fin s1 = [] /\ run s1 = run s /\ rem s1 = rem s) by (cbn [s0 set_world m_running m_remaining] in E1; tauto).
      destruct H1 as (Hi1 & Hf1 & Hru1 & Hre1).
      destruct (launch s1) as [s2 r2] eqn:E2. apply (launch_spec _ _ _ _ _ Hi1 Hf1) in E2.
      destruct r2 as [u2|e]; [|discriminate].
      destruct E2 as (Hi2 & Hf2 & _ & HB).
      assert (E0' : launched s1 <> 0%nat).
      { unfold launched, new_suggestions in *. now rewrite Hru1, Hre1. }
      apply (iteration_measure _ _ _ (minv_world _ _ Hi) Hr) in Ei. cbn [set_world m_running m_remaining] in Ei.
      destruct Ei as (Hi' & Hr' & [Hlt|[He Hl]]).
      + eapply IHn; [|exact Hi'|exact Hr'|reflexivity|reflexivity]. lia.
      + exfalso.
        destruct (split_jobs W L E (world s2) (run s2)) as [w [[rx fx]|e]] eqn:E3; [|discriminate].
        injection Ei2 as <- <-. cbn [m_remaining] in He.
        pose proof (launched_le s1 E0') as Hpos.
        assert (Hns : ~ In EvStop (mlog s1)) by (intros HS; apply (v_stop _ _ _ Hi1) in HS; lia).
        pose proof (v_rem _ _ _ Hi1 Hns) as Hr1. pose proof (launched_rem s1) as Hl2.
        unfold refresh in He. cbn [m_remaining] in He.
        destruct (HB E0') as [HB0|(HB1 & HB2 & HB3)].
        * rewrite HB0 in He. cbn in He. lia.
        * rewrite HB1 in He. destruct (Z.ltb_spec 0 (rem s1)); [|lia]. lia.
  Qed.
  End Term.

  Lemma minimize_terminates w na r f : fair_executor E -> (1 <= nw)%Z -> (na <= budget)%nat ->
    exists fuel, snd (minimize fuel w na r f) <> MFuel.
  Proof.
    intros Hf Hn Hb. eapply (halts_all (r ++ f) na Hn Hf); [apply minv_init| |reflexivity|reflexivity].
    cbn [m_remaining]. lia.
  Qed.

  (** more fuel changes nothing *)
  Lemma loop_fuel a : forall s, snd (loop a s) <> MFuel -> forall b, (a <= b)%nat -> loop b s = loop a s.
  Proof.
    induction a as [|a IH]; intros s H b Hb.
    - destruct b; [easy|]. cbn [Minimize.loop] in *. destruct (continue W L s); [|easy]. now cbn in H.
    - destruct b as [|b]; [lia|]. cbn [Minimize.loop] in *. destruct (continue W L s); [|easy].
      destruct (w_timeout _ _ E (world s)) as [w late]. destruct late; [easy|].
      destruct (iteration (set_world _ _ s w)) as [s1 [u|e]]; [|easy]. apply IH; [easy|lia].
  Qed.

  Lemma minimize_fuel w na r f a b : snd (minimize a w na r f) <> MFuel -> (a <= b)%nat ->
    minimize b w na r f = minimize a w na r f.
  Proof. intros. now apply loop_fuel. Qed.

  (** * Divergence *)
  Lemma no_launch_loop fuel : forall init nask0 s s' res, minv init nask0 s ->
    submitted (mlog s) = [] -> ~ In EvStop (mlog s) ->
    rem s <> 0%Z -> (rem s < 0 \/ nw <= 0)%Z ->
    loop fuel s = (s', res) ->
    res <> MDone /\ submitted (mlog s') = [].
  Proof.
    induction fuel as [|fuel IH]; intros init nask0 s s' res Hi Hs Hst Hr Hc; cbn [Minimize.loop].
    - destruct (continue W L s) eqn:Ec; [intros [= <- <-]; split; [discriminate|exact Hs]|].
      apply continue_false in Ec. easy.
    - destruct (continue W L s) eqn:Ec; [|apply continue_false in Ec; easy].
      destruct (w_timeout _ _ E (world s)) as [w late].
      destruct late; [intros [= <- <-]; split; [discriminate|exact Hs]|].
      pose proof (iteration_spec init nask0 (set_world _ _ s w)) as HI.
      rewrite iteration_unfold in *.
      assert (Hl : forall s0 : mst, rem s0 = rem s -> launch s0 = (s0, Ok tt)).
      { intros s0 H0. unfold launch, new_suggestions. rewrite H0.
        replace (Z.to_nat _) with 0%nat by lia. now destruct (_ || _)%bool. }
      assert (Hcol : forall s1 r1, collect (set_world _ _ s w) = (s1, r1) ->
                submitted (mlog s1) = [] /\ (In EvStop (mlog s1) -> False) /\ rem s1 = rem s).
      { intros s1 r1. unfold collect. mcbn. destruct (fin s) as [|x f] eqn:Ef.
        - destruct (first s); [intros [= <- <-]; auto|].
          destruct (w_sleep _ _ E w) as [w2 r2]. intros [= <- <-]. auto.
        - clear - Hs Hst. set (l := x :: f). clearbody l.
          change (rem s) with (rem (set_world _ _ s w)).
          change (mlog s) with (mlog (set_world _ _ s w)) in *.
          generalize dependent (set_world _ _ s w). clear s. intros s. revert s s1 r1.
          induction l as [|[c j] l IHl]; intros s s1 r1 Hs Hst; cbn [tell_finished].
          + intros [= <- <-]. auto.
          + destruct (w_result _ _ E (world s) j) as [w1 [v|e]]; mcbn.
            2: { intros [= <- <-]. auto. }
            destruct (w_tell _ _ E w1 c v) as [w2 [u|e]]; mcbn.
            2: { intros [= <- <-]. mcbn. lg. rewrite Hs. split; [easy|]. split; [|easy].
                 rewrite in_stop_snoc; easy. }
            destruct (w_tick _ _ E w2) as [w3 [u3|e]]; mcbn.
            2: { intros [= <- <-]. mcbn. lg. rewrite Hs. split; [easy|]. split; [|easy].
                 rewrite !in_stop_snoc; easy. }
            intros H. apply IHl in H; mcbn.
            * exact H.
            * lg. exact Hs.
            * rewrite !in_stop_snoc; easy. }
      destruct (collect (set_world _ _ s w)) as [s1 r1] eqn:E1.
      specialize (Hcol _ _ eq_refl) as (A1 & A2 & A3).
      destruct r1 as [u1|e]; [|intros [= <- <-]; split; [discriminate|exact A1]].
      rewrite (Hl s1 A3) in *.
      destruct (split_jobs W L E (world s1) (run s1)) as [w4 [[ru fi]|e]] eqn:E3.
      2: { intros [= <- <-]. split; [discriminate|exact A1]. }
      specialize (HI _ _ (minv_world _ _ _ _ Hi) eq_refl). cbn beta iota in HI.
      pose proof (v_rem _ _ _ HI A2) as R1. cbn [m_remaining m_num_ask] in R1.
      apply (IH _ _ _ _ _ HI); mcbn; auto.
      all: rewrite R1.
      all: rewrite (v_rem _ _ _ Hi Hst) in Hr, Hc.
      all: pose proof (v_nask _ _ _ HI A2) as N1; pose proof (v_nask _ _ _ Hi Hst) as N2; cbn [m_num_ask m_log] in N1.
      all: rewrite A1 in N1; rewrite Hs in N2; rewrite N1, N2 in *; auto.
  Qed.

  Lemma minimize_diverges fuel w na r f s res :
    (na > budget)%nat \/ ((na < budget)%nat /\ (nw <= 0)%Z) ->
    minimize fuel w na r f = (s, res) -> res <> MDone /\ submitted (mlog s) = [].
  Proof.
    intros H Hm. apply (no_launch_loop _ _ _ _ _ _ (minv_init w na r f)) in Hm; mcbn; auto; lia.
  Qed.
End Min.

Section Resume.
  Context {W L : Type}.
  Variables E1 E2 : wenv W L.

  (** two calls in a row, the second one starting from what the first one left *)
  Lemma resume budget nw nw2 batch batch2 fuel1 fuel2 w na r f s1 res1 w2 s2 :
    no_tick E1 ->
    minimize W L E1 budget nw batch fuel1 w na r f = (s1, res1) ->
    minimize W L E2 budget nw2 batch2 fuel2 w2 (m_num_ask _ _ s1) (m_running _ _ s1) (m_finished _ _ s1) = (s2, MDone) ->
    Permutation ((r ++ f) ++ submitted (m_log _ _ s1) ++ submitted (m_log _ _ s2))
                (told (m_log _ _ s1) ++ told (m_log _ _ s2)).
  Proof.
    intros Ht H1 H2. apply (minimize_accounted _ _ _ _ _ _ _ _ _ _ _ Ht) in H1.
    apply minimize_done in H2 as (H2 & _). unfold accounted in H1.
    rewrite app_assoc, H1, <- app_assoc. apply Permutation_app_head.
    rewrite <- H2, <- app_assoc. rewrite <- app_assoc.
    rewrite (app_assoc (m_finished _ _ s1)), (app_assoc (m_running _ _ s1)).
    apply Permutation_app_tail, Permutation_app_comm.
  Qed.

  Lemma resume_timeout budget nw nw2 batch batch2 fuel1 fuel2 w na r f s1 w2 s2 :
    minimize W L E1 budget nw batch fuel1 w na r f = (s1, MTimeout) ->
    minimize W L E2 budget nw2 batch2 fuel2 w2 (m_num_ask _ _ s1) (m_running _ _ s1) (m_finished _ _ s1) = (s2, MDone) ->
    ~ In EvStop (m_log _ _ s1) -> ~ In EvStop (m_log _ _ s2) ->
    (na + length (submitted (m_log _ _ s1)) + length (submitted (m_log _ _ s2)) = budget)%nat /\
    Permutation ((r ++ f) ++ submitted (m_log _ _ s1) ++ submitted (m_log _ _ s2))
                (told (m_log _ _ s1) ++ told (m_log _ _ s2)).
  Proof.
    intros H1 H2 Hs1 Hs2. unfold minimize in H1.
    apply (loop_spec _ _ _ _ _ _ _ _ _ _ (minv_init _ _ _ w na r f)) in H1.
    pose proof (v_nask _ _ _ _ _ _ H1 Hs1) as N1.
    apply minimize_done in H2 as (H2 & _ & _ & _ & _ & _ & H3). specialize (H3 Hs2). split; [lia|].
    destruct H1 as [[G1 _ _ _ _ _] _ _ _ _]. unfold accounted in G1.
    rewrite app_assoc, G1, <- app_assoc. apply Permutation_app_head.
    rewrite <- H2, <- app_assoc. rewrite <- app_assoc.
    rewrite (app_assoc (m_finished _ _ s1)), (app_assoc (m_running _ _ s1)).
    apply Permutation_app_tail, Permutation_app_comm.
  Qed.
End Resume.

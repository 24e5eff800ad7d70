From Coq Require Import List Arith ZArith QArith Bool Lqa Lia.
From Verif.Model Require Import Prelude MultiValue Pruning Archive.
From Verif.Spec Require Import MultiValue Pruning Archive.
From Verif.Proofs Require Import Prelude MultiValue Pruning.
Import ListNotations.

Lemma hget_old h m i : (i < length h)%nat -> hget (h ++ [m]) i = hget h i.
Proof. intros H. unfold hget. now rewrite app_nth1. Qed.
Lemma hget_new h m : hget (h ++ [m]) (length h) = m.
Proof. unfold hget. rewrite app_nth2, Nat.sub_diag by lia. reflexivity. Qed.
Lemma hset_length h i m : length (hset h i m) = length h.
Proof. revert i. induction h; intros [|i]; cbn; auto. Qed.
Lemma hget_hset_same h i m : (i < length h)%nat -> hget (hset h i m) i = m.
Proof.
  revert i. induction h as [|x h IH]; intros [|i] H; cbn in *; try lia; [easy|].
  apply IH. lia.
Qed.
Lemma hget_hset_other h i j m : i <> j -> hget (hset h i m) j = hget h j.
Proof.
  revert i j. induction h as [|x h IH]; intros [|i] [|j] H; cbn in *; try easy.
  apply IH. lia.
Qed.

Lemma argmin_from_le e l : forall best,
  (e (argmin_from e best l) <= e best)%Q /\
  (forall i, In i l -> e (argmin_from e best l) <= e i)%Q /\
  (argmin_from e best l = best \/ In (argmin_from e best l) l).
Proof.
  induction l as [|x l IH]; intros best; cbn.
  - split; [lra|]. split; [easy|now left].
  - destruct (IH (if qlt (e x) (e best) then x else best)) as (H1 & H2 & H3).
    destruct (qlt_spec (e x) (e best)) as [H|H].
    + split; [lra|]. split.
      * intros i [->|Hi]; [lra|auto].
      * destruct H3 as [->|H3]; auto.
    + split; [lra|]. split.
      * intros i [->|Hi]; [lra|auto].
      * destruct H3 as [->|H3]; auto.
Qed.

Lemma argmin_spec e l : l <> [] -> exists b, argmin e l = Some b /\ In b l /\
  forall i, In i l -> (e b <= e i)%Q.
Proof.
  destruct l as [|x l]; [easy|]. intros _. cbn. eexists. split; [reflexivity|].
  destruct (argmin_from_le e l x) as (H1 & H2 & H3). split.
  - destruct H3 as [->|H3]; [now left|now right].
  - intros i [->|Hi]; auto.
Qed.

Section Arch.
  Variable msqrt : Q -> Q.
  Variable pruning : list mv -> list (nat * nat) -> result (list (nat * nat)).
  Hypothesis Hprune : sub_pruning pruning.
  Notation est := (mv_est msqrt).
  Notation put := (archive_put msqrt).
  Notation tell := (arch_tell msqrt pruning).
  Notation run := (arch_run msqrt pruning).

  (** identifiers are valid and each criterion is minimised over the archive *)
  Record inv8 (s : archst) : Prop := {
    i8_arch : forall p, In p (st_archive s) -> (snd p < length (st_heap s))%nat;
    i8_bests : forall n b, st_bests s n = Some b -> (b < length (st_heap s))%nat;
    i8_min : forall n p, In p (st_archive s) -> exists b, st_bests s n = Some b /\
       (est n (hget (st_heap s) b) <= est n (hget (st_heap s) (snd p)))%Q }.

  (** shape of the result of [archive_put] *)
  Record put_shape (key : nat) (s : archst) (h : list mv) (a : list (nat * nat)) (id : nat) (re : bool) : Prop := {
    ps_in : In (key, id) a;
    ps_entries : forall p, In p a -> p = (key, id) \/ In p (st_archive s);
    ps_len : (length (st_heap s) <= length h)%nat;
    ps_id : (id < length h)%nat;
    ps_other : forall i, (i < length (st_heap s))%nat -> i <> id -> hget h i = hget (st_heap s) i;
    ps_re : re = false -> id = length (st_heap s) }.

  Lemma put_ok c key y s h a id re : (forall p, In p (st_archive s) -> (snd p < length (st_heap s))%nat) ->
    put c key y s = (h, a, id, re) -> put_shape key s h a id re.
  Proof.
    intros Hs. unfold archive_put. destruct (dget key (st_archive s)) as [i|] eqn:E.
    - intros H.
      assert (Ei : id = i /\ a = st_archive s /\ re = true /\ exists m, h = hset (st_heap s) i m).
      { revert H. cbn zeta. intros [= <- <- <- <-]. eauto. }
      destruct Ei as (-> & -> & -> & m & ->). clear H.
      apply dget_some_in in E. pose proof (Hs _ E) as Hi; cbn in Hi.
      constructor; try rewrite hset_length; auto; try easy.
      intros j _ Hj. apply hget_hset_other. congruence.
    - intros [= <- <- <- <-]. constructor; try rewrite app_length; cbn; auto; try lia.
      + apply in_app_iff. right. now left.
      + intros p Hp. apply in_app_iff in Hp as [Hp|[<-|[]]]; auto.
      + intros i Hi _. now apply hget_old.
  Qed.

  (** one current best after an update *)
  Lemma best_update_ok s key h a id re n cur :
    put_shape key s h a id re -> inv8 s -> cur = st_bests s n ->
    exists b, best_update msqrt h a re id n cur = Some b /\ (b < length h)%nat /\
      (b = id \/ (cur = Some b) \/ In b (map snd a)) /\
      (est n (hget h b) <= est n (hget h id))%Q /\
      (forall p, In p a -> est n (hget h b) <= est n (hget h (snd p)))%Q /\
      (forall b0, cur = Some b0 -> b0 <> id ->
          (est n (hget h b) <= est n (hget (st_heap s) b0))%Q).
  Proof.
    intros Hp [Ha Hb Hm] ->. unfold best_update.
    destruct (st_bests s n) as [b0|] eqn:Ecur.
    - pose proof (Hb _ _ Ecur) as Hb0.
      destruct (re && (b0 =? id)%nat) eqn:Ere.
      + apply andb_true_iff in Ere as [-> E]. apply Nat.eqb_eq in E as ->.
        destruct (argmin_spec (fun i => est n (hget h i)) (map snd a)) as (b & E & Hin & Hle).
        { intros H. apply map_eq_nil in H. subst. destruct (ps_in _ _ _ _ _ _ Hp). }
        exists b. split; [exact E|]. split.
        { apply in_map_iff in Hin as ([k i] & Ek & Hk). cbn in Ek. subst i.
          destruct (ps_entries _ _ _ _ _ _ Hp _ Hk) as [[= -> ->]|Hk'].
          - apply Hp.
          - specialize (Ha _ Hk'). cbn in Ha. pose proof (ps_len _ _ _ _ _ _ Hp). lia. }
        split; [auto|]. split.
        { apply Hle. apply in_map_iff. exists (key, id). split; [easy|apply Hp]. }
        split.
        { intros p Hpa. apply Hle. now apply in_map. }
        { intros b1 [= <-] Hne. easy. }
      + assert (Hne : b0 <> id).
        { intros ->. destruct re; cbn in Ere.
          - apply Nat.eqb_neq in Ere. easy.
          - pose proof (ps_re _ _ _ _ _ _ Hp eq_refl). lia. }
        pose proof (ps_other _ _ _ _ _ _ Hp b0 Hb0 Hne) as Eb0.
        pose proof (ps_len _ _ _ _ _ _ Hp) as Hlen.
        destruct (qle_spec (est n (hget h id)) (est n (hget h b0))) as [Hle|Hle].
        * exists id. split; [easy|]. split; [apply Hp|]. split; [auto|]. split; [lra|]. split.
          { intros p Hpa. destruct (ps_entries _ _ _ _ _ _ Hp _ Hpa) as [->|Hpa']; [cbn; lra|].
            destruct (Nat.eq_dec (snd p) id) as [->|Hpi]; [lra|].
            rewrite (ps_other _ _ _ _ _ _ Hp (snd p)) by (auto; now apply Ha).
            destruct (Hm n p Hpa') as (b & Eb & Hbb). rewrite Ecur in Eb. injection Eb as <-.
            rewrite Eb0 in Hle. lra. }
          { intros b1 [= <-] _. rewrite Eb0 in Hle. lra. }
        * exists b0. split; [easy|]. split; [lia|]. split; [auto|]. split; [lra|]. split.
          { intros p Hpa. destruct (ps_entries _ _ _ _ _ _ Hp _ Hpa) as [->|Hpa']; [cbn; lra|].
            destruct (Nat.eq_dec (snd p) id) as [->|Hpi]; [lra|].
            rewrite (ps_other _ _ _ _ _ _ Hp (snd p)) by (auto; now apply Ha).
            destruct (Hm n p Hpa') as (b & Eb & Hbb). rewrite Ecur in Eb. injection Eb as <-.
            rewrite Eb0. lra. }
          { intros b1 [= <-] _. rewrite Eb0. lra. }
    - exists id. split; [easy|]. split; [apply Hp|]. split; [auto|]. split; [lra|]. split.
      + intros p Hpa. destruct (ps_entries _ _ _ _ _ _ Hp _ Hpa) as [->|Hpa']; [cbn; lra|].
        destruct (Hm n p Hpa') as (b & Eb & _). congruence.
      + easy.
  Qed.

  Lemma inv8_init : inv8 arch_init.
  Proof. constructor; cbn; easy. Qed.

  Lemma inv8_setloss s l : inv8 s -> inv8 (ArchSt (st_heap s) (st_archive s) (st_bests s) l).
  Proof. intros [H1 H2 H3]. constructor; auto. Qed.

  (** effect of an update, with the archive before pruning *)
  Lemma update_shape c key y s s' r : inv8 s -> update_archive msqrt pruning c key y s = (s', r) ->
    exists h a id re, put c key y s = (h, a, id, re) /\ put_shape key s h a id re /\
      st_heap s' = h /\ sublist (st_archive s') a /\
      st_bests s' = (fun n => best_update msqrt h a re id n (st_bests s n)) /\
      st_loss s' = st_loss s.
  Proof.
    intros Hi. unfold update_archive.
    destruct (put c key y s) as [[[h a] id] re] eqn:E.
    intros H. exists h, a, id, re. split; [easy|].
    split; [eapply put_ok; [apply Hi|exact E]|].
    destruct (pruning h a) as [a'|e] eqn:Ep; injection H as <- <-; cbn.
    - repeat split; try easy. now apply Hprune in Ep.
    - repeat split; try easy. apply sublist_refl.
  Qed.

  Lemma inv8_update c key y s s' r : inv8 s -> update_archive msqrt pruning c key y s = (s', r) -> inv8 s'.
  Proof.
    intros Hi E. destruct (update_shape _ _ _ _ _ _ Hi E) as (h & a & id & re & Ep & Hp & Hh & Hsub & Hb & Hl).
    constructor; rewrite ?Hh, ?Hb.
    - intros p Hpa. apply (sublist_in _ _ _ Hsub) in Hpa.
      destruct (ps_entries _ _ _ _ _ _ Hp _ Hpa) as [->|Hpa']; [apply Hp|].
      pose proof (i8_arch s Hi _ Hpa'). pose proof (ps_len _ _ _ _ _ _ Hp). lia.
    - intros n b. destruct (best_update_ok s key h a id re n _ Hp Hi eq_refl) as (b' & -> & Hlt & _).
      now intros [= <-].
    - intros n p Hpa. apply (sublist_in _ _ _ Hsub) in Hpa.
      destruct (best_update_ok s key h a id re n _ Hp Hi eq_refl) as (b' & -> & Hlt & _ & _ & Hle & _).
      exists b'. auto.
  Qed.

  Lemma inv8_run s ops : inv8 s -> inv8 (run s ops).
  Proof.
    revert s. induction ops as [|[[c k] y] ops IH]; cbn; intros s Hi; [easy|].
    apply IH. destruct (update_archive _ _ _ _ _ _) as [s' r] eqn:E. cbn.
    eapply inv8_update; [|exact E]. now apply inv8_setloss.
  Qed.

  (** every object's minimum is the loss of its candidate, told in the history *)
  Record inv7 (hist : list told) (s : archst) : Prop := {
    i7_i8 : inv8 s;
    i7_loss : forall c y, dget c (st_loss s) = Some y -> exists k, In (c, k, y) hist;
    i7_cell : forall i, (i < length (st_heap s))%nat -> exists y,
       dget (mv_param (hget (st_heap s) i)) (st_loss s) = Some y /\ (mv_min (hget (st_heap s) i) == y)%Q;
    i7_best : forall t, In t hist -> exists b, st_bests s Minimum = Some b /\
       (mv_min (hget (st_heap s) b) <= t_loss t)%Q }.

  Lemma inv7_step hist s t : inv7 hist s -> ~ In (t_cand t) (map t_cand hist) ->
    in_range (t_loss t) -> inv7 (hist ++ [t]) (fst (tell s t)).
  Proof.
    intros [Hi Hl Hc Hb] Hnew Hr. destruct t as [[c key] y]. cbn in Hnew, Hr. cbn [arch_tell].
    set (s0 := ArchSt (st_heap s) (st_archive s) (st_bests s) (dset c y (st_loss s))).
    assert (Hi0 : inv8 s0) by now apply inv8_setloss.
    destruct (update_archive msqrt pruning c key y s0) as [s' r] eqn:E. cbn [fst].
    pose proof (inv8_update _ _ _ _ _ _ Hi0 E) as Hi'.
    destruct (update_shape _ _ _ _ _ _ Hi0 E) as (h & a & id & re & Ep & Hp & Hh & Hsub & Hbe & Hlo).
    assert (Hnone : dget c (st_loss s) = None).
    { destruct (dget c (st_loss s)) as [y0|] eqn:E0; [|easy]. destruct (Hl _ _ E0) as [k Hk].
      destruct Hnew. apply (in_map t_cand) in Hk. exact Hk. }
    (* old losses are preserved *)
    assert (Hkeep : forall c0 y0, dget c0 (st_loss s) = Some y0 -> dget c0 (dset c y (st_loss s)) = Some y0).
    { intros c0 y0 E0. rewrite dget_dset. destruct (Nat.eqb_spec c0 c) as [->|]; [congruence|easy]. }
    assert (Hdc : dget c (dset c y (st_loss s)) = Some y) by (rewrite dget_dset, Nat.eqb_refl; easy).
    (* the touched object *)
    assert (Hid : (exists y0, dget (mv_param (hget h id)) (dset c y (st_loss s)) = Some y0
                               /\ (mv_min (hget h id) == y0)%Q) /\ (mv_min (hget h id) <= y)%Q /\
                  ((id < length (st_heap s))%nat -> (mv_min (hget h id) <= mv_min (hget (st_heap s) id))%Q)).
    { revert Ep. unfold archive_put. cbn [st_archive st_heap st_loss s0].
      destruct (dget key (st_archive s)) as [i|] eqn:Ek.
      - intros Ep.
        assert (Hlt : (i < length (st_heap s))%nat) by (apply dget_some_in in Ek; apply (i8_arch _ Hi _ Ek)).
        destruct (Hc i Hlt) as (y0 & Ey0 & Em0).
        assert (Hmin : mv_min (mv_add msqrt y (hget (st_heap s) i)) = qmin (mv_min (hget (st_heap s) i)) y).
        { unfold mv_add. cbn zeta. now rewrite (mv_clip_id y Hr). }
        assert (Hpar : mv_param (mv_add msqrt y (hget (st_heap s) i)) = mv_param (hget (st_heap s) i))
          by reflexivity.
        pose proof (qmin_le_l (mv_min (hget (st_heap s) i)) y) as Hm1.
        pose proof (qmin_le_r (mv_min (hget (st_heap s) i)) y) as Hm2.
        remember (mv_add msqrt y (hget (st_heap s) i)) as m eqn:Em.
        cbn zeta in Ep. rewrite Hpar, (Hkeep _ _ Ey0), Hdc in Ep.
        destruct (qlt_spec y y0) as [Hlt1|Hge];
          injection Ep as <- <- <- <-; rewrite hget_hset_same by exact Hlt; cbn [mv_param mv_min];
          rewrite Hmin.
        + split; [|split; auto].
          exists y. split; [exact Hdc|]. unfold qmin. destruct (qlt_spec y (mv_min (hget (st_heap s) i))); lra.
        + rewrite Hpar. split; [|split; auto].
          exists y0. split; [now apply Hkeep|]. unfold qmin. destruct (qlt_spec y (mv_min (hget (st_heap s) i))); lra.
      - intros [= <- <- <- <-]. rewrite hget_new. cbn. split; [|split; [lra|lia]].
        exists y. split; [exact Hdc|lra]. }
    destruct Hid as (Hcell & Hy & Hmono).
    constructor; rewrite ?Hh, ?Hlo; cbn [st_loss s0].
    - exact Hi'.
    - intros c0 y0. rewrite dget_dset. destruct (Nat.eqb_spec c0 c) as [->|].
      + intros [= <-]. exists key. apply in_app_iff. right. now left.
      + intros E0. destruct (Hl _ _ E0) as [k Hk]. exists k. apply in_app_iff. now left.
    - intros i Hlt. destruct (Nat.eq_dec i id) as [->|Hne]; [exact Hcell|].
      assert (Hio : (i < length (st_heap s))%nat).
      { revert Ep Hlt Hne. unfold archive_put. cbn [st_archive st_heap s0].
        destruct (dget key (st_archive s)) as [j|].
        - cbn zeta. intros [= <- <- <- <-]. now rewrite hset_length.
        - intros [= <- <- <- <-]. rewrite app_length. cbn. lia. }
      rewrite (ps_other _ _ _ _ _ _ Hp i Hio Hne). cbn [st_heap s0].
      destruct (Hc i Hio) as (y0 & Ey0 & Em0). exists y0. split; [now apply Hkeep|exact Em0].
    - intros t Ht. rewrite Hbe.
      destruct (best_update_ok s0 key h a id re Minimum _ Hp Hi0 eq_refl)
        as (b & Eb & Hblt & _ & Hbid & Hba & Hb0).
      exists b. split; [exact Eb|]. cbn [mv_est] in *.
      apply in_app_iff in Ht as [Ht|[<-|[]]]; [|cbn; lra].
      destruct (Hb t Ht) as (b1 & Eb1 & Hle1).
      destruct (Nat.eq_dec b1 id) as [->|Hne].
      + specialize (Hmono (i8_bests _ Hi _ _ Eb1)). lra.
      + specialize (Hb0 b1 Eb1 Hne). cbn [st_heap s0] in Hb0. lra.
  Qed.

  Lemma inv7_init : inv7 [] arch_init.
  Proof. constructor; cbn; try easy. Qed.

  Lemma run_app s l1 l2 : run s (l1 ++ l2) = run (run s l1) l2.
  Proof. revert s. induction l1; cbn; auto. Qed.

  Lemma inv7_run hist : distinct_candidates hist -> losses_in_range hist -> inv7 hist (run arch_init hist).
  Proof.
    unfold distinct_candidates, losses_in_range.
    induction hist as [|t hist IH] using rev_ind; intros Hd Hr; [apply inv7_init|].
    rewrite run_app. cbn.
    rewrite map_app in Hd. cbn in Hd. apply Forall_app in Hr as [Hr1 Hr2]. inversion Hr2; subst.
    apply NoDup_remove in Hd as [Hd1 Hd2]. rewrite app_nil_r in *.
    apply inv7_step; auto.
  Qed.

  Lemma recommend_best hist : hist <> [] -> distinct_candidates hist -> losses_in_range hist ->
    exists t, best_told t hist /\
      arch_recommend true (run arch_init hist) = Some (t_cand t).
  Proof.
    intros Hne Hd Hr. pose proof (inv7_run hist Hd Hr) as [Hi Hl Hc Hb].
    set (s := run arch_init hist) in *.
    destruct hist as [|t0 hist0]; [easy|]. set (hist := t0 :: hist0) in *.
    destruct (Hb t0 (or_introl eq_refl)) as (b & Eb & _).
    pose proof (i8_bests _ Hi _ _ Eb) as Hlt.
    destruct (Hc b Hlt) as (y & Ey & Em). destruct (Hl _ _ Ey) as [k Hk].
    exists (mv_param (hget (st_heap s) b), k, y). split.
    - split; [exact Hk|]. intros t' Ht'. destruct (Hb t' Ht') as (b' & Eb' & Hle).
      rewrite Eb in Eb'. injection Eb' as <-. cbn. lra.
    - unfold arch_recommend. rewrite Eb. reflexivity.
  Qed.
End Arch.

(** first occurrences *)
Lemma first_occ_in l x : In x (first_occurrences l) <-> In x l.
Proof.
  induction l as [|a l IH]; cbn; [easy|]. rewrite filter_In, IH.
  destruct (Nat.eqb_spec x a); cbn; intuition congruence.
Qed.
Lemma filter_notin x l : ~ In x l -> filter (fun y => negb (y =? x)%nat) l = l.
Proof.
  induction l as [|a l IH]; cbn; [easy|]. intros H.
  destruct (Nat.eqb_spec a x); cbn; [intuition|]. f_equal. apply IH. tauto.
Qed.
Lemma first_occ_snoc l x : first_occurrences (l ++ [x]) =
  if existsb (Nat.eqb x) l then first_occurrences l else first_occurrences l ++ [x].
Proof.
  induction l as [|a l IH]; cbn; [easy|]. rewrite IH.
  destruct (existsb (Nat.eqb x) l) eqn:E.
  - now rewrite orb_true_r.
  - rewrite orb_false_r, filter_app. cbn. destruct (Nat.eqb_spec x a) as [->|H]; cbn.
    + now rewrite app_nil_r.
    + easy.
Qed.
Lemma existsb_eqb_in x l : existsb (Nat.eqb x) l = true <-> In x l.
Proof.
  rewrite existsb_exists. split.
  - intros (y & Hy & E). apply Nat.eqb_eq in E. now subst.
  - intros H. exists x. split; [easy|apply Nat.eqb_refl].
Qed.
Lemma first_occ_nodup l : NoDup (first_occurrences l).
Proof.
  induction l as [|a l IH]; cbn; constructor.
  - rewrite filter_In, Nat.eqb_refl. cbn. easy.
  - now apply NoDup_filter.
Qed.

Lemma losses_of_snoc k h t : losses_of k (h ++ [t]) =
  losses_of k h ++ (if (t_key t =? k)%nat then [t_loss t] else []).
Proof.
  unfold losses_of. rewrite filter_app, map_app. cbn. now destruct (t_key t =? k)%nat.
Qed.
Lemma losses_of_nil k h : losses_of k h = [] <-> ~ In k (map t_key h).
Proof.
  unfold losses_of. induction h as [|t h IH]; cbn; [easy|].
  destruct (Nat.eqb_spec (t_key t) k); cbn; [split; [easy|intuition]|].
  rewrite IH. intuition.
Qed.

Section Exact.
  Variable msqrt : Q -> Q.
  Variable pruning : list mv -> list (nat * nat) -> result (list (nat * nat)).

  Record inv9 (hist : list told) (s : archst) : Prop := {
    i9_keys : map fst (st_archive s) = first_occurrences (map t_key hist);
    i9_ids : map snd (st_archive s) = seq 0 (length (st_heap s));
    i9_loss : forall c y, dget c (st_loss s) = Some y -> In c (map t_cand hist);
    i9_stats : forall k id, In (k, id) (st_archive s) ->
       stats (hget (st_heap s) id) (losses_of k hist) /\
       exists y, In (mv_param (hget (st_heap s) id), k, y) hist /\
         dget (mv_param (hget (st_heap s) id)) (st_loss s) = Some y /\
         (mv_min (hget (st_heap s) id) == y)%Q }.

  Lemma inv9_init : inv9 [] arch_init.
  Proof. constructor; cbn; easy. Qed.

  Lemma inv9_step hist s t : inv9 hist s -> ~ In (t_cand t) (map t_cand hist) ->
    in_range (t_loss t) ->
    (forall h a, (length a <= length (first_occurrences (map t_key (hist ++ [t]))))%nat -> pruning h a = Ok a) ->
    inv9 (hist ++ [t]) (fst (arch_tell msqrt pruning s t)).
  Proof.
    intros [Hk Hids Hl Hs] Hnew Hr Hpr. destruct t as [[c key] y]. cbn in Hnew, Hr.
    rewrite map_app in Hpr. cbn [map t_key fst snd] in Hpr. rewrite first_occ_snoc, <- Hk in Hpr.
    cbn [arch_tell]. unfold update_archive, archive_put. cbn [st_archive st_heap st_bests st_loss].
    assert (Hkeep : forall c0 y0, dget c0 (st_loss s) = Some y0 -> dget c0 (dset c y (st_loss s)) = Some y0).
    { intros c0 y0 E0. rewrite dget_dset. destruct (Nat.eqb_spec c0 c) as [->|]; [|easy].
      destruct (Hnew (Hl _ _ E0)). }
    assert (Hdc : dget c (dset c y (st_loss s)) = Some y) by (rewrite dget_dset, Nat.eqb_refl; easy).
    assert (Hl' : forall c0 y0, dget c0 (dset c y (st_loss s)) = Some y0 ->
                 In c0 (map t_cand (hist ++ [(c, key, y)]))).
    { intros c0 y0. rewrite dget_dset, map_app, in_app_iff. cbn.
      destruct (Nat.eqb_spec c0 c) as [->|]; [auto|]. intros E0. left. eauto. }
    assert (Hin : In key (map fst (st_archive s)) <-> In key (map t_key hist)).
    { now rewrite Hk, first_occ_in. }
    assert (Hnd : NoDup (map fst (st_archive s))) by (rewrite Hk; apply first_occ_nodup).
    assert (Hlen : length (st_archive s) = length (st_heap s)).
    { rewrite <- (map_length snd), Hids. apply seq_length. }
    destruct (dget key (st_archive s)) as [id|] eqn:E.
    - apply dget_some_in in E.
      assert (Hkin : In key (map t_key hist)) by (apply Hin; exact (in_map fst _ _ E)).
      assert (Hex : existsb (Nat.eqb key) (map t_key hist) = true) by now apply existsb_eqb_in.
      rewrite Hex in Hpr.
      assert (Hlt : (id < length (st_heap s))%nat).
      { apply (in_map snd) in E. rewrite Hids in E. apply in_seq in E. cbn in E. lia. }
      destruct (Hs key id E) as (Hst & y0 & Hy0 & Ey0 & Em0).
      assert (Hmin : mv_min (mv_add msqrt y (hget (st_heap s) id)) = qmin (mv_min (hget (st_heap s) id)) y).
      { unfold mv_add. cbn zeta. now rewrite (mv_clip_id y Hr). }
      assert (Hpar : mv_param (mv_add msqrt y (hget (st_heap s) id)) = mv_param (hget (st_heap s) id))
        by reflexivity.
      assert (Hne : losses_of key hist <> []) by (rewrite losses_of_nil; tauto).
      pose proof (stats_add msqrt _ _ y Hne Hr Hst) as Hst'.
      remember (mv_add msqrt y (hget (st_heap s) id)) as m eqn:Em.
      rewrite Hpar, (Hkeep _ _ Ey0), Hdc.
      set (m' := if qlt y y0 then MV (mv_count m) (mv_mean m) (mv_min m) (mv_square m) (mv_var m) c else m).
      assert (Hst2 : stats m' (losses_of key hist ++ [y])).
      { subst m'. destruct (qlt y y0); [|exact Hst'].
        destruct Hst' as [S1 S2 S3 S4]. constructor; cbn; auto. }
      assert (Hpar2 : exists y1, In (mv_param m', key, y1) (hist ++ [(c, key, y)]) /\
                 dget (mv_param m') (dset c y (st_loss s)) = Some y1 /\ (mv_min m' == y1)%Q).
      { subst m'. destruct (qlt_spec y y0) as [H|H]; cbn [mv_param mv_min].
        - exists y. split; [apply in_app_iff; right; now left|]. split; [exact Hdc|].
          rewrite Hmin. unfold qmin. destruct (qlt_spec y (mv_min (hget (st_heap s) id))); lra.
        - exists y0. rewrite Hpar. split; [apply in_app_iff; now left|]. split; [now apply Hkeep|].
          rewrite Hmin. unfold qmin. destruct (qlt_spec y (mv_min (hget (st_heap s) id))); lra. }
      rewrite Hpr by (rewrite map_length; lia). cbn [fst].
      constructor; cbn [st_archive st_heap st_loss].
      + rewrite map_app. cbn [map t_key fst snd]. now rewrite first_occ_snoc, Hex.
      + now rewrite hset_length.
      + exact Hl'.
      + intros k i Hki.
        destruct (Nat.eq_dec i id) as [->|Hi].
        * assert (k = key).
          { clear - E Hki Hids. remember (st_archive s) as a. clear Heqa.
            assert (Hn : NoDup (map snd a)) by (rewrite Hids; apply seq_NoDup).
            clear Hids. induction a as [|[k1 i1] a IH]; [easy|].
            cbn in Hn. inversion Hn; subst. destruct E as [[= -> ->]|E], Hki as [[= <-]|Hki]; auto.
            - apply (in_map snd) in Hki. easy.
            - subst. apply (in_map snd) in E. easy. }
          subst k. rewrite hget_hset_same by exact Hlt.
          rewrite losses_of_snoc. cbn [t_key t_loss fst snd]. rewrite Nat.eqb_refl. auto.
        * rewrite hget_hset_other by congruence.
          assert (k <> key).
          { intros ->. pose proof (dget_in_nodup _ _ _ Hnd Hki). pose proof (dget_in_nodup _ _ _ Hnd E).
            congruence. }
          rewrite losses_of_snoc. cbn [t_key t_loss fst snd].
          destruct (Nat.eqb_spec key k); [congruence|]. rewrite app_nil_r.
          destruct (Hs k i Hki) as (A & y1 & B1 & B2 & B3). split; [exact A|].
          exists y1. split; [apply in_app_iff; now left|]. split; [now apply Hkeep|exact B3].
    - apply dget_none in E.
      assert (Hkin : ~ In key (map t_key hist)) by (rewrite <- Hin; exact E).
      assert (Hex : existsb (Nat.eqb key) (map t_key hist) = false).
      { destruct (existsb _ _) eqn:H; [|easy]. apply existsb_eqb_in in H. easy. }
      rewrite Hex in Hpr.
      rewrite Hpr by (rewrite !app_length, map_length; cbn; lia). cbn [fst].
      constructor; cbn [st_archive st_heap st_loss].
      + rewrite !map_app. cbn [map t_key fst snd]. rewrite first_occ_snoc, Hex. now rewrite Hk.
      + rewrite map_app, app_length, Hids. cbn [map snd length].
        rewrite Nat.add_1_r, seq_S. reflexivity.
      + exact Hl'.
      + intros k i Hki. apply in_app_iff in Hki as [Hki|[[= <- <-]|[]]].
        * assert (Hlt : (i < length (st_heap s))%nat).
          { apply (in_map snd) in Hki. rewrite Hids in Hki. apply in_seq in Hki. cbn in Hki. lia. }
          assert (k <> key).
          { intros ->. apply (in_map fst) in Hki. easy. }
          rewrite hget_old by exact Hlt. rewrite losses_of_snoc. cbn [t_key t_loss fst snd].
          destruct (Nat.eqb_spec key k); [congruence|]. rewrite app_nil_r.
          destruct (Hs k i Hki) as (A & y1 & B1 & B2 & B3). split; [exact A|].
          exists y1. split; [apply in_app_iff; now left|]. split; [now apply Hkeep|exact B3].
        * rewrite hget_new. rewrite losses_of_snoc. cbn [t_key t_loss fst snd].
          rewrite Nat.eqb_refl. rewrite (proj2 (losses_of_nil key hist) Hkin). cbn [app].
          split; [apply stats_new|]. exists y. split; [apply in_app_iff; right; now left|].
          cbn. split; [exact Hdc|lra].
  Qed.

  Lemma first_occ_mono l1 l2 :
    (length (first_occurrences l1) <= length (first_occurrences (l1 ++ l2)))%nat.
  Proof.
    apply NoDup_incl_length; [apply first_occ_nodup|].
    intros x. rewrite !first_occ_in, in_app_iff. tauto.
  Qed.

  Lemma inv9_run hist : distinct_candidates hist -> losses_in_range hist ->
    (forall h a, (length a <= length (first_occurrences (map t_key hist)))%nat -> pruning h a = Ok a) ->
    inv9 hist (arch_run msqrt pruning arch_init hist).
  Proof.
    unfold distinct_candidates, losses_in_range.
    induction hist as [|t hist IH] using rev_ind; intros Hd Hr Hp; [apply inv9_init|].
    rewrite run_app. cbn [arch_run].
    rewrite map_app in Hd. cbn in Hd. apply Forall_app in Hr as [Hr1 Hr2]. inversion Hr2; subst.
    apply NoDup_remove in Hd as [Hd1 Hd2]. rewrite app_nil_r in *.
    apply inv9_step; auto. apply IH; auto.
    intros h a Hle. apply Hp. rewrite map_app.
    pose proof (first_occ_mono (map t_key hist) (map t_key [t])). lia.
  Qed.

  Lemma archive_exact hist : distinct_candidates hist -> losses_in_range hist ->
    (forall h a, (length a <= length (first_occurrences (map t_key hist)))%nat -> pruning h a = Ok a) ->
    let s := arch_run msqrt pruning arch_init hist in
    map fst (st_archive s) = first_occurrences (map t_key hist) /\
    forall k id, In (k, id) (st_archive s) ->
      let m := hget (st_heap s) id in let l := losses_of k hist in
      mv_count m = length l /\ (mv_mean m == meanQ l)%Q /\ is_minimum (mv_min m) l /\
      (mv_square m == meanQ (map (fun y => y * y) l))%Q /\
      exists y, In (mv_param m, k, y) hist /\ is_minimum y l.
  Proof.
    intros Hd Hr Hp s. destruct (inv9_run hist Hd Hr Hp) as [Hk _ _ Hs]. split; [exact Hk|].
    intros k id Hin m l. destruct (Hs k id Hin) as ([S1 S2 S3 S4] & y & Hy & _ & Em).
    repeat (split; [assumption|]).
    exists y. split; [exact Hy|]. fold s in Em, S3. fold m in Em, S3. fold l in S3.
    destruct S3 as [(z & Hz & Ez) Hall]. split.
    - exists z. split; [easy|]. lra.
    - intros z' Hz'. specialize (Hall z' Hz'). lra.
  Qed.
End Exact.

Lemma default_pruning_sub msqrt m M : sub_pruning (default_pruning msqrt m M).
Proof. intros h a a'. apply prune_sublist. Qed.

Lemma default_pruning_length msqrt m M s t s' r : (m + 1 <= M)%nat ->
  arch_tell msqrt (default_pruning msqrt m M) s t = (s', r) ->
  r = Ok tt /\ (length (st_archive s') < M \/ length (st_archive s') <= 3 * m)%nat.
Proof.
  intros Hm. destruct t as [[c k] y]. cbn [arch_tell]. unfold update_archive.
  destruct (archive_put _ _ _ _ _) as [[[h a] id] re]. unfold default_pruning.
  destruct (Nat.lt_ge_cases (length a) M) as [Hl|Hl].
  - rewrite prune_below by exact Hl. intros [= <- <-]. split; [easy|]. now left.
  - match goal with |- context [prune m M ?es a] =>
      destruct (prune_above m M es a Hl ltac:(lia)) as (f & -> & _ & Hlen) end.
    intros [= <- <-]. split; [easy|]. right. cbn [st_archive]. cbn in Hlen. lia.
Qed.

Lemma default_run_length msqrt m M hist : (1 <= M)%nat -> (m + 1 <= M)%nat ->
  let s := arch_run msqrt (default_pruning msqrt m M) arch_init hist in
  (length (st_archive s) < M \/ length (st_archive s) <= 3 * m)%nat.
Proof.
  intros H1 Hm. induction hist as [|t hist IH] using rev_ind; cbn [arch_run].
  - cbn. lia.
  - rewrite run_app. cbn [arch_run].
    destruct (arch_tell _ _ _ t) as [s' r] eqn:E. cbn.
    apply (default_pruning_length _ _ _ _ _ _ _ Hm E).
Qed.

Lemma default_bounded msqrt nw d m M : (0 < d)%Z -> sensible_default nw d = (m, M) ->
  forall hist,
  let s := arch_run msqrt (default_pruning msqrt (Z.to_nat m) (Z.to_nat M)) arch_init hist in
  (Z.of_nat (length (st_archive s)) < M \/ Z.of_nat (length (st_archive s)) <= 3 * m)%Z /\
  (Z.of_nat (length (st_archive s)) <= M)%Z.
Proof.
  intros Hd E hist s. pose proof (sensible_default_bounds _ _ _ _ Hd E).
  pose proof (default_run_length msqrt (Z.to_nat m) (Z.to_nat M) hist ltac:(lia) ltac:(lia)) as Hb.
  fold s in Hb. cbn zeta in Hb. lia.
Qed.

Lemma default_never_fails msqrt m M s t : (m + 1 <= M)%nat ->
  snd (arch_tell msqrt (default_pruning msqrt m M) s t) = Ok tt.
Proof.
  intros H. destruct (arch_tell msqrt (default_pruning msqrt m M) s t) as [s' r] eqn:E.
  exact (proj1 (default_pruning_length _ _ _ _ _ _ _ H E)).
Qed.

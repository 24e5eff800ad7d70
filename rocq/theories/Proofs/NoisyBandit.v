(** Proofs for NoisyBandit. *)
From Coq Require Import List Arith ZArith QArith Bool Lia Lqa.
From Verif.Model Require Import Prelude MultiValue Pruning Archive NoisyBandit.
From Verif.Spec Require Import MultiValue Pruning Archive NoisyBandit.
From Verif.Proofs Require Import Prelude MultiValue Pruning Archive.
Import ListNotations.
Local Open Scope nat_scope.

(** counts over an extended history *)
Lemma asks_app a b : asks (a ++ b) = asks a + asks b.
Proof. unfold asks. now rewrite filter_app, app_length. Qed.
Lemma tells_app a b : tells (a ++ b) = tells a ++ tells b.
Proof. unfold tells. apply flat_map_app. Qed.
Lemma draws_app a b : draws (a ++ b) = draws a ++ draws b.
Proof. unfold draws. apply flat_map_app. Qed.

(** statistics without the candidate *)
Definition strip (m : mv) : mv := MV (mv_count m) (mv_mean m) (mv_min m) (mv_square m) (mv_var m) 0.

Lemma strip_add msqrt y m : strip (mv_add msqrt y m) = mv_add msqrt y (strip m).
Proof. reflexivity. Qed.
Lemma strip_est msqrt n m : mv_est msqrt n (strip m) = mv_est msqrt n m.
Proof. destruct n; reflexivity. Qed.
Lemma eval_snoc msqrt c y ys z : mv_eval msqrt c y (ys ++ [z]) = mv_add msqrt z (mv_eval msqrt c y ys).
Proof. unfold mv_eval. now rewrite fold_left_app. Qed.

Section NB.
  Variable msqrt : Q -> Q.
  Variable pruning : list mv -> list (nat * nat) -> result (list (nat * nat)).
  Hypothesis Hprune : sub_pruning pruning.
  Notation tell := (arch_tell msqrt pruning).
  Notation run := (nb_run msqrt pruning).
  Notation step := (nb_step msqrt pruning).

  Lemma run_snoc es : forall e s, run (es ++ [e]) s =
    bind (run es s) (fun '(os, s1) => bind (step e s1) (fun '(o, s2) => Ok (os ++ [o], s2))).
  Proof.
    induction es as [|x es IH]; intros e s; cbn [app nb_run bind].
    - destruct (step e s) as [[o s']|]; reflexivity.
    - destruct (step x s) as [[o s']|]; cbn [bind]; [|reflexivity].
      rewrite IH. destruct (run es s') as [[os s1]|]; cbn [bind]; [|reflexivity].
      destruct (step e s1) as [[o2 s2]|]; reflexivity.
  Qed.

  (** objects after the update of the archive: their candidate *)
  Lemma put_param c key y s h a id re : archive_put msqrt c key y s = (h, a, id, re) ->
    (forall p, In p (st_archive s) -> (snd p < length (st_heap s))) ->
    forall i, i < length h -> (i = id /\ mv_param (hget h i) = c) \/
      (i < length (st_heap s) /\ mv_param (hget h i) = mv_param (hget (st_heap s) i)).
  Proof.
    unfold archive_put. intros E Hv. destruct (dget key (st_archive s)) as [j|] eqn:Ej.
    - apply dget_some_in in Ej. specialize (Hv _ Ej). cbn in Hv.
      cbn zeta in E. remember (mv_add msqrt y (hget (st_heap s) j)) as m eqn:Em.
      assert (Hm : mv_param m = mv_param (hget (st_heap s) j)) by (subst; reflexivity).
      intros i Hi.
      match type of E with (hset _ _ ?mm, _, _, _) = _ => set (m' := mm) in E end.
      assert (Hm' : mv_param m' = c \/ mv_param m' = mv_param m).
      { subst m'. destruct (dget (mv_param m) _); [|now right].
        destruct (dget c _); [|now right]. destruct (qlt _ _); [now left|now right]. }
      injection E as <- <- <- <-. rewrite hset_length in Hi.
      destruct (Nat.eq_dec i j) as [->|Hne].
      + rewrite hget_hset_same by exact Hi. destruct Hm' as [->| ->]; [now left|]. right. now rewrite Hm.
      + rewrite hget_hset_other by congruence. now right.
    - injection E as <- <- <- <-. intros i Hi. rewrite app_length in Hi. cbn in Hi.
      destruct (Nat.eq_dec i (length (st_heap s))) as [->|Hne].
      + left. now rewrite hget_new.
      + right. split; [lia|]. rewrite hget_old by lia. reflexivity.
  Qed.

  (** invariant, whatever the pruning *)
  Record ginv (os : list nb_obs) (s : nb_state) : Prop := {
    g_inv8 : inv8 msqrt (nb_arch s);
    g_asks : nb_asks s = asks os;
    g_arch : forall p, In p (st_archive (nb_arch s)) -> In (fst p) (map t_key (tells os));
    g_heap : forall i, i < length (st_heap (nb_arch s)) -> exists k,
      nth_error (nb_data s) (mv_param (hget (st_heap (nb_arch s)) i)) = Some k /\
      In k (map t_key (tells os)) }.

  Lemma ginv_init : ginv [] nb_init.
  Proof. constructor; cbn; try easy; lia. Qed.

  (** effect of one tell on archive and objects *)
  Lemma ginv_tell os s uid key y data n : ginv os s ->
    nth_error data uid = Some key ->
    (forall i k, nth_error (nb_data s) i = Some k -> nth_error data i = Some k) ->
    n = asks os ->
    ginv (os ++ [Told uid key y]) (NB (fst (tell (nb_arch s) (uid, key, y))) n data).
  Proof.
    intros [H8 Ha Har Hh] Hd Hold ->. cbn [arch_tell].
    set (s0 := ArchSt _ _ _ _).
    assert (H80 : inv8 msqrt s0) by now apply inv8_setloss.
    destruct (update_archive msqrt pruning uid key y s0) as [s' r] eqn:E. cbn [fst].
    pose proof (inv8_update msqrt pruning Hprune _ _ _ _ _ _ H80 E) as H8'.
    destruct (update_shape msqrt pruning Hprune _ _ _ _ _ _ H80 E)
      as (h & a & id & re & Ep & Hp & Hhe & Hsub & Hbe & Hlo).
    assert (Hin : forall k, In k (map t_key (tells os)) \/ k = key ->
                  In k (map t_key (tells (os ++ [Told uid key y])))).
    { intros k Hk. rewrite tells_app, map_app, in_app_iff. cbn. destruct Hk; [now left|right; now left]. }
    constructor; cbn [nb_arch nb_asks nb_data]; [exact H8'| | |].
    - rewrite asks_app. cbn. lia.
    - intros p Hpin. apply (sublist_in _ _ _ Hsub) in Hpin. apply Hin.
      destruct (ps_entries _ _ _ _ _ _ Hp _ Hpin) as [->|Hpin']; [now right|left; now apply Har].
    - rewrite Hhe. intros i Hi.
      destruct (put_param _ _ _ _ _ _ _ _ Ep (i8_arch _ _ H80) i Hi) as [(-> & ->)|(Hlt & ->)].
      + exists key. split; [exact Hd|]. apply Hin. now right.
      + destruct (Hh i Hlt) as (k & Hk1 & Hk2). exists k. split; [now apply Hold|]. apply Hin. now left.
  Qed.

  Lemma nth_error_snoc {A} (l : list A) x : nth_error (l ++ [x]) (length l) = Some x.
  Proof. rewrite nth_error_app2, Nat.sub_diag by lia. reflexivity. Qed.
  Lemma nth_error_ext {A} (l l2 : list A) i x : nth_error l i = Some x -> nth_error (l ++ l2) i = Some x.
  Proof.
    intros H. rewrite nth_error_app1; [exact H|]. apply nth_error_Some. congruence.
  Qed.

  Lemma ginv_step os s e o s' : ginv os s -> step e s = Ok (o, s') -> ginv (os ++ [o]) s'.
  Proof.
    intros G E. destruct e as [r|uid y|key y]; cbn [nb_step] in E.
    - unfold nb_ask in E. destruct (nb_internal_ask r s) as [[src key]|]; [|discriminate].
      cbn [bind] in E. injection E as <- <-. destruct G as [H8 Ha Har Hh].
      constructor; cbn [nb_arch nb_asks nb_data]; [exact H8| | |].
      + rewrite asks_app. cbn. lia.
      + intros p Hp. rewrite tells_app. cbn. rewrite app_nil_r. now apply Har.
      + intros i Hi. destruct (Hh i Hi) as (k & Hk1 & Hk2). exists k.
        split; [now apply nth_error_ext|]. rewrite tells_app. cbn. now rewrite app_nil_r.
    - unfold nb_tell in E.
      destruct (nth_error (nb_data s) uid) as [key|] eqn:Ek; [|discriminate].
      cbn [bind] in E. injection E as <- <-.
      apply ginv_tell; auto. apply G.
    - injection E as <- <-. unfold nb_tell_new. apply ginv_tell; auto.
      + apply nth_error_snoc.
      + intros i k. apply nth_error_ext.
      + apply G.
  Qed.

  Lemma ginv_run es : forall os s, run es nb_init = Ok (os, s) -> ginv os s.
  Proof.
    induction es as [|e es IH] using rev_ind; intros os s E.
    - injection E as <- <-. apply ginv_init.
    - rewrite run_snoc in E. destruct (run es nb_init) as [[os1 s1]|]; [|discriminate].
      cbn [bind] in E. destruct (step e s1) as [[o s2]|] eqn:Es; [|discriminate].
      cbn [bind] in E. injection E as <- <-. eapply ginv_step; [|exact Es]. now apply IH.
  Qed.

  (** asking never fails, and proposes a new draw or a told point *)
  Lemma ask_total es os s r : run es nb_init = Ok (os, s) ->
    (st_archive (nb_arch s) <> [] -> r_idx r < length (st_archive (nb_arch s))) ->
    exists src key s', nb_ask r s = Ok (src, key, s') /\
      match src with New => key = r_draw r | _ => In key (map t_key (tells os)) end.
  Proof.
    intros E Hr. destruct (ginv_run es os s E) as [H8 Ha Har Hh].
    unfold nb_ask, nb_internal_ask. destruct (Nat.leb_spec (length (st_archive (nb_arch s)) ^ 3) (20 * nb_asks s)) as [Hle|Hlt].
    - cbn [bind]. do 3 eexists. split; reflexivity.
    - assert (Hne : st_archive (nb_arch s) <> []) by (intros H; rewrite H in Hlt; cbn in Hlt; lia).
      specialize (Hr Hne). destruct (r_coin r).
      + destruct (nth_error _ (r_idx r)) as [[key id]|] eqn:En.
        * cbn [bind]. do 3 eexists. split; [reflexivity|]. apply nth_error_In in En.
          exact (Har _ En).
        * apply nth_error_None in En. lia.
      + destruct (st_archive (nb_arch s)) as [|p a] eqn:Ea; [easy|].
        destruct (i8_min _ _ H8 Optimistic p) as (b & Eb & _); [rewrite Ea; now left|].
        rewrite Eb. destruct (Hh b (i8_bests _ _ H8 _ _ Eb)) as (k & Hk1 & Hk2).
        rewrite Hk1. cbn [bind]. do 3 eexists. split; [reflexivity|exact Hk2].
  Qed.
End NB.

Lemma no_pruning_sub : sub_pruning no_pruning.
Proof. intros h a a' [= <-]. apply sublist_refl. Qed.

(** * Without pruning *)
Lemma draws_split os : draws os = [] \/
  exists pre k post, os = pre ++ Asked New k :: post /\ draws post = [].
Proof.
  induction os as [|o os IH]; [now left|].
  destruct IH as [IH|(pre & k & post & -> & H)].
  - destruct o as [[] k|]; [right; exists [], k, os; auto|left; exact IH..].
  - right. exists (o :: pre), k, post. auto.
Qed.

Lemma filter_two {A} (f : A -> bool) l : length (filter f l) + length (filter (fun x => if f x then false else true) l) = length l.
Proof. induction l as [|x l IH]; cbn; [reflexivity|]. destruct (f x); cbn; lia. Qed.

Lemma draws_snoc os k : draws (os ++ [Asked New k]) = draws os ++ [k].
Proof. rewrite draws_app. reflexivity. Qed.

Lemma fresh_prefix a b : fresh_draws (a ++ b) -> fresh_draws a.
Proof. intros H pre post k ->. apply (H pre (post ++ b) k). now rewrite <- app_assoc. Qed.

Lemma fresh_nodup os : fresh_draws os -> NoDup (draws os).
Proof.
  induction os as [|o os IH] using rev_ind; intros H; [constructor|].
  pose proof (IH (fresh_prefix _ _ H)) as IH'. rewrite draws_app.
  destruct o as [[] k|]; cbn; rewrite ?app_nil_r; auto.
  apply NoDup_rev in IH'. rewrite <- (rev_involutive (draws os ++ [k])). apply NoDup_rev.
  rewrite rev_app_distr. cbn. constructor; [|exact IH'].
  rewrite <- in_rev. apply (H os [] k eq_refl).
Qed.

Lemma first_occ_len_app l : forall m, length (first_occurrences l) <= length (first_occurrences (l ++ m)).
Proof.
  intros m. apply NoDup_incl_length; [apply first_occ_nodup|].
  intros x Hx. apply (proj2 (first_occ_in _ _)). apply (proj1 (first_occ_in _ _)) in Hx. apply in_app_iff. now left.
Qed.

Lemma arms_mono a b : length (arms a) <= length (arms (a ++ b)).
Proof. unfold arms. rewrite tells_app, map_app. apply first_occ_len_app. Qed.

Lemma waiting_snoc os k : ~ In k (map t_key (tells os)) ->
  waiting (os ++ [Asked New k]) = waiting os ++ [k].
Proof.
  intros Hk. unfold waiting. rewrite draws_snoc, tells_app. cbn [tells flat_map app]. rewrite app_nil_r.
  rewrite filter_app. cbn. destruct (in_dec _ _ _); [easy|reflexivity].
Qed.

Lemma evaluated_draws os : NoDup (draws os) -> length (draws os) <= length (arms os) + length (waiting os).
Proof.
  intros Hn. unfold waiting.
  set (f := fun k => if in_dec Nat.eq_dec k (map t_key (tells os)) then false else true).
  rewrite <- (filter_two f (draws os)).
  assert (length (filter (fun x => if f x then false else true) (draws os)) <= length (arms os)); [|lia].
  apply NoDup_incl_length; [now apply NoDup_filter|].
  intros k Hk. apply filter_In in Hk as (_ & Hk). unfold arms. apply first_occ_in.
  unfold f in Hk. destruct (in_dec _ _ _); [assumption|discriminate].
Qed.

Section Keep.
  Variable msqrt : Q -> Q.
  Notation tell := (arch_tell msqrt no_pruning).
  Notation run := (nb_run msqrt no_pruning).
  Notation step := (nb_step msqrt no_pruning).

  Definition same_stats (m : mv) (l : list Q) : Prop :=
    exists y ys, l = y :: ys /\ strip m = mv_eval msqrt 0 y ys.

  Record ninv (os : list nb_obs) (s : nb_state) : Prop := {
    n_ginv : ginv msqrt os s;
    n_keys : map fst (st_archive (nb_arch s)) = arms os;
    n_ids : map snd (st_archive (nb_arch s)) = seq 0 (length (st_heap (nb_arch s)));
    n_stats : forall k id, In (k, id) (st_archive (nb_arch s)) ->
      same_stats (hget (st_heap (nb_arch s)) id) (losses_of k (tells os)) /\
      nth_error (nb_data s) (mv_param (hget (st_heap (nb_arch s)) id)) = Some k }.

  Lemma ninv_init : ninv [] nb_init.
  Proof. constructor; cbn; [apply ginv_init|easy..]. Qed.

  Lemma arms_ask os src k : arms (os ++ [Asked src k]) = arms os.
  Proof. unfold arms. rewrite tells_app. cbn. now rewrite app_nil_r. Qed.
  Lemma arms_told os uid k y : arms (os ++ [Told uid k y]) =
    if existsb (Nat.eqb k) (map t_key (tells os)) then arms os else arms os ++ [k].
  Proof.
    unfold arms. rewrite tells_app, map_app. cbn [map tells flat_map app t_key fst snd].
    rewrite first_occ_snoc. destruct (existsb _ _); [now rewrite ?app_nil_r|reflexivity].
  Qed.

  Lemma ids_inj (a : list (nat * nat)) n k1 k2 i : map snd a = seq 0 n -> In (k1, i) a -> In (k2, i) a -> k1 = k2.
  Proof.
    intros Hs. assert (Hn : NoDup (map snd a)) by (rewrite Hs; apply seq_NoDup). clear Hs.
    induction a as [|[k j] a IH]; [easy|]. cbn in Hn. inversion Hn; subst.
    intros [E1|H3] [E2|H4]; auto.
    - congruence.
    - injection E1 as -> ->. apply (in_map snd) in H4. easy.
    - injection E2 as -> ->. apply (in_map snd) in H3. easy.
  Qed.

  Lemma ninv_tell os s uid key y data : ninv os s ->
    nth_error data uid = Some key ->
    (forall i k, nth_error (nb_data s) i = Some k -> nth_error data i = Some k) ->
    ninv (os ++ [Told uid key y]) (NB (fst (tell (nb_arch s) (uid, key, y))) (asks os) data).
  Proof.
    intros [G Hk Hids Hs] Hd Hold.
    assert (G' := ginv_tell msqrt no_pruning no_pruning_sub os s uid key y data (asks os) G Hd Hold eq_refl).
    constructor; [exact G'| | |]; clear G'; cbn [nb_arch nb_data arch_tell].
    - unfold update_archive, archive_put. cbn [st_archive st_heap st_bests st_loss].
      rewrite arms_told.
      destruct (dget key (st_archive (nb_arch s))) as [id|] eqn:E; cbn [no_pruning fst st_archive].
      + apply dget_some_in in E. apply (in_map fst) in E. cbn in E. rewrite Hk in E.
        unfold arms in E. apply (proj1 (first_occ_in _ _)) in E.
        assert (Hex : existsb (Nat.eqb key) (map t_key (tells os)) = true) by now apply existsb_eqb_in.
        rewrite Hex. exact Hk.
      + destruct (existsb _ _) eqn:Hex.
        * apply existsb_eqb_in in Hex. unfold arms in Hk. apply (proj2 (first_occ_in _ _)) in Hex. rewrite <- Hk in Hex.
          apply dget_none in E. easy.
        * rewrite map_app. cbn. now rewrite Hk.
    - unfold update_archive, archive_put. cbn [st_archive st_heap st_bests st_loss].
      assert (Hlen : length (st_archive (nb_arch s)) = length (st_heap (nb_arch s))).
      { rewrite <- (map_length snd), Hids. apply seq_length. }
      destruct (dget key (st_archive (nb_arch s))) as [id|] eqn:E; cbn [no_pruning fst st_archive st_heap].
      + rewrite hset_length. exact Hids.
      + rewrite map_app, Hids, app_length. cbn. rewrite Nat.add_1_r, seq_S. reflexivity.
    - intros k id Hin.
      unfold update_archive, archive_put in *. cbn [st_archive st_heap st_bests st_loss] in *.
      rewrite tells_app. cbn [tells flat_map app]. rewrite losses_of_snoc. cbn [t_key t_loss fst snd].
      destruct (dget key (st_archive (nb_arch s))) as [j|] eqn:E; cbn [no_pruning fst st_archive st_heap] in *.
      + apply dget_some_in in E.
        assert (Hj : j < length (st_heap (nb_arch s))) by exact (i8_arch _ _ (g_inv8 _ _ _ G) _ E).
        destruct (Nat.eq_dec id j) as [->|Hne].
        * assert (k = key) by (eapply ids_inj; eauto). subst k. rewrite Nat.eqb_refl.
          rewrite hget_hset_same by exact Hj.
          destruct (Hs key j E) as ((y0 & ys & El & Est) & Hpar).
          cbn zeta. remember (mv_add msqrt y (hget (st_heap (nb_arch s)) j)) as m eqn:Em.
          assert (Hsm : strip m = mv_eval msqrt 0 y0 (ys ++ [y])).
          { subst m. rewrite strip_add, Est, eval_snoc. reflexivity. }
          assert (Hpm : nth_error (nb_data s) (mv_param m) = Some key) by (subst m; exact Hpar).
          split.
          -- exists y0, (ys ++ [y]). split; [rewrite El; reflexivity|]. rewrite <- Hsm.
             destruct (dget (mv_param m) _); [|reflexivity]. destruct (dget uid _); [|reflexivity].
             destruct (qlt _ _); reflexivity.
          -- destruct (dget (mv_param m) _); [|now apply Hold]. destruct (dget uid _); [|now apply Hold].
             destruct (qlt _ _); [exact Hd|now apply Hold].
        * rewrite hget_hset_other by congruence.
          assert (key <> k).
          { intros ->. apply Hne.
            assert (Hnd : NoDup (map fst (st_archive (nb_arch s)))) by (rewrite Hk; apply first_occ_nodup).
            pose proof (dget_in_nodup _ _ _ Hnd E). pose proof (dget_in_nodup _ _ _ Hnd Hin). congruence. }
          destruct (Nat.eqb_spec key k); [congruence|]. rewrite app_nil_r.
          destruct (Hs k id Hin) as (H1 & H2). split; [exact H1|now apply Hold].
      + apply in_app_iff in Hin as [Hin|[[= <- <-]|[]]].
        * assert (Hj : id < length (st_heap (nb_arch s))) by exact (i8_arch _ _ (g_inv8 _ _ _ G) _ Hin).
          rewrite hget_old by exact Hj.
          assert (key <> k).
          { intros ->. apply dget_none in E. apply E. exact (in_map fst _ _ Hin). }
          destruct (Nat.eqb_spec key k); [congruence|]. rewrite app_nil_r.
          destruct (Hs k id Hin) as (H1 & H2). split; [exact H1|now apply Hold].
        * rewrite hget_new, Nat.eqb_refl.
          assert (El : losses_of key (tells os) = []).
          { apply losses_of_nil. intros Hin. apply dget_none in E. apply E. unfold dkeys. rewrite Hk. now apply first_occ_in. }
          rewrite El. split; [|exact Hd]. exists y, []. split; reflexivity.
  Qed.

  Lemma ninv_step os s e o s' : ninv os s -> step e s = Ok (o, s') -> ninv (os ++ [o]) s'.
  Proof.
    intros N E.
    pose proof (g_asks _ _ _ (n_ginv _ _ N)) as Ha.
    destruct e as [r|uid y|key y].
    - pose proof (ginv_step msqrt no_pruning no_pruning_sub _ _ _ _ _ (n_ginv _ _ N) E) as G'.
      cbn [nb_step] in E. unfold nb_ask in E. destruct (nb_internal_ask r s) as [[src key]|]; [|discriminate].
      cbn [bind] in E. injection E as <- <-. destruct N as [G Hk Hids Hs].
      constructor; cbn [nb_arch nb_asks nb_data]; [exact G'|now rewrite arms_ask|exact Hids|].
      intros k id Hin. destruct (Hs k id Hin) as (H1 & H2).
      rewrite tells_app. cbn. rewrite app_nil_r. split; [exact H1|now apply nth_error_ext].
    - cbn [nb_step] in E. unfold nb_tell in E.
      destruct (nth_error (nb_data s) uid) as [key|] eqn:Ek; [|discriminate].
      cbn [bind] in E. injection E as <- <-. rewrite Ha. now apply ninv_tell.
    - injection E as <- <-. unfold nb_tell_new. rewrite Ha. apply ninv_tell; auto.
      + apply nth_error_snoc.
      + intros i k. apply nth_error_ext.
  Qed.

  Lemma ninv_run es : forall os s, run es nb_init = Ok (os, s) -> ninv os s.
  Proof.
    induction es as [|e es IH] using rev_ind; intros os s E.
    - injection E as <- <-. apply ninv_init.
    - rewrite run_snoc in E. destruct (run es nb_init) as [[os1 s1]|]; [|discriminate].
      cbn [bind] in E. destruct (step e s1) as [[o s2]|] eqn:Es; [|discriminate].
      cbn [bind] in E. injection E as <- <-. eapply ninv_step; [|exact Es]. now apply IH.
  Qed.

  (** one observed ask *)
  Lemma ask_observed os s r src k s' : ninv os s -> step (EAsk r) s = Ok (Asked src k, s') ->
    match src with
    | New => length (arms os) ^ 3 <= 20 * asks os /\ k = r_draw r
    | Arm => 20 * asks os < length (arms os) ^ 3 /\ In k (arms os)
    | Best => 20 * asks os < length (arms os) ^ 3 /\ most_promising msqrt os k
    end.
  Proof.
    intros [G Hk Hids Hs] E. destruct G as [H8 Ha Har Hh].
    assert (Hlen : length (st_archive (nb_arch s)) = length (arms os)) by now rewrite <- Hk, map_length.
    assert (Hlen2 : length (st_archive (nb_arch s)) = length (st_heap (nb_arch s))).
    { rewrite <- (map_length snd), Hids. apply seq_length. }
    cbn [nb_step] in E. unfold nb_ask, nb_internal_ask in E. rewrite Hlen, Ha in E.
    destruct (Nat.leb_spec (length (arms os) ^ 3) (20 * asks os)) as [Hle|Hlt].
    - cbn [bind] in E. injection E as <- <- <-. auto.
    - destruct (r_coin r).
      + destruct (nth_error _ (r_idx r)) as [[key id]|] eqn:En; [|discriminate].
        cbn [bind] in E. injection E as <- <- <-. split; [exact Hlt|].
        apply nth_error_In in En. rewrite <- Hk. exact (in_map fst _ _ En).
      + destruct (st_bests (nb_arch s) Optimistic) as [b|] eqn:Eb; [|discriminate].
        destruct (nth_error (nb_data s) _) as [key|] eqn:Ek; [|discriminate].
        cbn [bind] in E. injection E as <- <- <-. split; [exact Hlt|].
        pose proof (i8_bests _ _ H8 _ _ Eb) as Hb.
        assert (Hin : In b (map snd (st_archive (nb_arch s)))) by (rewrite Hids; apply in_seq; lia).
        apply in_map_iff in Hin as ([k0 b0] & E0 & Hin). cbn in E0. subst b0.
        destruct (Hs _ _ Hin) as ((y & ys & El & Est) & Hpar).
        rewrite Ek in Hpar. injection Hpar as <-.
        exists (mv_est msqrt Optimistic (hget (st_heap (nb_arch s)) b)). split.
        * rewrite El. cbn. rewrite <- Est. reflexivity.
        * intros k' e' He'.
          assert (Hk' : In k' (map t_key (tells os))).
          { destruct (in_dec Nat.eq_dec k' (map t_key (tells os))) as [H|H]; [exact H|].
            apply losses_of_nil in H. rewrite H in He'. discriminate. }
          assert (Hk2 : In k' (map fst (st_archive (nb_arch s)))).
          { rewrite Hk. now apply first_occ_in. }
          apply in_map_iff in Hk2 as ([k2 id'] & E2 & Hin2). cbn in E2. subst k2.
          destruct (Hs _ _ Hin2) as ((y' & ys' & El' & Est') & _).
          rewrite El' in He'. cbn [estimate] in He'. injection He' as <-. rewrite <- Est'.
          destruct (i8_min _ _ H8 Optimistic _ Hin2) as (b2 & Eb2 & Hle). rewrite Eb in Eb2. injection Eb2 as <-.
          exact Hle.
  Qed.

  (** every prefix of the observations is the history of a prefix of the events *)
  Lemma run_prefix es : forall os s pre o post, run es nb_init = Ok (os, s) -> os = pre ++ o :: post ->
    exists es1 e s1 s2, run es1 nb_init = Ok (pre, s1) /\ step e s1 = Ok (o, s2).
  Proof.
    induction es as [|e es IH] using rev_ind; intros os s pre o post E Eo.
    - injection E as <- <-. now destruct pre.
    - rewrite run_snoc in E. destruct (run es nb_init) as [[os1 s1]|] eqn:Er; [|discriminate].
      cbn [bind] in E. destruct (step e s1) as [[o1 s2]|] eqn:Es; [|discriminate].
      cbn [bind] in E. apply (f_equal (fun r => match r with Ok (x, _) => x | Err _ => [] end)) in E.
      cbn beta iota in E. rewrite Eo in E. clear Eo.
      destruct post as [|o' post'] using rev_ind.
      + apply app_inj_tail in E as (<- & <-). exists es, e, s1, s2. auto.
      + replace (pre ++ o :: post' ++ [o']) with ((pre ++ o :: post') ++ [o']) in E
          by now rewrite <- app_assoc.
        apply app_inj_tail in E as (E1 & _). eapply IH; [reflexivity|exact E1].
  Qed.

  Lemma asked_event e s src k s' : step e s = Ok (Asked src k, s') -> exists r, e = EAsk r.
  Proof.
    destruct e as [r|uid y|key y]; cbn [nb_step]; intros E; [eauto| |discriminate].
    destruct (nb_tell _ _ _ _ _); [|discriminate]. cbn [bind] in E.
    destruct (nth_error _ _); discriminate.
  Qed.

  Lemma observed es os s : run es nb_init = Ok (os, s) ->
    forall pre src k post, os = pre ++ Asked src k :: post ->
    match src with
    | New => length (arms pre) ^ 3 <= 20 * asks pre
    | Arm => 20 * asks pre < length (arms pre) ^ 3 /\ In k (arms pre)
    | Best => 20 * asks pre < length (arms pre) ^ 3 /\ most_promising msqrt pre k
    end.
  Proof.
    intros E pre src k post Eo.
    destruct (run_prefix _ _ _ _ _ _ E Eo) as (es1 & e & s1 & s2 & E1 & E2).
    destruct (asked_event _ _ _ _ _ E2) as (r & ->).
    pose proof (ask_observed _ _ _ _ _ _ (ninv_run _ _ _ E1) E2) as H.
    destruct src; [apply H|exact H|exact H].
  Qed.

  Lemma draws_bound es os s w : run es nb_init = Ok (os, s) -> fresh_draws os -> at_most_waiting w os ->
    draws os = [] \/ (length (draws os) - w) ^ 3 <= 20 * (asks os - 1).
  Proof.
    intros E Hf Hw. destruct (draws_split os) as [H|(pre & k & post & Eo & Hpost)]; [now left|right].
    pose proof (observed _ _ _ E pre New k post Eo) as Hle. cbn iota in Hle.
    destruct (Hf pre post k Eo) as (_ & Hk2).
    assert (Hd : length (draws os) = length (draws pre) + 1).
    { rewrite Eo. replace (pre ++ Asked New k :: post) with ((pre ++ [Asked New k]) ++ post) by now rewrite <- app_assoc.
      rewrite draws_app, Hpost, app_nil_r, draws_snoc, app_length. reflexivity. }
    assert (Ha : asks pre <= asks os - 1).
    { rewrite Eo, asks_app. cbn. lia. }
    pose proof (Hw (pre ++ [Asked New k]) post) as Hw1. rewrite <- app_assoc in Hw1. specialize (Hw1 Eo).
    rewrite waiting_snoc, app_length in Hw1 by exact Hk2. cbn in Hw1.
    assert (Hn : NoDup (draws pre)).
    { apply fresh_nodup. rewrite Eo in Hf. eapply fresh_prefix. exact Hf. }
    pose proof (evaluated_draws pre Hn) as Hev.
    assert (Hp : (length (draws os) - w) ^ 3 <= length (arms pre) ^ 3) by (apply Nat.pow_le_mono_l; lia).
    lia.
  Qed.

  Lemma starved es os s pre post : run es nb_init = Ok (os, s) -> os = pre ++ post ->
    20 * (asks os - 1) < length (arms pre) ^ 3 -> draws os = draws pre.
  Proof.
    intros E Eo Hlt. destruct (draws_split post) as [H|(p1 & k & p2 & Ep & _)].
    - rewrite Eo, draws_app, H. apply app_nil_r.
    - exfalso. rewrite Ep in Eo.
      pose proof (observed _ _ _ E (pre ++ p1) New k p2) as Hle. rewrite <- app_assoc in Hle.
      specialize (Hle Eo). cbn iota in Hle.
      assert (Ha : asks (pre ++ p1) <= asks os - 1).
      { rewrite Eo, app_assoc, (asks_app (pre ++ p1)). cbn. lia. }
      pose proof (Nat.pow_le_mono_l _ _ 3 (arms_mono pre p1)). lia.
  Qed.

  Lemma rounds_snoc rs : forall u x, nb_rounds u (rs ++ [x]) =
    nb_rounds u rs ++ [EAsk (fst x); ETell (u + length rs) (snd x)].
  Proof.
    induction rs as [|[r l] rs IH]; intros u [r0 l0]; cbn.
    - now rewrite Nat.add_0_r.
    - rewrite IH. cbn. now rewrite <- plus_n_Sm.
  Qed.

  Lemma run_app a : forall b s, run (a ++ b) s =
    bind (run a s) (fun '(os, s1) => bind (run b s1) (fun '(os2, s2) => Ok (os ++ os2, s2))).
  Proof.
    induction a as [|x a IH]; intros b s; cbn [app nb_run bind].
    - destruct (run b s) as [[o s']|]; reflexivity.
    - destruct (step x s) as [[o s']|]; cbn [bind]; [|reflexivity].
      rewrite IH. destruct (run a s') as [[os s1]|]; cbn [bind]; [|reflexivity].
      destruct (run b s1) as [[o2 s2]|]; reflexivity.
  Qed.

  Lemma promising_told os k : most_promising msqrt os k -> In k (map t_key (tells os)).
  Proof.
    intros (e & He & _). destruct (in_dec Nat.eq_dec k (map t_key (tells os))) as [H|H]; [exact H|].
    apply losses_of_nil in H. rewrite H in He. discriminate.
  Qed.

  Lemma cube_step A : 5 <= A -> A ^ 3 + 20 <= (A + 1) ^ 3.
  Proof. intros H. cbn. nia. Qed.

  Lemma cube_small A : 80 < A ^ 3 -> 5 <= A.
  Proof. intros H. destruct (le_lt_dec 5 A); [assumption|]. do 5 (destruct A as [|A]; [cbn in H; lia|]). lia. Qed.

  Lemma sequential rs : forall os s, run (nb_rounds 0 rs) nb_init = Ok (os, s) -> fresh_draws os ->
    let n := length rs in let A := length (arms os) in
    (asks os = n /\ length (nb_data s) = n) /\
    (A - 1) ^ 3 <= 20 * (n - 1) /\ (n <= 5 -> A = n) /\ (5 <= n -> 20 * (n - 1) < A ^ 3).
  Proof.
    induction rs as [|[r y] rs IH] using rev_ind; intros os s E Hf; cbn zeta.
    - injection E as <- <-. cbn. repeat split; lia.
    - rewrite rounds_snoc, run_app in E. cbn [fst snd] in E.
      destruct (run (nb_rounds 0 rs) nb_init) as [[os1 s1]|] eqn:E1; [|discriminate].
      cbn [bind] in E.
      destruct (run [EAsk r; ETell (0 + length rs) y] s1) as [[os2 s2]|] eqn:E2; [|discriminate].
      cbn [bind] in E. injection E as <- <-.
      pose proof (ninv_run _ _ _ E1) as N1.
      cbn [nb_run] in E2.
      destruct (step (EAsk r) s1) as [[o3 s3]|] eqn:E3; [|discriminate]. cbn [bind] in E2.
      destruct (IH os1 s1 eq_refl (fresh_prefix _ _ Hf)) as ((IHa & IHd) & IH1 & IH2 & IH3). clear IH.
      assert (E3' := E3). cbn [nb_step] in E3. unfold nb_ask in E3.
      destruct (nb_internal_ask r s1) as [[src k]|] eqn:Ei; [|discriminate].
      cbn [bind] in E3. injection E3 as <- <-.
      pose proof (ask_observed _ _ _ _ _ _ N1 E3') as Hask.
      destruct (step (ETell (0 + length rs) y) _) as [[o4 s4]|] eqn:E4 in E2; [|discriminate].
      cbn [bind] in E2. injection E2 as <- <-.
      cbn [nb_step nb_data] in E4. unfold nb_tell in E4. cbn [nb_data nb_arch nb_asks] in E4.
      assert (Hnth : nth_error (nb_data s1 ++ [k]) (0 + length rs) = Some k).
      { rewrite <- IHd. apply nth_error_snoc. }
      rewrite Hnth in E4. cbn [bind] in E4. injection E4 as <- <-.
      cbn [nb_data]. rewrite !app_length. cbn [length].
      split.
      { rewrite asks_app. cbn. lia. }
      assert (Harm : length (arms (os1 ++ [Asked src k; Told (0 + length rs) k y])) =
                     match src with New => length (arms os1) + 1 | _ => length (arms os1) end).
      { replace (os1 ++ [Asked src k; Told (0 + length rs) k y])
          with ((os1 ++ [Asked src k]) ++ [Told (0 + length rs) k y]) by now rewrite <- app_assoc.
        rewrite arms_told, arms_ask, tells_app. cbn [tells flat_map app]. rewrite app_nil_r.
        destruct src.
        - destruct (Hf os1 [Told (0 + length rs) k y] k eq_refl) as (_ & Hk).
          destruct (existsb _ _) eqn:Ex; [apply existsb_eqb_in in Ex; easy|]. rewrite app_length. reflexivity.
        - destruct Hask as (_ & Hk). unfold arms in Hk. apply (proj1 (first_occ_in _ _)) in Hk.
          apply existsb_eqb_in in Hk. now rewrite Hk.
        - destruct Hask as (_ & Hk). apply promising_told in Hk. apply existsb_eqb_in in Hk. now rewrite Hk. }
      cbn [length app Nat.add] in Harm |- *. rewrite Harm. rewrite IHa in Hask. clear Harm. set (A := length (arms os1)) in *. set (n := length rs) in *.
      clearbody A n. clear - Hask IH1 IH2 IH3.
      assert (Hcase : (src = New /\ A ^ 3 <= 20 * n) \/ (match src with New => False | _ => True end /\ 20 * n < A ^ 3)).
      { destruct src; [left; tauto|right; tauto..]. }
      destruct Hcase as [(-> & Hle)|(Hs & Hlt)].
      + split; [|split].
        * replace (A + 1 - 1) with A by lia. replace (n + 1 - 1) with n by lia. exact Hle.
        * intros H. rewrite IH2 by lia. reflexivity.
        * intros H. replace (n + 1 - 1) with n by lia.
          destruct (le_lt_dec 5 n) as [H5|H5].
          -- specialize (IH3 H5). assert (HA : 5 <= A) by (apply cube_small; lia).
             pose proof (cube_step A HA). lia.
          -- rewrite IH2 by lia. assert (n = 4) by lia. subst n. cbn. lia.
      + assert (HA : match src with New => A + 1 | _ => A end = A) by (destruct src; easy).
        rewrite HA. split; [|split].
        * lia.
        * intros H. assert (A = n) by (apply IH2; lia). subst A.
          do 5 (destruct n as [|n]; [cbn in Hlt; lia|]). lia.
        * intros H. replace (n + 1 - 1) with n by lia. exact Hlt.
  Qed.
End Keep.

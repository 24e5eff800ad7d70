From Coq Require Import List Arith Lia QArith Lqa Bool.
From Verif.Model Require Import Prelude MultiValue Spsa.
From Verif.Spec Require Import Spsa.
From Verif.Proofs Require Import MultiValue.
Import ListNotations.
Open Scope nat_scope.

Lemma zipw_length f x y : length (zipw f x y) = Nat.min (length x) (length y).
Proof. unfold zipw. rewrite map_length. apply combine_length. Qed.
Lemma zipw_nth f x y : forall i u v, nth_error x i = Some u -> nth_error y i = Some v -> nth_error (zipw f x y) i = Some (f u v).
Proof.
  unfold zipw. revert y. induction x as [|a x IH]; intros [|b y] [|i] u v Hu Hv; try discriminate; cbn in *.
  - injection Hu as ->. injection Hv as ->. reflexivity.
  - auto.
Qed.
Lemma zipw_on_line f x y coef : length y = length x -> (forall u v, f u v == u + coef * v)%Q -> on_line x coef y (zipw f x y).
Proof.
  intros L H. split; [rewrite zipw_length; lia|]. intros i b v z Hb Hv Hz. rewrite (zipw_nth f x y i b v Hb Hv) in Hz. injection Hz as <-. apply H.
Qed.

Section Run.
  Variables (a c : nat -> Q) (d : nat).
  Hypothesis Hc : forall j, ~ (c j == 0)%Q.

  Lemma even_half j : (2 * j) mod 2 = 0 /\ (2 * j) / 2 = j.
  Proof. split; [rewrite Nat.mul_comm; apply Nat.mod_mul; lia|rewrite Nat.mul_comm; apply Nat.div_mul; lia]. Qed.
  Lemma odd_half j : S (2 * j) mod 2 = 1 /\ S (2 * j) / 2 = j.
  Proof.
    replace (S (2 * j)) with (1 + j * 2) by lia. split; [rewrite Nat.mod_add; [reflexivity|lia]|rewrite Nat.div_add; [reflexivity|lia]].
  Qed.

  (** the average of the centres computed so far *)
  Definition avg_ok (n : nat) (pts : list (list Q)) (m : list Q) : Prop :=
    length pts = n /\ mean_of d pts m /\ forall p, In p pts -> length p = d.

  (** state between rounds; [j] rounds done, [pts] the centres, of which the last but one was used in the last round *)
  Inductive between (t0 : list Q) : nat -> spsa -> list (list Q) -> Prop :=
  | between_0 : t0 = repeat 0%Q d -> between t0 0 (spsa_init d) [t0]
  | between_S : forall j dl ym yp t avg pts t',
      length dl = d -> avg_ok (S j) pts avg -> length t = d ->
      (exists pre, pts = pre ++ [t]) ->
      t' = zipw (fun t delta => t - (a (S j) * (yp - ym) / 2 / c (S j)) * delta)%Q t dl ->
      between t0 (S j) (Spsa (2 * S j) false (Some dl) (Some ym) (Some yp) (Some t) (Some avg)) (pts ++ [t']).

  Lemma avg_step n pts m t' : avg_ok n pts m -> length t' = d ->
    avg_ok (S n) (pts ++ [t']) (zipw (fun avg t => avg + (t - avg) / qnat (S n))%Q m t').
  Proof.
    intros (L & (Lm & M) & P) Lt. split; [rewrite app_length, L; cbn; lia|]. split; [split|].
    - rewrite zipw_length, Lm, Lt. apply Nat.min_id.
    - intros i y E. destruct (nth_error m i) as [u|] eqn:Eu; [|apply nth_error_None in Eu; exfalso; assert (nth_error (zipw (fun avg t => avg + (t - avg) / qnat (S n))%Q m t') i <> None) as X by congruence; apply nth_error_Some in X; rewrite zipw_length in X; lia].
      destruct (nth_error t' i) as [v|] eqn:Ev; [|apply nth_error_None in Ev; exfalso; assert (nth_error (zipw (fun avg t => avg + (t - avg) / qnat (S n))%Q m t') i <> None) as X by congruence; apply nth_error_Some in X; rewrite zipw_length in X; lia].
      rewrite (zipw_nth _ _ _ _ _ _ Eu Ev) in E. injection E as <-.
      specialize (M i u Eu). rewrite map_app. cbn [map].
      assert (F : forall l x, (fold_right Qplus 0 (l ++ [x]) == fold_right Qplus 0 l + x)%Q).
      { induction l as [|z l IH]; intros x; cbn [app fold_right]; [ring|]. rewrite IH. ring. }
      rewrite F, <- M. rewrite app_length, L. cbn [length].
      rewrite (nth_error_nth t' i 0%Q Ev). replace (n + 1) with (S n) by lia.
      fold (qnat (S n)) (qnat n). pose proof (qnat_nonneg n). rewrite qnat_S. field. lra.
    - intros p Hp. apply in_app_iff in Hp as [Hp|[<-|[]]]; auto.
  Qed.

  Lemma zero_avg : avg_ok 1 [repeat 0%Q d] (repeat 0%Q d).
  Proof.
    split; [reflexivity|]. split; [split; [apply repeat_length|]|].
    - intros i y E. cbn [map fold_right length]. rewrite (nth_error_nth _ i 0%Q E). pose proof (nth_error_In _ _ E) as I.
      apply repeat_spec in I. subst y. reflexivity.
    - intros p [<-|[]]. apply repeat_length.
  Qed.

  (** the asks and tells of one round *)
  Lemma round_step t0 j s pts dir : between t0 j s pts -> length dir = d ->
    exists t x1 s1, spsa_ask a c dir s = Ok (Some x1, s1) /\ last pts [] = t /\ length t = d /\
      on_line t (- c j) dir x1 /\ (exists m, spsa_recommend s1 = Some m /\ avg_ok (S j) pts m) /\
      forall m dir', exists x2, spsa_ask a c dir' (spsa_tell m s1) = Ok (Some x2, spsa_tell m s1) /\ on_line t (c j) dir x2 /\
        spsa_recommend (spsa_tell m s1) = spsa_recommend s1 /\
        forall p, exists t', on_line t (- (a (S j) * ((p - m) / (2 * c (S j)))))%Q dir t' /\ length t' = d /\
          between t0 (S j) (spsa_tell p (spsa_tell m s1)) (pts ++ [t']).
  Proof.
    intros B Ld. destruct (even_half j) as (Ee & Eh). destruct (odd_half j) as (Oe & Oh).
    assert (Main : forall s t avg ini ym yp, length t = d -> last pts [] = t -> (exists pre, pts = pre ++ [t]) -> avg_ok (S j) pts avg ->
      spsa_ask a c dir s = Ok (Some (zipw (fun t delta => t - c j * delta)%Q t dir), Spsa (2 * j) ini (Some dir) ym yp (Some t) (Some avg)) ->
      (ini = true -> yp = None) ->
      exists t x1 s1, spsa_ask a c dir s = Ok (Some x1, s1) /\ last pts [] = t /\ length t = d /\
      on_line t (- c j) dir x1 /\ (exists m, spsa_recommend s1 = Some m /\ avg_ok (S j) pts m) /\
      forall m dir', exists x2, spsa_ask a c dir' (spsa_tell m s1) = Ok (Some x2, spsa_tell m s1) /\ on_line t (c j) dir x2 /\
        spsa_recommend (spsa_tell m s1) = spsa_recommend s1 /\
        forall p, exists t', on_line t (- (a (S j) * ((p - m) / (2 * c (S j)))))%Q dir t' /\ length t' = d /\
          between t0 (S j) (spsa_tell p (spsa_tell m s1)) (pts ++ [t'])).
    { clear s B. intros s t avg ini ym yp Lt La Pre A E Hini. eexists t, _, _. split; [exact E|]. split; [exact La|]. split; [exact Lt|].
      split; [apply zipw_on_line; [congruence|intros; ring]|]. split; [exists avg; split; [reflexivity|exact A]|].
      intros m dir'. exists (zipw (fun t delta => t + c j * delta)%Q t dir).
      assert (Em : spsa_tell m (Spsa (2 * j) ini (Some dir) ym yp (Some t) (Some avg)) =
        Spsa (S (2 * j)) ini (Some dir) (Some m) yp (Some t) (Some avg) \/
        spsa_tell m (Spsa (2 * j) ini (Some dir) ym yp (Some t) (Some avg)) =
        Spsa (S (2 * j)) false (Some dir) (Some m) yp (Some t) (Some avg)).
      { unfold spsa_tell. cbn [sp_idx sp_yp sp_ym sp_init sp_delta sp_t sp_avg]. rewrite Ee. cbn [Nat.eqb].
        destruct ini; [rewrite Hini by reflexivity|]; auto. }
      split; [|split; [apply zipw_on_line; [congruence|intros; ring]|split; [reflexivity|]]].
      - unfold spsa_ask. destruct Em as [-> | ->]; cbn [sp_idx sp_t sp_delta]; rewrite Oe; cbn [Nat.eqb arr2]; unfold ck; rewrite Oh; reflexivity.
      - intros p. exists (zipw (fun t delta => t - (a (S j) * (p - m) / 2 / c (S j)) * delta)%Q t dir). split; [|split].
        + apply zipw_on_line; [congruence|]. intros u v. pose proof (Hc (S j)) as Hj. field. exact Hj.
        + rewrite zipw_length. lia.
        + assert (Ep : spsa_tell p (spsa_tell m (Spsa (2 * j) ini (Some dir) ym yp (Some t) (Some avg))) =
            Spsa (2 * S j) false (Some dir) (Some m) (Some p) (Some t) (Some avg)).
          { replace (2 * S j) with (S (S (2 * j))) by lia. unfold spsa_tell at 1.
            destruct Em as [-> | ->]; cbn [sp_idx sp_yp sp_ym sp_init sp_delta sp_t sp_avg]; rewrite Oe; cbn [Nat.eqb]; destruct ini; reflexivity. }
          rewrite Ep. apply between_S; auto. }
    destruct B as [E0|j' dl ym yp t avg pts t' Ld' A Lt Pre E'].
    - subst t0. eapply (Main (spsa_init d) (repeat 0%Q d) (repeat 0%Q d) true None None); auto.
      + apply repeat_length.
      + exists []; reflexivity.
      + apply zero_avg.
    - assert (Lt' : length t' = d) by (subst t'; rewrite zipw_length; lia).
      eapply (Main _ t' _ false (Some ym) (Some yp)); auto.
      + apply last_last.
      + eauto.
      + apply avg_step; [exact A|exact Lt'].
      + unfold spsa_ask. cbn [sp_idx sp_yp sp_ym sp_init sp_delta sp_t sp_avg]. rewrite Ee. cbn [Nat.eqb arr2 bind].
        unfold ck, ak. rewrite Eh. rewrite <- E'. replace (S j' + 1) with (S (S j')) by lia. reflexivity.
      + discriminate.
  Qed.

  Lemma run_app evs1 evs2 s : spsa_run a c (evs1 ++ evs2) s =
    bind (spsa_run a c evs1 s) (fun r1 => bind (spsa_run a c evs2 (snd r1)) (fun r2 => Ok (fst r1 ++ fst r2, snd r2))).
  Proof.
    revert s. induction evs1 as [|[dr|l] evs1 IH]; intros s; cbn [app spsa_run bind fst snd].
    - destruct (spsa_run a c evs2 s) as [[xs s']|e]; reflexivity.
    - destruct (spsa_ask a c dr s) as [[x s1]|e]; cbn [bind fst snd]; [|reflexivity]. rewrite IH.
      destruct (spsa_run a c evs1 s1) as [[xs s2]|e]; cbn [bind fst snd]; [|reflexivity].
      destruct (spsa_run a c evs2 s2) as [[ys s3]|e]; reflexivity.
    - apply IH.
  Qed.

  Lemma run_rounds t0 unused rs : forall j s pts, between t0 j s pts -> Forall (fun r => length (r_dir r) = d) rs -> pts <> [] ->
    exists cands s' ts, spsa_run a c (flat_map (events unused) rs) s = Ok (cands, s') /\
      between t0 (j + length rs) s' (pts ++ ts) /\ centres a c j rs (last pts []) (last pts [] :: ts) /\
      perturbed c j (last pts [] :: ts) rs cands.
  Proof.
    induction rs as [|r rs IH]; intros j s pts B F Np.
    - exists [], s, []. cbn. rewrite app_nil_r, Nat.add_0_r. repeat split; auto; constructor.
    - inversion F as [|? ? Fr Frs]; subst.
      destruct (round_step t0 j s pts (r_dir r) B Fr) as (t & x1 & s1 & E1 & La & Lt & O1 & _ & K).
      destruct (K (r_first r) unused) as (x2 & E2 & O2 & _ & K2). destruct (K2 (r_second r)) as (t' & O3 & Lt' & B').
      destruct (IH (S j) _ _ B' Frs) as (cands & s' & ts & Er & B2 & C & P); [destruct pts; discriminate|].
      rewrite last_last in C, P. exists (Some x1 :: Some x2 :: cands), s', (t' :: ts). split; [|split; [|split]].
      + cbn [flat_map events app spsa_run]. rewrite E1. cbn [bind fst snd]. rewrite E2. cbn [bind fst snd]. rewrite Er. reflexivity.
      + rewrite <- app_assoc in B2. cbn [app length] in *. rewrite Nat.add_succ_r. exact B2.
      + rewrite La. econstructor; eauto.
      + rewrite La. constructor; auto.
  Qed.

  (** ** A suggestion before the first ask *)
  Definition ruined (s : spsa) : Prop :=
    sp_idx s <> 0 /\ (sp_t s = None \/ sp_delta s = None) /\
    (sp_idx s = 1 -> sp_delta s = None) /\
    (2 <= sp_idx s -> sp_init s = false /\ sp_ym s <> None /\ sp_yp s <> None) /\
    (sp_idx s = 1 -> sp_ym s <> None).
  Lemma ruined_tell l s : ruined s -> ruined (spsa_tell l s).
  Proof.
    intros (H0 & H1 & H2 & H3 & H4). unfold ruined, spsa_tell. cbn [sp_idx sp_t sp_delta sp_init sp_ym sp_yp].
    split; [lia|]. split; [exact H1|]. split; [lia|]. split; [|lia]. intros _.
    destruct (Nat.eq_dec (sp_idx s) 1) as [E|E].
    - rewrite E. change (1 mod 2 =? 0) with false. cbn iota. specialize (H4 E).
      destruct (sp_ym s) as [ym|]; [|contradiction]. split; [destruct (sp_init s); reflexivity|]. split; discriminate.
    - destruct (H3 ltac:(lia)) as (A & B & C). rewrite A. split; [reflexivity|]. destruct (sp_idx s mod 2 =? 0); split; auto; discriminate.
  Qed.
  Lemma ruined_ask dr s : ruined s -> exists s', spsa_ask a c dr s = Ok (None, s') /\ ruined s'.
  Proof.
    intros (H0 & H1 & H2 & H3 & H4). unfold spsa_ask. destruct (sp_idx s mod 2 =? 0) eqn:E.
    - assert (G : 2 <= sp_idx s).
      { apply Nat.eqb_eq in E. destruct (sp_idx s) as [|[|k]]; [contradiction|discriminate E|lia]. }
      destruct (H3 G) as (A & B & C). rewrite A. destruct (sp_yp s) as [yp|]; [|contradiction]. destruct (sp_ym s) as [ym|]; [|contradiction].
      assert (N : forall f, arr2 f (sp_t s) (sp_delta s) = None) by (intros f; destruct H1 as [-> | ->]; [reflexivity|destruct (sp_t s); reflexivity]).
      rewrite N. cbn [bind arr2]. eexists. split; [reflexivity|]. unfold ruined. cbn [sp_idx sp_t sp_delta sp_init sp_ym sp_yp].
      split; [exact H0|]. split; [left; reflexivity|]. split; [lia|]. split; [intros _; repeat split; auto; discriminate|lia].
    - exists s. split; [|repeat split; auto; apply H3; assumption].
      destruct H1 as [-> | ->]; [reflexivity|destruct (sp_t s); reflexivity].
  Qed.
  Lemma ruined_run evs : forall s, ruined s -> exists cands s', spsa_run a c evs s = Ok (cands, s') /\ Forall (fun x => x = None) cands.
  Proof.
    induction evs as [|[dr|l] evs IH]; intros s R; cbn [spsa_run].
    - exists [], s. auto.
    - destruct (ruined_ask dr s R) as (s1 & E & R1). rewrite E. cbn [bind fst snd]. destruct (IH s1 R1) as (xs & s' & E' & F).
      rewrite E'. cbn [bind fst snd]. eexists _, _. split; [reflexivity|]. constructor; auto.
    - apply IH. apply ruined_tell. exact R.
  Qed.
  Lemma suggested_ruined l : ruined (spsa_tell l (spsa_init d)).
  Proof. unfold ruined, spsa_tell, spsa_init. cbn. split; [lia|]. split; [auto|]. split; [auto|]. split; [lia|discriminate]. Qed.
End Run.

(** ** Linear losses *)
Lemma dot_line g : forall t dir x k, on_line t k dir x -> length dir = length t -> length g = length t ->
  (dot g x == dot g t + k * dot g dir)%Q.
Proof.
  induction g as [|u g IH]; intros [|b t] [|v dir] x k (L & H) Ld Lg; try discriminate.
  - destruct x; [|discriminate L]. cbn. ring.
  - destruct x as [|y x]; [discriminate L|]. cbn [dot]. rewrite (IH t dir x k).
    + rewrite (H 0 b v y eq_refl eq_refl eq_refl). ring.
    + split; [cbn in L; lia|]. intros i. apply (H (S i)).
    + cbn in Ld; lia.
    + cbn in Lg; lia.
Qed.
Lemma dot_mean g : forall d pts m, mean_of d pts m -> length g = d -> (forall p, In p pts -> length p = d) ->
  (dot g m * inject_Z (Z.of_nat (length pts)) == fold_right Qplus 0 (map (dot g) pts))%Q.
Proof.
  assert (Z0 : forall pts, (fold_right Qplus 0 (map (fun p => nth 0 p 0) pts) == fold_right Qplus 0 (map (fun p => hd 0 p) pts))%Q).
  { induction pts as [|[|x p] pts IH]; cbn [map fold_right]; [reflexivity| |]; rewrite IH; reflexivity. }
  induction g as [|u g IH]; intros d pts m (Lm & M) Lg P.
  - destruct m; [|cbn in Lg, Lm; lia]. cbn [dot]. transitivity 0%Q; [ring|]. clear.
    induction pts as [|p pts IH]; [reflexivity|]. cbn [map fold_right]. rewrite <- IH. destruct p; reflexivity.
  - destruct m as [|y m]; [cbn in Lg, Lm; lia|]. destruct d as [|d]; [discriminate Lg|].
    assert (T : mean_of d (map (@tl Q) pts) m).
    { split; [cbn in Lm; lia|]. intros i z E. rewrite map_length. rewrite (M (S i) z E), map_map.
      apply eq_subrelation; [typeclasses eauto|]. f_equal. apply map_ext_in. intros p Hp. specialize (P p Hp).
      destruct p; [discriminate P|]. reflexivity. }
    specialize (IH d (map (@tl Q) pts) m T ltac:(cbn in Lg; lia)).
    rewrite map_length in IH. cbn [dot]. rewrite Qmult_plus_distr_l, IH, <- Qmult_assoc, (M 0 y eq_refl).
    + clear - P. induction pts as [|p pts IH]; cbn [map fold_right]; [ring|].
      rewrite <- (IH (fun q Hq => P q (or_intror Hq))). specialize (P p (or_introl eq_refl)). destruct p as [|x p]; [discriminate P|].
      cbn [nth tl dot]. ring.
    + intros p Hp. apply in_map_iff in Hp as (q & <- & Hq). specialize (P q Hq). destruct q; [discriminate P|]. cbn in *. lia.
Qed.

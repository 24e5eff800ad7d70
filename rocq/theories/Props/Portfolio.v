(** * C70: portfolios of optimizers *)
From Coq Require Import List Arith ZArith QArith Qround Lia Lqa Bool.
From Verif.Model Require Import Prelude MultiValue Chain Portfolio.
From Verif.Spec Require Import Chain Portfolio.
From Verif.Proofs Require Import Prelude MultiValue Chain Portfolio.
Import ListNotations.
Open Scope nat_scope.

(** ** The setup *)
(** Optimizers that are not parallelizable have one worker, the others the same number; the turns give each optimizer
    exactly its number of workers, and there are enough of them for the workers of the portfolio (unless
    the warm-up ratio is 1 and some optimizer is not parallelizable). *)
Theorem C70_setup : forall nps budget nw warmup su, nps <> [] -> 1 <= nw -> portfolio_setup nps budget nw warmup = Ok su ->
  length (su_workers su) = length nps /\ Forall (fun i => i < length nps) (su_turns su) /\ 1 <= su_sub_workers su /\
  (forall i np, nth_error nps i = Some np -> exists w, nth_error (su_workers su) i = Some w /\
     w = (if np then 1 else su_sub_workers su) /\ count_occ Nat.eq_dec (su_turns su) i = w) /\
  ((match warmup with Some r => ~ (r == 1)%Q | None => True end) \/ Forall (fun np => np = false) nps -> nw <= length (su_turns su)) /\
  (nw <= length nps -> su_turns su = seq 0 (length nps)).
Proof.
  intros nps budget nw warmup su Hne Hnw E. destruct (setup_facts _ _ _ _ _ Hne Hnw E) as (F1 & F2 & F3 & F4 & F5 & F6).
  assert (Lw : length (su_workers su) = length nps) by (rewrite F1, map_length; reflexivity).
  split; [exact Lw|]. split.
  { apply Forall_forall. intros i Hi. rewrite F3 in Hi. apply turns_in in Hi. lia. }
  split; [exact F2|]. split.
  { intros i np Hi. exists (if np then 1 else su_sub_workers su).
    assert (Hw : nth_error (su_workers su) i = Some (if np then 1 else su_sub_workers su)) by (rewrite F1, nth_error_map, Hi; reflexivity).
    split; [exact Hw|]. split; [reflexivity|]. rewrite F3. apply (turns_count _ 0 i _ Hw). }
  split.
  { intros H. rewrite F3, turns_length, F1, nsum_workers.
    assert (Hf : length (filter (fun b => b) nps) <= length nps) by apply filter_le.
    destruct (Nat.le_gt_cases nw (length nps)) as [Hle|Hlt].
    - rewrite (F6 Hle). lia.
    - destruct H as [H|H]; [apply F5; assumption|].
      assert (Ef : filter (fun b => b) nps = []).
      { clear - H. induction H as [|b l Hb H IH]; [reflexivity|]. subst b. exact IH. }
      rewrite Ef. cbn. lia. }
  intros Hle. eapply setup_ones; eauto.
Qed.
(** The only failures: all the optimizers are not parallelizable with more workers than optimizers, or a warm-up
    without budget. *)
Theorem C70_setup_errors : forall nps budget nw warmup e, nps <> [] -> 1 <= nw -> portfolio_setup nps budget nw warmup = Err e ->
  e = ZeroDivisionError /\ Forall (fun np => np = true) nps /\ length nps < nw \/
  e = ValueError /\ warmup <> None /\ budget = None.
Proof.
  intros nps budget nw warmup e Hne Hnw E. unfold portfolio_setup in E.
  assert (Hlen : 0 < length nps) by (destruct nps; [congruence|cbn; lia]).
  set (num := length nps) in *. set (np := length (filter (fun b => b) nps)) in *.
  assert (Hnp : np <= num) by apply filter_le.
  set (non := if nw <=? num then 0 else np) in *.
  assert (Hnon : nw <= num /\ non = 0 \/ num < nw /\ non = np).
  { unfold non. destruct (Nat.leb_spec nw num); auto. }
  destruct (Nat.eqb_spec (num - non) 0) as [Hz|Hp].
  { left. injection E as <-. split; [reflexivity|]. destruct Hnon as [[_ Hn]|[Hlt Hn]]; [lia|]. split; [|exact Hlt].
    assert (Heq : length (filter (fun b => b) nps) = length nps) by (fold np num; lia).
    clear - Heq. induction nps as [|b nps IH]; constructor.
    - destruct b; [reflexivity|]. cbn in Heq. pose proof (filter_le (fun b => b) nps). lia.
    - apply IH. destruct b; cbn in Heq; [lia|]. pose proof (filter_le (fun b => b) nps). lia. }
  set (dist := match warmup with Some r => Qeq_bool r 1 | None => false end) in *.
  set (sw := if dist then ceil_div nw num else Nat.max 1 (ceil_div (nw - non) (num - non))) in *.
  pose proof (ceil_div_spec nw num Hlen) as C1. pose proof (ceil_div_spec (nw - non) (num - non) ltac:(lia)) as C2. unfold rounded_up in *.
  assert (H1 : nw <= num * sw).
  { unfold sw. destruct dist; [lia|]. set (c := ceil_div (nw - non) (num - non)) in *. clearbody c.
    destruct Hnon as [[_ ->]|[Hlt ->]].
    - rewrite !Nat.sub_0_r in *. nia.
    - pose proof (Nat.mul_le_mono_l c (Nat.max 1 c) (num - np) ltac:(lia)). nia. }
  assert (H2 : 1 <= sw).
  { unfold sw. destruct dist; [|lia]. nia. }
  destruct (Nat.ltb_spec (num * sw) nw); [lia|]. destruct (Nat.ltb_spec sw 1); [lia|].
  right. destruct warmup as [r|]; [destruct budget as [b|]; [discriminate|]|discriminate].
  injection E as <-. split; [reflexivity|]. split; [discriminate|reflexivity].
Qed.
Example C70_setup_nontrivial :
  portfolio_setup [false; true; false] (Some 100) 8 (Some (1 # 3)) = Ok (Setup (Some 84) 4 [4; 1; 4] [0; 0; 0; 0; 1; 2; 2; 2; 2] (Some 33)) /\
  portfolio_setup [true; true] None 3 None = Err ZeroDivisionError.
Proof. vm_compute. auto. Qed.
(** With a warm-up ratio of 1, there may be fewer turns than workers. *)
Theorem C70_turns_refuted : ~ (forall nps budget nw warmup su, nps <> [] -> 1 <= nw -> portfolio_setup nps budget nw warmup = Ok su -> nw <= length (su_turns su)).
Proof.
  intros H. specialize (H [false; true] (Some 100) 8 (Some 1%Q) _ ltac:(discriminate) ltac:(lia) eq_refl). vm_compute in H. lia.
Qed.

Section C70.
  Variable S : Type.
  Variable sub_ask : nat -> bool -> meta -> S -> meta * S.
  Variable sub_tell : nat -> Q -> S -> S * result unit.
  Variables (nps : list bool) (budget : option nat) (nw : nat) (warmup : option Q) (su : setup) (subs : list S).
  Hypothesis Hne : nps <> [].
  Hypothesis Hnw : 1 <= nw.
  Hypothesis Hsu : portfolio_setup nps budget nw warmup = Ok su.
  Hypothesis Hsubs : length subs = length nps.
  Notation run := (portfolio_run S sub_ask sub_tell su nw).
  Notation step := (portfolio_step S sub_ask sub_tell su nw).
  Notation init := (([], portfolio_init S subs) : meta * portfolio S).
  Let Hready := setup_ready S nps budget nw warmup su subs Hne Hnw Hsu Hsubs.

  (** No ask fails. *)
  Theorem C70_ask : forall ops m pf rs best u, run init ops = ((m, pf), rs) -> snd (step (m, pf) (FAsk best u)) = Ok tt.
  Proof.
    intros ops m pf rs best u E. destruct (run_ready S sub_ask sub_tell su nw _ _ _ _ _ _ Hready E) as [R _].
    destruct (step (m, pf) (FAsk best u)) as [[m' pf'] r] eqn:Es. destruct (step_ask S sub_ask sub_tell su nw _ _ _ _ _ _ _ R Es) as [A _]. exact A.
  Qed.

  (** As long as no optimizer was chosen, the optimizers are asked in turn. *)
  Theorem C70_rotation : forall ops m pf rs, run init ops = ((m, pf), rs) -> pf_alive pf = None -> 1 < length nps ->
    forall i s, nth_error (pf_subs pf) i = Some s -> pasks (pb_log s) = in_turn (su_turns su) 0 (pasked ops) i.
  Proof.
    intros ops m pf rs E Ha Hl. destruct (run_rotating S sub_ask sub_tell su nw _ _ _ _ _ _ Hready E) as [_ H].
    destruct (run_ready S sub_ask sub_tell su nw _ _ _ _ _ _ Hready E) as [_ L]. cbn in L. rewrite map_length, Hsubs in L.
    apply H; [exact Ha|lia].
  Qed.

  (** Among the last candidates, no more than there are turns, an optimizer proposed at most as many as it has workers. *)
  Theorem C70_workers : forall ops m pf rs before window, run init ops = ((m, pf), rs) -> pf_alive pf = None -> 1 < length nps ->
    pasked ops = before ++ window -> length window <= length (su_turns su) ->
    forall i s w, nth_error (pf_subs pf) i = Some s -> nth_error (su_workers su) i = Some w ->
    exists old mine, pasks (pb_log s) = old ++ mine /\ incl old before /\ incl mine window /\ length mine <= w /\
      (length window = length (su_turns su) -> length mine = w).
  Proof.
    intros ops m pf rs before wd E Ha Hl Hp Hw i s w Hs Hwk.
    exists (in_turn (su_turns su) 0 before i), (in_turn (su_turns su) (length before) wd i).
    split. { rewrite (C70_rotation _ _ _ _ E Ha Hl i s Hs), Hp, in_turn_app. reflexivity. }
    split; [apply in_turn_incl|]. split; [apply in_turn_incl|].
    destruct (setup_facts _ _ _ _ _ Hne Hnw Hsu) as (F1 & F2 & F3 & _).
    assert (Ec : count_occ Nat.eq_dec (su_turns su) i = w) by (rewrite F3; apply (turns_count _ 0 i _ Hwk)).
    rewrite <- Ec. apply window; [|exact Hw]. destruct Hready as (_ & X & _). exact X.
  Qed.

  (** Every optimizer that is still there is told each loss; the tell is refused if and only if all of them refuse. *)
  Theorem C70_tell : only_refuses sub_tell -> forall ops m pf rs c l m' pf' r, run init ops = ((m, pf), rs) ->
    step (m, pf) (FTell c l) = ((m', pf'), r) ->
    let there j := match pf_alive pf with Some i => j = i | None => True end in
    (forall j s, nth_error (pf_subs pf) j = Some s -> exists s', nth_error (pf_subs pf') j = Some s' /\
       (there j -> pb s' = fst (sub_tell c l (pb s)) /\ exists ok, pb_log s' = pb_log s ++ [PTell c l ok] /\ (ok = true <-> snd (sub_tell c l (pb s)) = Ok tt)) /\ (~ there j -> s' = s)) /\
    (r = Ok tt <-> exists j s, nth_error (pf_subs pf) j = Some s /\ there j /\ snd (sub_tell c l (pb s)) = Ok tt) /\
    (r <> Ok tt -> r = Err NotImplementedError /\ pf_tell pf' = pf_tell pf).
  Proof.
    intros Hr ops m pf rs c l m' pf' r E Es there. cbn [portfolio_step] in Es. unfold portfolio_tell in Es.
    destruct (tell_all S sub_tell (pf_alive pf) 0 c l (pf_subs pf)) as [subs' n] eqn:Et.
    destruct (tell_all_exact S sub_ask sub_tell nw Hr _ _ _ _ _ _ _ Et) as (L & (x & -> & Hx) & H).
    assert (Ep : pf_subs pf' = subs') by (destruct x; injection Es as _ <- _; reflexivity).
    split; [|split].
    - intros j s Hs. destruct (H j s Hs) as (s' & Hs' & A & B). exists s'. rewrite Ep. split; [exact Hs'|]. split; [intros T; apply A; exact T|exact B].
    - destruct x as [|x]; injection Es as <- <- <-.
      + split; [discriminate|]. intros (j & s & Hs & Hj & Hok). exfalso. exact (proj1 Hx eq_refl j s Hs Hj Hok).
      + split; [|reflexivity]. intros _.
        assert (Hn : ~ (forall j s, nth_error (pf_subs pf) j = Some s -> there j -> snd (sub_tell c l (pb s)) <> Ok tt)) by (intros X; apply Hx in X; discriminate).
        assert (D : forall l0 k, (exists j s, nth_error l0 j = Some s /\ there (k + j) /\ snd (sub_tell c l (pb s)) = Ok tt) \/
                  (forall j s, nth_error l0 j = Some s -> there (k + j) -> snd (sub_tell c l (pb s)) <> Ok tt)).
        { induction l0 as [|s0 l0 IH]; intros k; [right; intros [|j] s Hs; discriminate|].
          destruct (IH (k + 1)) as [(j & s & Hs & Hj & Hok)|IHn].
          - left. exists (Datatypes.S j), s. split; [exact Hs|]. split; [replace (k + Datatypes.S j) with (k + 1 + j) by lia; exact Hj|exact Hok].
          - assert (Dt : {there (k + 0)} + {~ there (k + 0)}) by (unfold there; destruct (pf_alive pf); [apply Nat.eq_dec|left; exact I]).
            destruct Dt as [Dt|Dt]; [destruct (Hr c l (pb s0)) as [Ok0|Er0]|].
            + left. exists 0, s0. auto.
            + right. intros [|j] s Hs; cbn in Hs; [injection Hs as <-; intros _; congruence|].
              replace (k + Datatypes.S j) with (k + 1 + j) by lia. apply IHn, Hs.
            + right. intros [|j] s Hs; cbn in Hs; [contradiction|]. replace (k + Datatypes.S j) with (k + 1 + j) by lia. apply IHn, Hs. }
        destruct (D (pf_subs pf) 0) as [X|X]; [exact X|contradiction].
    - destruct x as [|x]; injection Es as <- <- <-; [intros _; split; reflexivity|congruence].
  Qed.

  (** An optimizer is only chosen after the warm-up, because it proposed the best candidate, and can use the workers. *)
  Theorem C70_chosen : labels_own_p sub_ask -> forall ops m pf rs best u m' pf' r i, run init ops = ((m, pf), rs) -> pf_alive pf = None ->
    step (m, pf) (FAsk best u) = ((m', pf'), r) -> pf_alive pf' = Some i ->
    exists c w wk s, best = Some c /\ su_warmup su = Some w /\ w < pf_tell pf /\ nth_error (pf_subs pf) i = Some s /\ In c (pasks (pb_log s)) /\
      nth_error (su_workers su) i = Some wk /\ (nw = 1 \/ 1 < wk).
  Proof.
    intros Ho ops m pf rs best u m' pf' r i E Ha Es Hi.
    destruct (run_labelled S sub_ask sub_tell su nw _ _ _ _ _ Ho Hready E) as [R H].
    destruct (step_ask S sub_ask sub_tell su nw _ _ _ _ _ _ _ R Es) as (_ & k & lab & _ & _ & _ & Hal & _). rewrite Hal in Hi.
    destruct (choose_new S su nw _ _ _ _ Ha Hi) as (c & w & wk & -> & Hc & Hw & Hlt & Hl & Hwk & Hd).
    destruct (H Ha Hl) as [H1 _]. destruct (H1 c i Hc) as (s & Hs & Hin). exists c, w, wk, s. auto 10.
  Qed.
  (** And it is. *)
  Theorem C70_chooses : labels_own_p sub_ask -> forall ops m pf rs c u m' pf' r i s w wk, run init ops = ((m, pf), rs) -> pf_alive pf = None ->
    1 < length nps -> NoDup (pasked ops) -> su_warmup su = Some w -> w < pf_tell pf ->
    nth_error (pf_subs pf) i = Some s -> In c (pasks (pb_log s)) -> nth_error (su_workers su) i = Some wk -> nw = 1 \/ 1 < wk ->
    step (m, pf) (FAsk (Some c) u) = ((m', pf'), r) -> pf_alive pf' = Some i.
  Proof.
    intros Ho ops m pf rs c u m' pf' r i s w wk E Ha Hl Hnd Hw Hlt Hs Hin Hwk Hd Es.
    destruct (run_labelled S sub_ask sub_tell su nw _ _ _ _ _ Ho Hready E) as [R H].
    destruct (run_ready S sub_ask sub_tell su nw _ _ _ _ _ _ Hready E) as [_ L]. cbn in L. rewrite map_length, Hsubs in L.
    destruct (H Ha ltac:(lia)) as [_ H2]. destruct (H2 Hnd i s c Hs Hin) as [Hc _].
    destruct (step_ask S sub_ask sub_tell su nw _ _ _ _ _ _ _ R Es) as (_ & k & lab & _ & _ & _ & Hal & _). rewrite Hal.
    eapply choose_does; eauto. lia.
  Qed.
  (** Then all the candidates are its own, for ever, and the others are left alone. *)
  Theorem C70_focus : forall ops m pf rs i ops' m' pf' rs', run init ops = ((m, pf), rs) -> pf_alive pf = Some i ->
    run (m, pf) ops' = ((m', pf'), rs') ->
    pf_alive pf' = Some i /\ (forall j s, j <> i -> nth_error (pf_subs pf) j = Some s -> nth_error (pf_subs pf') j = Some s) /\
    (forall s, nth_error (pf_subs pf) i = Some s -> exists s', nth_error (pf_subs pf') i = Some s' /\ pasks (pb_log s') = pasks (pb_log s) ++ pasked ops').
  Proof.
    intros ops m pf rs i ops' m' pf' rs' E Ha E'. destruct (run_ready S sub_ask sub_tell su nw _ _ _ _ _ _ Hready E) as [R _].
    eapply run_alive; eauto.
  Qed.

  (** Each optimizer stays within its budget, as long as the portfolio does: with no more workers than
      optimizers and no warm-up, *)
  Theorem C70_sub_budget : forall b sb ops m pf rs, budget = Some b -> warmup = None -> nw <= length nps -> su_sub_budget su = Some sb ->
    run init ops = ((m, pf), rs) -> length (pasked ops) <= b ->
    forall i s, nth_error (pf_subs pf) i = Some s -> length (pasks (pb_log s)) <= sb.
  Proof.
    intros b sb ops m pf rs Hb Hw Hle Hsb E Hlen i s Hs.
    assert (Hlen0 : 0 < length nps) by (destruct nps; [congruence|cbn; lia]).
    assert (Esb : sb = ceil_div b (length nps) /\ su_warmup su = None).
    { clear Hready. rewrite Hb, Hw in Hsu. unfold portfolio_setup in Hsu. apply Nat.leb_le in Hle. rewrite Hle, Nat.sub_0_r in Hsu.
      destruct (Nat.eqb_spec (length nps) 0); [lia|]. destruct (_ <? nw); [discriminate|]. destruct (_ <? 1); [discriminate|].
      injection Hsu as <-. cbn in *. split; [|reflexivity]. injection Hsb as <-. lia. }
    destruct Esb as [-> Ew].
    pose proof (no_warmup S sub_ask sub_tell su nw _ _ _ _ _ _ Ew Hready E) as Ha.
    destruct (run_ready S sub_ask sub_tell su nw _ _ _ _ _ _ Hready E) as [_ L]. cbn in L. rewrite map_length, Hsubs in L.
    assert (Hi : i < length nps) by (rewrite <- L; apply nth_error_Some; congruence).
    destruct (Nat.eq_dec (length nps) 1) as [H1|H1].
    - pose proof (pasks_bound S sub_ask sub_tell su nw _ _ _ _ _ _ Hready E i s Hs). rewrite H1.
      pose proof (ceil_div_spec b 1 ltac:(lia)) as C. unfold rounded_up in C. lia.
    - rewrite (C70_rotation _ _ _ _ E Ha ltac:(lia) i s Hs), (setup_ones _ _ _ _ _ Hne (conj Hnw Hle) Hsu).
      eapply Nat.le_trans; [apply round_robin; assumption|]. apply ceil_div_mono; assumption.
  Qed.
  (** and with a warm-up, asks and tells alternating. *)
  Theorem C70_sub_budget_warmup : forall b r sb l m pf rs, budget = Some b -> warmup = Some r -> (0 <= r < 1)%Q -> nw = 1 -> su_sub_budget su = Some sb ->
    run init (sequential l) = ((m, pf), rs) -> Forall (fun r => r = Ok tt) rs -> length l <= b ->
    forall i s, nth_error (pf_subs pf) i = Some s -> length (pasks (pb_log s)) <= sb.
  Proof.
    intros b r sb l m pf rs Hb Hw [Hr0 Hr1] H1 Hsb E Hrs Hlen i s Hs.
    assert (Hlen0 : 0 < length nps) by (destruct nps; [congruence|cbn; lia]).
    assert (Esb : sb = ceil_div (qceil (inject_Z (Z.of_nat b) * r)) (length nps) + (1 + qint (inject_Z (Z.of_nat b) * (1 - r))) /\
      su_warmup su = Some (qint (r * inject_Z (Z.of_nat b)))).
    { clear Hready. rewrite Hb, Hw, H1 in Hsu. unfold portfolio_setup in Hsu.
      assert (Hle : (1 <=? length nps) = true) by (apply Nat.leb_le; lia). rewrite Hle, Nat.sub_0_r in Hsu.
      destruct (Nat.eqb_spec (length nps) 0); [lia|]. destruct (_ <? 1); [discriminate|]. destruct (_ <? 1); [discriminate|].
      injection Hsu as <-. cbn [su_sub_budget su_warmup option_map] in *. split; [|reflexivity]. injection Hsb as <-.
      apply qlt_iff in Hr1. rewrite Hr1. reflexivity. }
    destruct Esb as [-> EW]. set (W := qint (r * inject_Z (Z.of_nat b))) in *.
    assert (Hb0 : (0 <= inject_Z (Z.of_nat b))%Q) by (change 0%Q with (inject_Z 0); rewrite <- Zle_Qle; lia).
    assert (Hrb : (0 <= r * inject_Z (Z.of_nat b))%Q) by (apply Qmult_le_0_compat; assumption).
    destruct (qint_spec _ Hrb) as [W1 W2]. fold W in W1, W2.
    assert (E1 : W <= qceil (inject_Z (Z.of_nat b) * r)).
    { apply qceil_ge. eapply Qle_trans; [exact W1|]. rewrite Qmult_comm. apply Qle_refl. }
    assert (E2 : b - (W + 1) <= qint (inject_Z (Z.of_nat b) * (1 - r))).
    { destruct (Nat.le_gt_cases b (W + 1)) as [|Hgt]; [lia|]. apply qint_ge.
      assert (Ez : (inject_Z (Z.of_nat (b - (W + 1))) == inject_Z (Z.of_nat b) - inject_Z (Z.of_nat (W + 1)))%Q).
      { unfold Qminus. rewrite <- inject_Z_opp, <- inject_Z_plus. apply inject_Z_injective. lia. }
      rewrite Ez. assert (Em : (inject_Z (Z.of_nat b) * (1 - r) == inject_Z (Z.of_nat b) - r * inject_Z (Z.of_nat b))%Q) by ring.
      rewrite Em. lra. }
    assert (Hle : nw <= length nps) by lia.
    pose proof (sequential_bound S sub_ask sub_tell su nw (length nps) W subs l m pf rs (setup_ones _ _ _ _ _ Hne (conj Hnw Hle) Hsu) Hsubs EW Hready E Hrs i s Hs) as B.
    pose proof (ceil_div_mono (Nat.min (length l) (W + 1)) (W + 1) (length nps) Hlen0 ltac:(lia)) as M1.
    pose proof (ceil_div_1 W (length nps) Hlen0) as M2. pose proof (ceil_div_mono _ _ (length nps) Hlen0 E1) as M3. lia.
  Qed.

  (** An optimizer starts with a random sample only when it is the third or a later one, at its first ask and if it was told nothing. *)
  Theorem C70_sampled : forall ops m pf rs i s l1 u l2, run init ops = ((m, pf), rs) ->
    nth_error (pf_subs pf) i = Some s -> pb_log s = l1 ++ PAsk u true :: l2 ->
    1 < i /\ pasks l1 = [] /\ forall c l, ~ In (PTell c l true) l1.
  Proof.
    assert (Hf : forall l1, fresh l1 = true -> pasks l1 = [] /\ forall c l, ~ In (PTell c l true) l1).
    { clear. induction l1 as [|x l1 IH]; cbn [fresh forallb]; [split; [reflexivity|auto]|]. intros H. apply andb_true_iff in H as [Hx H].
      destruct (IH H) as [A B]. destruct x as [v b|c l ok]; [discriminate|]. split; [exact A|].
      intros c' l' [X|X]; [injection X as _ _ ->; discriminate|apply (B _ _ X)]. }
    intros ops m pf rs i s l1 u l2 E.
    assert (K : ready S su pf /\ forall i s, nth_error (pf_subs pf) i = Some s -> forall l1 u l2, pb_log s = l1 ++ PAsk u true :: l2 -> 1 < i /\ fresh l1 = true).
    { revert E. apply (run_ind S sub_ask sub_tell su nw (fun _ _ pf => ready S su pf /\ forall i s, nth_error (pf_subs pf) i = Some s -> forall l1 u l2, pb_log s = l1 ++ PAsk u true :: l2 -> 1 < i /\ fresh l1 = true)).
      - split; [exact Hready|]. intros j s0 Hs. cbn in Hs. rewrite nth_error_map in Hs. destruct (nth_error subs j); [|discriminate]. injection Hs as <-.
        intros [|x l3] v l4 X; discriminate.
      - intros ops' o m1 pf1 m2 pf2 r [R H] Es. split; [eapply step_ready; eauto|]. intros j s2 Hs2 l3 v l4 El.
        destruct (nth_error (pf_subs pf1) j) as [s1|] eqn:Hs1.
        + destruct (step_logs S sub_ask sub_tell su nw _ _ _ _ _ _ R Es j s1 Hs1) as (s2' & added & Hs2' & Ea & D).
          rewrite Hs2' in Hs2. injection Hs2 as <-. rewrite Ea in El.
          assert (Old : forall l4', pb_log s1 = l3 ++ PAsk v true :: l4' -> 1 < j /\ fresh l3 = true) by (intros; eapply H; eauto).
          destruct D as [->|[(w & b & -> & Hb)|(c & q & ok & ->)]].
          * rewrite app_nil_r in El. eapply Old; eauto.
          * destruct l4 as [|x l4 _] using rev_ind.
            -- apply app_inj_tail in El as [<- X]. injection X as <- ->. apply Hb. reflexivity.
            -- rewrite app_comm_cons, app_assoc in El. apply app_inj_tail in El as [El _]. eapply Old; eauto.
          * destruct l4 as [|x l4 _] using rev_ind; [apply app_inj_tail in El as [_ X]; discriminate|].
            rewrite app_comm_cons, app_assoc in El. apply app_inj_tail in El as [El _]. eapply Old; eauto.
        + exfalso. assert (L : length (pf_subs pf2) = length (pf_subs pf1)).
          { destruct o as [best w|c q]; [destruct (step_ask S sub_ask sub_tell su nw _ _ _ _ _ _ _ R Es) as (_ & ? & ? & _ & _ & _ & _ & L & _); exact L|].
            destruct (step_tell S sub_ask sub_tell su nw _ _ _ _ _ _ _ Es) as (_ & _ & _ & (L & _) & _). exact L. }
          apply nth_error_None in Hs1. assert (j < length (pf_subs pf2)) by (apply nth_error_Some; congruence). lia. }
    intros Hs El. destruct K as [_ K]. destruct (K i s Hs l1 u l2 El) as [A B]. split; [exact A|]. apply Hf, B.
  Qed.

  (** With as many optimizers as workers, and more than one worker, no optimizer is ever chosen. *)
  Theorem C70_never_chosen : 2 <= nw <= length nps -> forall ops m pf rs, run init ops = ((m, pf), rs) -> pf_alive pf = None.
  Proof.
    intros [H1 H2] ops m pf rs E. destruct (setup_facts _ _ _ _ _ Hne Hnw Hsu) as (F1 & _ & _ & _ & _ & F6). specialize (F6 H2).
    assert (K : ready S su pf /\ pf_alive pf = None); [|apply K]. revert E.
    apply (run_ind S sub_ask sub_tell su nw (fun _ _ pf => ready S su pf /\ pf_alive pf = None)); [split; [exact Hready|reflexivity]|].
    intros ops' o m1 pf1 m2 pf2 r [R H] E. split; [eapply step_ready; eauto|]. destruct o as [best u|c l].
    - destruct (step_ask S sub_ask sub_tell su nw _ _ _ _ _ _ _ R E) as (_ & i & lab & _ & _ & _ & Hal & _). rewrite Hal.
      destruct (choose S su nw best m1 pf1) as [j|] eqn:Ec; [|reflexivity].
      destruct (choose_new S su nw _ _ _ _ H Ec) as (c & w & wk & _ & _ & _ & _ & _ & Hwk & [Hd|Hd]); [lia|].
      rewrite F1, F6, nth_error_map in Hwk. destruct (nth_error nps j) as [b|]; [|discriminate]. injection Hwk as <-. destruct b; lia.
    - destruct (step_tell S sub_ask sub_tell su nw _ _ _ _ _ _ _ E) as (_ & _ & Hal & _). congruence.
  Qed.
End C70.

(** ** Concrete portfolios *)
Definition lsub_ask (u : nat) (sampled : bool) (m : meta) (s : leaf) : meta * leaf :=
  if sampled then (m, s) else leaf_ask u m s.
Definition lsub_tell (c : nat) (l : Q) (s : leaf) : leaf * result unit := leaf_tell c l [] s.
Lemma lsub_own : labels_own_p lsub_ask.
Proof. intros u b m s c _. destruct b; reflexivity. Qed.
Lemma lsub_refuses : only_refuses lsub_tell.
Proof.
  intros c l s. unfold lsub_tell, leaf_tell. destruct (existsb (Nat.eqb c) (lf_asked s)); [left; reflexivity|].
  destruct (lf_accepts s); [left|right]; reflexivity.
Qed.
Definition opts3 : list leaf := [Leaf true []; Leaf true []; Leaf true []].
Definition setup3 : setup := Setup (Some 9) 1 [1; 1; 1] [0; 1; 2] (Some 3).
Definition ops_seq (n : nat) : list (option nat * nat * Q) := map (fun u => (Some 1, u, inject_Z (Z.of_nat u))) (seq 0 n).
(** three optimizers accepting everything; the best candidate is number 1, of the second optimizer, which is chosen after
    the warm-up of three tells *)
Example C70_nontrivial :
  portfolio_setup [false; false; false] (Some 10) 1 (Some (1 # 3)) = Ok setup3 /\
  let '((m, pf), rs) := portfolio_run leaf lsub_ask lsub_tell setup3 1 ([], portfolio_init leaf opts3) (sequential (ops_seq 8)) in
  Forall (fun r => r = Ok tt) rs /\ pf_alive pf = Some 1 /\ map (fun s => pasks (pb_log s)) (pf_subs pf) = [[0; 3]; [1; 4; 5; 6; 7]; [2]].
Proof. split; [reflexivity|]. vm_compute. repeat constructor. Qed.

(** With more workers than optimizers, an optimizer may be asked more than its budget. *)
Definition setup_par : setup := Setup (Some 5) 3 [3; 3] [0; 0; 0; 1; 1; 1] None.
Theorem C70_sub_budget_parallel_refuted : ~ (forall nps b nw su sb subs ops m pf rs, nps <> [] -> 1 <= nw ->
  portfolio_setup nps (Some b) nw None = Ok su -> length subs = length nps -> su_sub_budget su = Some sb ->
  portfolio_run leaf lsub_ask lsub_tell su nw ([], portfolio_init leaf subs) ops = ((m, pf), rs) -> length (pasked ops) <= b ->
  forall i s, nth_error (pf_subs pf) i = Some s -> length (pasks (pb_log s)) <= sb).
Proof.
  intros H. destruct (portfolio_run leaf lsub_ask lsub_tell setup_par 6 ([], portfolio_init leaf [Leaf true []; Leaf true []]) (map (FAsk None) (seq 0 9))) as [[m pf] rs] eqn:E.
  assert (Hs : portfolio_setup [false; false] (Some 9) 6 None = Ok setup_par) by (vm_compute; reflexivity).
  specialize (H [false; false] 9 6 setup_par 5 [Leaf true []; Leaf true []] (map (FAsk None) (seq 0 9)) m pf rs
    ltac:(discriminate) ltac:(lia) Hs eq_refl eq_refl E ltac:(vm_compute; lia)).
  vm_compute in E. injection E as <- <- <-. specialize (H 0 _ eq_refl). vm_compute in H. lia.
Qed.
(** The warm-up does not always end with a choice: see [C70_never_chosen]; here three optimizers and two workers. *)
Definition setup_two : setup := Setup (Some 95) 1 [1; 1; 1] [0; 1; 2] (Some 10).
Theorem C70_choice_parallel_refuted : ~ (forall ops m pf rs su w c u, portfolio_setup [false; false; false] (Some 100) 2 (Some (1 # 10)) = Ok su ->
  portfolio_run leaf lsub_ask lsub_tell su 2 ([], portfolio_init leaf opts3) ops = ((m, pf), rs) -> Forall (fun r => r = Ok tt) rs ->
  su_warmup su = Some w -> w < pf_tell pf -> In c (pasked ops) ->
  pf_alive (snd (fst (portfolio_step leaf lsub_ask lsub_tell su 2 (m, pf) (FAsk (Some c) u)))) <> None).
Proof.
  intros H. destruct (portfolio_run leaf lsub_ask lsub_tell setup_two 2 ([], portfolio_init leaf opts3) (sequential (ops_seq 20))) as [[m pf] rs] eqn:E.
  assert (Hs : portfolio_setup [false; false; false] (Some 100) 2 (Some (1 # 10)) = Ok setup_two) by (vm_compute; reflexivity).
  specialize (H (sequential (ops_seq 20)) m pf rs setup_two 10 1 99 Hs E).
  vm_compute in E. injection E as <- <- <-.
  apply H; [repeat constructor|reflexivity|vm_compute; lia|vm_compute; tauto|vm_compute; reflexivity].
Qed.
(** After the choice, the tell of a candidate of another optimizer is refused if the chosen one refuses it. *)
Definition late_ops : list pfop :=
  FAsk None 20 :: FAsk None 21 :: FAsk None 22 :: sequential (map (fun u => (Some 1, u, 0%Q)) (seq 0 5)) ++ [FAsk (Some 1) 40].
Theorem C70_late_tell_refuted : ~ (forall ops m pf rs c l,
  portfolio_run leaf lsub_ask lsub_tell setup3 1 ([], portfolio_init leaf [Leaf true []; Leaf false []; Leaf true []]) ops = ((m, pf), rs) ->
  Forall (fun r => r = Ok tt) rs -> In c (pasked ops) ->
  snd (portfolio_step leaf lsub_ask lsub_tell setup3 1 (m, pf) (FTell c l)) = Ok tt).
Proof.
  intros H. destruct (portfolio_run leaf lsub_ask lsub_tell setup3 1 ([], portfolio_init leaf [Leaf true []; Leaf false []; Leaf true []]) late_ops) as [[m pf] rs] eqn:E.
  specialize (H late_ops m pf rs 20 0%Q E). vm_compute in E. injection E as <- <- <-.
  assert (H' := H ltac:(repeat constructor) ltac:(vm_compute; tauto)). vm_compute in H'. discriminate H'.
Qed.
(** The second optimizer does not start with a sample although "all but the first" should. *)
Theorem C70_second_sampled_refuted : ~ (forall ops m pf rs i s u b,
  portfolio_run leaf lsub_ask lsub_tell setup3 1 ([], portfolio_init leaf opts3) ops = ((m, pf), rs) ->
  0 < i -> nth_error (pf_subs pf) i = Some s -> pb_log s = [PAsk u b] -> b = true).
Proof.
  intros H. destruct (portfolio_run leaf lsub_ask lsub_tell setup3 1 ([], portfolio_init leaf opts3) [FAsk None 0; FAsk None 1]) as [[m pf] rs] eqn:E.
  specialize (H [FAsk None 0; FAsk None 1] m pf rs 1). specialize (fun s u b => H s u b E). vm_compute in E. injection E as <- <- <-.
  specialize (H _ 1 false ltac:(lia) eq_refl eq_refl). discriminate H.
Qed.
(** Hence a third optimizer is told as new a candidate it proposed: if all refuse such candidates, the first tell of
    the third optimizer raises. *)
Theorem C70_asked_accepted_refuted : ~ (forall ops m pf rs c l,
  portfolio_run leaf lsub_ask lsub_tell setup3 1 ([], portfolio_init leaf [Leaf false []; Leaf false []; Leaf false []]) ops = ((m, pf), rs) ->
  Forall (fun r => r = Ok tt) rs -> NoDup (pasked ops) -> (forall c l, ~ In (FTell c l) ops) ->
  In c (pasked ops) -> snd (portfolio_step leaf lsub_ask lsub_tell setup3 1 (m, pf) (FTell c l)) = Ok tt).
Proof.
  intros H. set (ops := [FAsk None 0; FAsk None 1; FAsk None 2]) in *.
  destruct (portfolio_run leaf lsub_ask lsub_tell setup3 1 ([], portfolio_init leaf [Leaf false []; Leaf false []; Leaf false []]) ops) as [[m pf] rs] eqn:E.
  specialize (H ops m pf rs 2 0%Q E). vm_compute in E. injection E as <- <- <-.
  assert (H' := H ltac:(repeat constructor) ltac:(unfold ops; cbn; repeat constructor; cbn; intuition discriminate)
    ltac:(unfold ops; cbn; intuition discriminate) ltac:(vm_compute; tauto)). vm_compute in H'. discriminate H'.
Qed.

Print Assumptions C70_setup.
Print Assumptions C70_rotation.
Print Assumptions C70_workers.
Print Assumptions C70_tell.
Print Assumptions C70_chooses.
Print Assumptions C70_sub_budget_warmup.
Print Assumptions C70_sampled.

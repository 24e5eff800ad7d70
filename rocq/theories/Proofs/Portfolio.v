From Coq Require Import List Arith ZArith QArith Qround Lia Bool Permutation.
From Verif.Model Require Import Prelude MultiValue Chain Portfolio.
From Verif.Spec Require Import Chain Portfolio.
From Verif.Proofs Require Import Prelude MultiValue Chain.
Import ListNotations.
Open Scope nat_scope.

(** ** Turns *)
Lemma ceil_div_spec a b : 0 < b -> rounded_up a b (ceil_div a b).
Proof.
  intros Hb. unfold rounded_up, ceil_div. pose proof (Nat.div_mod_eq a b) as E. pose proof (Nat.mod_upper_bound a b ltac:(lia)) as M.
  destruct (Nat.ltb_spec 0 (a mod b)); nia.
Qed.
Lemma rounded_unique a b x y : rounded_up a b x -> rounded_up a b y -> x = y.
Proof. unfold rounded_up. nia. Qed.
Lemma ceil_div_add a b : 0 < b -> ceil_div (b + a) b = 1 + ceil_div a b.
Proof.
  intros Hb. apply (rounded_unique (b + a) b); [apply ceil_div_spec, Hb|]. pose proof (ceil_div_spec a b Hb) as H. unfold rounded_up in *. nia.
Qed.
Lemma ceil_div_mono a b c : 0 < c -> a <= b -> ceil_div a c <= ceil_div b c.
Proof. intros Hc H. pose proof (ceil_div_spec a c Hc). pose proof (ceil_div_spec b c Hc). unfold rounded_up in *. nia. Qed.
Lemma ceil_div_1 a b : 0 < b -> ceil_div (a + 1) b <= ceil_div a b + 1.
Proof. intros Hb. pose proof (ceil_div_spec a b Hb). pose proof (ceil_div_spec (a + 1) b Hb). unfold rounded_up in *. nia. Qed.

Lemma in_turn_app turns i xs : forall n ys, in_turn turns n (xs ++ ys) i = in_turn turns n xs i ++ in_turn turns (n + length xs) ys i.
Proof.
  induction xs as [|x xs IH]; intros n ys; cbn [in_turn app length]; [rewrite Nat.add_0_r; reflexivity|].
  rewrite IH. replace (n + 1 + length xs) with (n + S (length xs)) by lia.
  destruct (nth_error turns (n mod length turns)) as [j|]; [destruct (j =? i)|]; reflexivity.
Qed.
Lemma in_turn_incl turns i us : forall n, incl (in_turn turns n us i) us.
Proof.
  induction us as [|u us IH]; intros n x; cbn [in_turn]; [tauto|].
  destruct (nth_error turns (n mod length turns)) as [j|]; [destruct (j =? i)|].
  - intros [->|H]; [left; reflexivity|right; apply (IH (n + 1)), H].
  - intros H. right. apply (IH (n + 1)), H.
  - intros H. right. apply (IH (n + 1)), H.
Qed.

Definition is_at (turns : list nat) (i j : nat) : bool :=
  match nth_error turns j with Some k => k =? i | None => false end.
Lemma in_turn_length turns i us : forall n,
  length (in_turn turns n us i) = length (filter (is_at turns i) (map (fun j => j mod length turns) (seq n (length us)))).
Proof.
  induction us as [|u us IH]; intros n; [reflexivity|]. cbn [in_turn length seq map filter]. unfold is_at at 1.
  replace (S n) with (n + 1) by lia.
  destruct (nth_error turns (n mod length turns)) as [j|]; [destruct (j =? i)|]; cbn [length]; rewrite IH; reflexivity.
Qed.
Lemma mods_nodup L n len : 0 < L -> len <= L -> NoDup (map (fun j => j mod L) (seq n len)).
Proof.
  intros HL Hlen. revert n Hlen. induction len as [|len IH]; intros n Hlen; cbn; constructor; [|apply IH; lia].
  intros H. apply in_map_iff in H as (j & E & Hj). apply in_seq in Hj.
  pose proof (Nat.div_mod_eq j L). pose proof (Nat.div_mod_eq n L). pose proof (Nat.mod_upper_bound n L ltac:(lia)).
  rewrite E in *. assert (L * (j / L) = L * (n / L) + (j - n)) by lia.
  assert (j / L > n / L) by nia. nia.
Qed.
Lemma count_filter turns i : length (filter (is_at turns i) (seq 0 (length turns))) = count_occ Nat.eq_dec turns i.
Proof.
  assert (K : forall l off, length (filter (fun j => match nth_error l (j - off) with Some k => k =? i | None => false end) (seq off (length l))) = count_occ Nat.eq_dec l i).
  { induction l as [|x l IH]; intros off; [reflexivity|]. cbn [length seq filter]. rewrite Nat.sub_diag. cbn [nth_error count_occ].
    assert (E : length (filter (fun j => match nth_error (x :: l) (j - off) with Some k => k =? i | None => false end) (seq (S off) (length l))) = count_occ Nat.eq_dec l i).
    { rewrite <- (IH (S off)). f_equal. apply filter_ext_in. intros j Hj. apply in_seq in Hj.
      replace (j - off) with (S (j - S off)) by lia. reflexivity. }
    destruct (Nat.eq_dec x i) as [->|Hx]; [rewrite Nat.eqb_refl; cbn; rewrite E; reflexivity|].
    destruct (Nat.eqb_spec x i); [contradiction|exact E]. }
  rewrite <- (K turns 0). f_equal. apply filter_ext. intros j. unfold is_at. rewrite Nat.sub_0_r. reflexivity.
Qed.
Lemma filter_perm_length {A} (f : A -> bool) l l' : Permutation l l' -> length (filter f l) = length (filter f l').
Proof.
  intros H. induction H; cbn; auto.
  - destruct (f x); cbn; congruence.
  - destruct (f x), (f y); reflexivity.
  - congruence.
Qed.
Lemma filter_incl_length {A} (f : A -> bool) l l' : NoDup l -> incl l l' -> length (filter f l) <= length (filter f l').
Proof.
  intros Hn Hi. apply NoDup_incl_length; [apply NoDup_filter, Hn|].
  intros x Hx. apply filter_In in Hx as [Hx Hf]. apply filter_In. split; [apply Hi, Hx|exact Hf].
Qed.
Lemma window turns i us n : 0 < length turns -> length us <= length turns ->
  length (in_turn turns n us i) <= count_occ Nat.eq_dec turns i /\
  (length us = length turns -> length (in_turn turns n us i) = count_occ Nat.eq_dec turns i).
Proof.
  intros HL Hlen. rewrite in_turn_length, <- count_filter.
  set (l := map (fun j => j mod length turns) (seq n (length us))).
  assert (Hn : NoDup l) by (apply mods_nodup; assumption).
  assert (Hi : incl l (seq 0 (length turns))).
  { intros x Hx. apply in_map_iff in Hx as (j & <- & _). apply in_seq. pose proof (Nat.mod_upper_bound j (length turns) ltac:(lia)). lia. }
  split; [apply filter_incl_length; assumption|]. intros E. apply filter_perm_length.
  apply NoDup_Permutation_bis; [exact Hn| |exact Hi]. unfold l. rewrite map_length, !seq_length. lia.
Qed.
Lemma round_robin num i : 0 < num -> i < num -> forall us n, length (in_turn (seq 0 num) n us i) <= ceil_div (length us) num.
Proof.
  intros Hn Hi us. remember (length us) as len eqn:E. revert us E.
  induction len as [len IH] using lt_wf_ind. intros us E n.
  assert (Hc : count_occ Nat.eq_dec (seq 0 num) i = 1).
  { apply NoDup_count_occ'; [apply seq_NoDup|]. apply in_seq. lia. }
  destruct (Nat.le_gt_cases len num) as [H|H].
  - destruct us as [|u us]; [cbn in *; lia|].
    pose proof (proj1 (window (seq 0 num) i (u :: us) n ltac:(rewrite seq_length; lia) ltac:(rewrite seq_length; lia))) as W.
    rewrite Hc in W. pose proof (ceil_div_spec len num Hn) as S. unfold rounded_up in S. cbn in E. nia.
  - assert (Ef : length (firstn num us) = num) by (rewrite firstn_length; lia).
    rewrite <- (firstn_skipn num us), in_turn_app, app_length.
    rewrite (proj2 (window (seq 0 num) i (firstn num us) n ltac:(rewrite seq_length; lia) ltac:(rewrite seq_length; lia))) by (rewrite seq_length; lia).
    rewrite Hc. replace len with (num + (len - num)) by lia. rewrite ceil_div_add by exact Hn.
    apply le_n_S. apply (IH (len - num)); [lia|]. rewrite skipn_length. lia.
Qed.

(** ** Setup *)
Definition turns_of (workers : list nat) (off : nat) : list nat :=
  flat_map (fun iw => repeat (fst iw) (snd iw)) (combine (seq off (length workers)) workers).
Lemma turns_cons w ws off : turns_of (w :: ws) off = repeat off w ++ turns_of ws (S off).
Proof. reflexivity. Qed.
Lemma count_repeat x n i : count_occ Nat.eq_dec (repeat x n) i = if x =? i then n else 0.
Proof.
  induction n as [|n IH]; cbn; [destruct (x =? i); reflexivity|].
  destruct (Nat.eq_dec x i) as [->|H]; [rewrite IH, Nat.eqb_refl; reflexivity|].
  rewrite IH. destruct (Nat.eqb_spec x i); [contradiction|reflexivity].
Qed.
Lemma turns_length ws : forall off, length (turns_of ws off) = nsum ws.
Proof. induction ws as [|w ws IH]; intros off; [reflexivity|]. rewrite turns_cons, app_length, repeat_length, IH. reflexivity. Qed.
Lemma turns_in ws : forall off i, In i (turns_of ws off) -> off <= i < off + length ws.
Proof.
  induction ws as [|w ws IH]; intros off i H; [destruct H|]. rewrite turns_cons in H. apply in_app_or in H as [H|H].
  - apply repeat_spec in H. subst. cbn. lia.
  - apply IH in H. cbn. lia.
Qed.
Lemma turns_count ws : forall off i w, nth_error ws i = Some w -> count_occ Nat.eq_dec (turns_of ws off) (off + i) = w.
Proof.
  induction ws as [|w0 ws IH]; intros off [|i] w H; try discriminate; rewrite turns_cons, count_occ_app, count_repeat.
  - injection H as ->. rewrite Nat.add_0_r, Nat.eqb_refl.
    replace (count_occ Nat.eq_dec (turns_of ws (S off)) off) with 0; [lia|].
    symmetry. apply count_occ_not_In. intros H. apply turns_in in H. lia.
  - destruct (Nat.eqb_spec off (off + S i)); [lia|]. replace (off + S i) with (S off + i) by lia. rewrite (IH _ _ _ H). reflexivity.
Qed.
Lemma nsum_workers (nps : list bool) sw : nsum (map (fun np : bool => if np then 1 else sw) nps) = length (filter (fun b => b) nps) + (length nps - length (filter (fun b => b) nps)) * sw.
Proof.
  induction nps as [|b nps IH]; [reflexivity|]. cbn [map nsum fold_right filter length]. fold (nsum (map (fun np : bool => if np then 1 else sw) nps)). rewrite IH.
  assert (H : length (filter (fun b => b) nps) <= length nps).
  { clear. induction nps as [|[] nps IH]; cbn; lia. }
  destruct b; cbn [length]; [lia|]. replace (S (length nps) - length (filter (fun b => b) nps)) with (S (length nps - length (filter (fun b => b) nps))) by lia. lia.
Qed.
Lemma filter_le {A} (f : A -> bool) l : length (filter f l) <= length l.
Proof. induction l as [|x l IH]; cbn; [lia|]. destruct (f x); cbn; lia. Qed.

(** ** Runs *)
Section Portfolio.
  Variable S : Type.
  Variable sub_ask : nat -> bool -> meta -> S -> meta * S.
  Variable sub_tell : nat -> Q -> S -> S * result unit.
  Variable su : setup.
  Variable num_workers : nat.
  Notation step := (portfolio_step S sub_ask sub_tell su num_workers).
  Notation run := (portfolio_run S sub_ask sub_tell su num_workers).
  Notation ask := (portfolio_ask S sub_ask su num_workers).
  Notation choose := (choose S su num_workers).

  Lemma run_app a b st : fst (run st (a ++ b)) = fst (run (fst (run st a)) b) /\ snd (run st (a ++ b)) = snd (run st a) ++ snd (run (fst (run st a)) b).
  Proof.
    revert st. induction a as [|o a IH]; intros st; cbn [app]; [cbn; auto|].
    cbn [portfolio_run]. destruct (step st o) as [st1 r]. specialize (IH st1).
    destruct (run st1 (a ++ b)) as [x xs]. destruct (run st1 a) as [y ys]. cbn in *. destruct IH as [-> ->]. split; reflexivity.
  Qed.
  Lemma run_ind (P : list pfop -> meta -> portfolio S -> Prop) m0 pf0 :
    P [] m0 pf0 ->
    (forall ops o m pf m' pf' r, P ops m pf -> step (m, pf) o = ((m', pf'), r) -> P (ops ++ [o]) m' pf') ->
    forall ops m pf rs, run (m0, pf0) ops = ((m, pf), rs) -> P ops m pf.
  Proof.
    intros H0 H1 ops. induction ops as [|o ops IH] using rev_ind; intros m pf rs E.
    - cbn in E. injection E as <- <- <-. exact H0.
    - pose proof (run_app ops [o] (m0, pf0)) as [A B]. rewrite E in A, B. cbn [fst snd] in A, B.
      destruct (run (m0, pf0) ops) as [[m1 pf1] rs1] eqn:E1. cbn [fst snd] in A, B.
      cbn [portfolio_run] in A. destruct (step (m1, pf1) o) as [[m2 pf2] r] eqn:E2. cbn [fst snd] in A.
      injection A as <- <-. eapply H1; [|exact E2]. eapply IH; eauto.
  Qed.
  Lemma pasked_app a b : pasked (a ++ b) = pasked a ++ pasked b.
  Proof. apply flat_map_app. Qed.
  Lemma pasks_app a b : pasks (a ++ b) = pasks a ++ pasks b.
  Proof. apply flat_map_app. Qed.

  (** the tells *)
  Lemma tell_all_asks alive c l subs : forall k subs' n, tell_all S sub_tell alive k c l subs = (subs', n) ->
    length subs' = length subs /\
    forall j s, nth_error subs j = Some s -> exists s', nth_error subs' j = Some s' /\ pasks (pb_log s') = pasks (pb_log s) /\
      (s' = s \/ exists ok, pb_log s' = pb_log s ++ [PTell c l ok] /\ match alive with Some i => k + j = i | None => True end).
  Proof.
    induction subs as [|s0 subs IH]; intros k subs' n E; cbn [tell_all] in E.
    - injection E as <- <-. split; [reflexivity|]. intros [|j] s Hs; discriminate.
    - assert (K : forall rest n' s1, tell_all S sub_tell alive (k + 1) c l subs = (rest, n') -> 
        (s1 = s0 \/ exists ok, pb_log s1 = pb_log s0 ++ [PTell c l ok] /\ match alive with Some i => k + 0 = i | None => True end) ->
        length (s1 :: rest) = length (s0 :: subs) /\
        forall j s, nth_error (s0 :: subs) j = Some s -> exists s', nth_error (s1 :: rest) j = Some s' /\ pasks (pb_log s') = pasks (pb_log s) /\
          (s' = s \/ exists ok, pb_log s' = pb_log s ++ [PTell c l ok] /\ match alive with Some i => k + j = i | None => True end)).
      { intros rest n' s1 Er H1. destruct (IH _ _ _ Er) as [L H]. split; [cbn; congruence|].
        intros [|j] s Hs; cbn in Hs.
        - injection Hs as <-. exists s1. split; [reflexivity|]. split; [|exact H1].
          destruct H1 as [->|(ok & -> & _)]; [reflexivity|]. rewrite pasks_app. cbn. apply app_nil_r.
        - destruct (H j s Hs) as (s' & A & B & C). exists s'. split; [exact A|]. split; [exact B|].
          replace (k + Datatypes.S j) with (k + 1 + j) by lia. exact C. }
      assert (K0 : forall s1, (s1 = s0 \/ exists ok, pb_log s1 = pb_log s0 ++ [PTell c l ok] /\ match alive with Some i => k + 0 = i | None => True end) ->
        length (s1 :: subs) = length (s0 :: subs) /\
        forall j s, nth_error (s0 :: subs) j = Some s -> exists s', nth_error (s1 :: subs) j = Some s' /\ pasks (pb_log s') = pasks (pb_log s) /\
          (s' = s \/ exists ok, pb_log s' = pb_log s ++ [PTell c l ok] /\ match alive with Some i => k + j = i | None => True end)).
      { intros s1 H1. split; [reflexivity|]. intros [|j] s Hs; cbn in Hs.
        - injection Hs as <-. exists s1. split; [reflexivity|]. split; [|exact H1].
          destruct H1 as [->|(ok & -> & _)]; [reflexivity|]. rewrite pasks_app. cbn. apply app_nil_r.
        - exists s. split; [exact Hs|]. split; [reflexivity|left; reflexivity]. }
      destruct (match alive with Some i => k =? i | None => true end) eqn:Ea.
      + assert (Ha : match alive with Some i => k + 0 = i | None => True end).
        { destruct alive; [apply Nat.eqb_eq in Ea; lia|exact I]. }
        destruct (sub_tell c l (pb s0)) as [s1 r]. destruct r as [[]|e].
        * destruct (tell_all S sub_tell alive (k + 1) c l subs) as [rest n'] eqn:Er. injection E as <- <-.
          eapply K; eauto. right. eexists. split; [reflexivity|exact Ha].
        * destruct e; try (injection E as <- <-; apply K0; right; eexists; split; [reflexivity|exact Ha]).
          destruct (tell_all S sub_tell alive (k + 1) c l subs) as [rest n'] eqn:Er. injection E as <- <-.
          eapply K; eauto. right. eexists. split; [reflexivity|exact Ha].
      + destruct (tell_all S sub_tell alive (k + 1) c l subs) as [rest n'] eqn:Er. injection E as <- <-. eapply K; eauto.
  Qed.

  (** one operation *)
  Definition same_asks (pf pf' : portfolio S) : Prop :=
    length (pf_subs pf') = length (pf_subs pf) /\
    forall j s, nth_error (pf_subs pf) j = Some s -> exists s', nth_error (pf_subs pf') j = Some s' /\ pasks (pb_log s') = pasks (pb_log s) /\
      (match pf_alive pf with Some i => j <> i -> s' = s | None => True end).
  Lemma step_tell c l m pf m' pf' r : step (m, pf) (FTell c l) = ((m', pf'), r) ->
    m' = m /\ pf_count pf' = pf_count pf /\ pf_alive pf' = pf_alive pf /\ same_asks pf pf' /\
    (r = Ok tt -> pf_tell pf' = pf_tell pf + 1) /\ (r <> Ok tt -> pf_tell pf' = pf_tell pf).
  Proof.
    intros E. cbn [portfolio_step] in E. unfold portfolio_tell in E.
    destruct (tell_all S sub_tell (pf_alive pf) 0 c l (pf_subs pf)) as [subs n] eqn:Et.
    destruct (tell_all_asks _ _ _ _ _ _ _ Et) as [L H].
    assert (K : forall t, same_asks pf (Portfolio t (pf_count pf) (pf_alive pf) subs)).
    { intros t. split; [exact L|]. intros j s Hs. destruct (H j s Hs) as (s' & A & B & C). exists s'. split; [exact A|]. split; [exact B|].
      destruct (pf_alive pf) as [i|]; [|exact I]. intros Hj. destruct C as [C|(ok & _ & C)]; [exact C|cbn in C; congruence]. }
    destruct n as [[|n]|e]; injection E as <- <- <-; repeat split; try apply K; cbn; congruence.
  Qed.

  Definition ready (pf : portfolio S) : Prop :=
    0 < length (pf_subs pf) /\ 0 < length (su_turns su) /\ (forall i, In i (su_turns su) -> i < length (pf_subs pf)) /\
    length (su_workers su) = length (pf_subs pf) /\ (forall i, pf_alive pf = Some i -> i < length (pf_subs pf)).

  Lemma choose_alive best m pf i : pf_alive pf = Some i -> choose best m pf = Some i.
  Proof. intros E. unfold Portfolio.choose. rewrite E. reflexivity. Qed.
  Lemma choose_new best m pf i : pf_alive pf = None -> choose best m pf = Some i ->
    exists c w wk, best = Some c /\ dget c m = Some i /\ su_warmup su = Some w /\ w < pf_tell pf /\ 1 < length (pf_subs pf) /\
      nth_error (su_workers su) i = Some wk /\ (num_workers = 1 \/ 1 < wk).
  Proof.
    intros E H. unfold Portfolio.choose in H. rewrite E in H. destruct (su_warmup su) as [w|]; [|discriminate].
    destruct ((1 <? length (pf_subs pf)) && (w <? pf_tell pf)) eqn:Ec; [|discriminate].
    apply andb_true_iff in Ec as [E1 E2]. apply Nat.ltb_lt in E1, E2.
    destruct best as [c|]; [|discriminate]. destruct (dget c m) as [ind|] eqn:Ed; [|discriminate].
    destruct (nth_error (su_workers su) ind) as [wk|] eqn:Ew; [|discriminate].
    destruct ((num_workers =? 1) || (1 <? wk)) eqn:Eo; [|discriminate]. injection H as <-.
    exists c, w, wk. repeat split; auto. apply orb_true_iff in Eo as [Eo|Eo]; [left; apply Nat.eqb_eq, Eo|right; apply Nat.ltb_lt, Eo].
  Qed.
  Lemma choose_does c m pf i w wk : pf_alive pf = None -> dget c m = Some i -> su_warmup su = Some w -> w < pf_tell pf ->
    1 < length (pf_subs pf) -> nth_error (su_workers su) i = Some wk -> (num_workers = 1 \/ 1 < wk) -> choose (Some c) m pf = Some i.
  Proof.
    intros E Ed Ew Hw Hl Ek Hk. unfold Portfolio.choose. rewrite E, Ew, Ed, Ek. apply Nat.ltb_lt in Hw, Hl. rewrite Hw, Hl. cbn [andb].
    assert (Eo : (num_workers =? 1) || (1 <? wk) = true).
    { apply orb_true_iff. destruct Hk as [Hk|Hk]; [left; apply Nat.eqb_eq, Hk|right; apply Nat.ltb_lt, Hk]. }
    rewrite Eo. reflexivity.
  Qed.

  (** who answers: the optimizer, its label and the new count *)
  Definition answer (best : option nat) (m : meta) (pf : portfolio S) (i lab count : nat) : Prop :=
    match choose best m pf with
    | Some j => i = j /\ lab = 0 /\ count = pf_count pf
    | None => if length (pf_subs pf) =? 1 then i = 0 /\ lab = 0 /\ count = pf_count pf
              else nth_error (su_turns su) (pf_count pf mod length (su_turns su)) = Some i /\ lab = i /\ count = pf_count pf + 1
    end.

  Lemma ask_ok best u m pf : ready pf -> exists i lab m' pf', ask best u m pf = Ok (m', pf') /\ i < length (pf_subs pf) /\
    answer best m pf i lab (pf_count pf') /\ pf_tell pf' = pf_tell pf /\ pf_alive pf' = choose best m pf /\ length (pf_subs pf') = length (pf_subs pf) /\
    dget u m' = Some lab /\ (labels_own_p sub_ask -> forall c, c <> u -> dget c m' = dget c m) /\
    forall j s, nth_error (pf_subs pf) j = Some s -> exists s', nth_error (pf_subs pf') j = Some s' /\
      (j = i -> pb_log s' = pb_log s ++ [PAsk u ((1 <? lab) && fresh (pb_log s))]) /\ (j <> i -> s' = s).
  Proof.
    intros (R1 & R2 & R3 & R4 & R5). unfold portfolio_ask, answer.
    assert (K : exists i lab count,
       match choose best m pf with
       | Some i => Ok (i, 0, pf_count pf)
       | None => if length (pf_subs pf) =? 1 then Ok (0, 0, pf_count pf) else
          match length (su_turns su) with
          | 0 => Err ZeroDivisionError
          | L => match nth_error (su_turns su) (pf_count pf mod L) with Some i => Ok (i, i, pf_count pf + 1) | None => Err IndexError end
          end
       end = Ok (i, lab, count) /\ i < length (pf_subs pf) /\
       match choose best m pf with
       | Some j => i = j /\ lab = 0 /\ count = pf_count pf
       | None => if length (pf_subs pf) =? 1 then i = 0 /\ lab = 0 /\ count = pf_count pf
              else nth_error (su_turns su) (pf_count pf mod length (su_turns su)) = Some i /\ lab = i /\ count = pf_count pf + 1
       end).
    { destruct (choose best m pf) as [i|] eqn:Ec.
      - exists i, 0, (pf_count pf). split; [reflexivity|]. split; [|auto].
        destruct (pf_alive pf) as [a|] eqn:Ea; [rewrite (choose_alive _ _ _ _ Ea) in Ec; injection Ec as <-; apply R5; reflexivity|].
        destruct (choose_new _ _ _ _ Ea Ec) as (c & w & wk & _ & _ & _ & _ & _ & Hn & _). rewrite <- R4. apply nth_error_Some. congruence.
      - destruct (length (pf_subs pf) =? 1); [exists 0, 0, (pf_count pf); auto|].
        destruct (length (su_turns su)) as [|L] eqn:EL; [lia|]. rewrite <- EL.
        destruct (nth_error (su_turns su) (pf_count pf mod length (su_turns su))) as [i|] eqn:En.
        + exists i, i, (pf_count pf + 1). split; [reflexivity|]. split; [apply R3; eapply nth_error_In; eauto|auto].
        + apply nth_error_None in En. pose proof (Nat.mod_upper_bound (pf_count pf) (length (su_turns su)) ltac:(lia)). lia. }
    destruct K as (i & lab & count & -> & Hi & Ha). cbn [bind].
    destruct (nth_error (pf_subs pf) i) as [s0|] eqn:Es; [|apply nth_error_None in Es; lia].
    destruct (sub_ask u ((1 <? lab) && fresh (pb_log s0)) m (pb s0)) as [m1 s1] eqn:Ea.
    exists i, lab. eexists _, _. split; [reflexivity|]. cbn [pf_count pf_tell pf_alive pf_subs].
    split; [exact Hi|]. split; [exact Ha|]. split; [reflexivity|]. split; [reflexivity|]. split; [apply update_length|].
    split; [rewrite dget_dset, Nat.eqb_refl; reflexivity|]. split.
    - intros Ho c Hc. rewrite dget_dset. destruct (Nat.eqb_spec c u); [contradiction|].
      pose proof (Ho u ((1 <? lab) && fresh (pb_log s0)) m (pb s0) c Hc) as X. rewrite Ea in X. exact X.
    - intros j s Hs. rewrite update_nth, Hs. destruct (Nat.eqb_spec j i) as [->|Hj].
      + eexists. split; [reflexivity|]. split; [|congruence]. intros _. cbn. rewrite Es in Hs. injection Hs as <-. reflexivity.
      + exists s. split; [reflexivity|]. split; [contradiction|reflexivity].
  Qed.

  Lemma step_ask best u m pf m' pf' r : ready pf -> step (m, pf) (FAsk best u) = ((m', pf'), r) ->
    r = Ok tt /\ exists i lab, i < length (pf_subs pf) /\
    answer best m pf i lab (pf_count pf') /\ pf_tell pf' = pf_tell pf /\ pf_alive pf' = choose best m pf /\ length (pf_subs pf') = length (pf_subs pf) /\
    dget u m' = Some lab /\ (labels_own_p sub_ask -> forall c, c <> u -> dget c m' = dget c m) /\
    forall j s, nth_error (pf_subs pf) j = Some s -> exists s', nth_error (pf_subs pf') j = Some s' /\
      (j = i -> pb_log s' = pb_log s ++ [PAsk u ((1 <? lab) && fresh (pb_log s))]) /\ (j <> i -> s' = s).
  Proof.
    intros R E. cbn [portfolio_step] in E. destruct (ask_ok best u m pf R) as (i & lab & m1 & pf1 & Ek & X). rewrite Ek in E.
    injection E as <- <- <-. split; [reflexivity|]. exists i, lab. exact X.
  Qed.

  Lemma step_ready o m pf m' pf' r : ready pf -> step (m, pf) o = ((m', pf'), r) -> ready pf'.
  Proof.
    intros R E. pose proof R as (R1 & R2 & R3 & R4 & R5). destruct o as [best u|c l].
    - destruct (step_ask _ _ _ _ _ _ _ R E) as (_ & i & lab & Hi & Ha & _ & Hal & L & _). unfold ready. rewrite L.
      repeat split; auto. intros j Hj. rewrite Hal in Hj. unfold answer in Ha. rewrite Hj in Ha. destruct Ha as (<- & _). exact Hi.
    - destruct (step_tell _ _ _ _ _ _ _ E) as (_ & _ & Hal & (L & _) & _). unfold ready. rewrite L, Hal. auto.
  Qed.
  Lemma init_ready subs : 0 < length subs -> 0 < length (su_turns su) -> (forall i, In i (su_turns su) -> i < length subs) ->
    length (su_workers su) = length subs -> ready (portfolio_init S subs).
  Proof. intros. unfold ready, portfolio_init. cbn. rewrite map_length. repeat split; auto. discriminate. Qed.
  Lemma run_ready m0 pf0 ops m pf rs : ready pf0 -> run (m0, pf0) ops = ((m, pf), rs) -> ready pf /\ length (pf_subs pf) = length (pf_subs pf0).
  Proof.
    intros R. apply (run_ind (fun _ _ pf => ready pf /\ length (pf_subs pf) = length (pf_subs pf0))); [auto|].
    intros ops' o m1 pf1 m2 pf2 r [H L] E. split; [eapply step_ready; eauto|]. rewrite <- L. destruct o as [best u|c l].
    - destruct (step_ask _ _ _ _ _ _ _ H E) as (_ & i & lab & _ & _ & _ & _ & L' & _). exact L'.
    - destruct (step_tell _ _ _ _ _ _ _ E) as (_ & _ & _ & (L' & _) & _). exact L'.
  Qed.

  (** what one step adds to the candidates of an optimizer *)
  Lemma step_pasks o m pf m' pf' r : ready pf -> step (m, pf) o = ((m', pf'), r) -> forall j s, nth_error (pf_subs pf) j = Some s ->
    exists s', nth_error (pf_subs pf') j = Some s' /\ length (pasks (pb_log s')) <= length (pasks (pb_log s)) + length (pasked [o]).
  Proof.
    intros R E j s Hs. destruct o as [best u|c l].
    - destruct (step_ask _ _ _ _ _ _ _ R E) as (_ & i & lab & _ & _ & _ & _ & _ & _ & _ & H). destruct (H j s Hs) as (s' & Hs' & A & B).
      exists s'. split; [exact Hs'|]. destruct (Nat.eq_dec j i) as [Hj|Hj]; [rewrite (A Hj), pasks_app, app_length; cbn; lia|rewrite (B Hj); lia].
    - destruct (step_tell _ _ _ _ _ _ _ E) as (_ & _ & _ & (_ & H) & _). destruct (H j s Hs) as (s' & Hs' & A & _). exists s'.
      split; [exact Hs'|]. rewrite A. lia.
  Qed.

  (** rotation *)
  Definition rotating (ops : list pfop) (pf : portfolio S) : Prop :=
    ready pf /\ (pf_alive pf = None -> 1 < length (pf_subs pf) ->
      pf_count pf = length (pasked ops) /\
      forall i s, nth_error (pf_subs pf) i = Some s -> pasks (pb_log s) = in_turn (su_turns su) 0 (pasked ops) i).
  Lemma rotating_step ops o m pf m' pf' r : rotating ops pf -> step (m, pf) o = ((m', pf'), r) -> rotating (ops ++ [o]) pf'.
  Proof.
    intros (R & H) E. split; [eapply step_ready; eauto|]. intros Hn Hl. destruct o as [best u|c l].
    - destruct (step_ask _ _ _ _ _ _ _ R E) as (_ & i & lab & Hi & Ha & _ & Hal & L & _ & _ & X).
      rewrite L in Hl. rewrite Hal in Hn. unfold answer in Ha. rewrite Hn in Ha.
      assert (Hnone : pf_alive pf = None) by (destruct (pf_alive pf) eqn:Ea; [rewrite (choose_alive _ _ _ _ Ea) in Hn; discriminate|reflexivity]).
      destruct (Nat.eqb_spec (length (pf_subs pf)) 1); [lia|]. destruct Ha as (Ht & -> & Ec).
      destruct (H Hnone Hl) as [Hc Hp]. rewrite pasked_app, app_length. cbn [pasked flat_map app length]. split; [lia|].
      intros k s' Hs'. assert (Hk : k < length (pf_subs pf)) by (rewrite <- L; apply nth_error_Some; congruence).
      destruct (nth_error (pf_subs pf) k) as [s|] eqn:Hs; [|apply nth_error_None in Hs; lia].
      destruct (X k s Hs) as (s2 & Hs2 & A & B). rewrite Hs2 in Hs'. injection Hs' as <-.
      rewrite in_turn_app. cbn [in_turn]. rewrite Nat.add_0_l, <- Hc, Ht, <- (Hp k s Hs).
      destruct (Nat.eqb_spec i k) as [->|Hik].
      + rewrite (A eq_refl), pasks_app. reflexivity.
      + rewrite (B ltac:(auto)), app_nil_r. reflexivity.
    - destruct (step_tell _ _ _ _ _ _ _ E) as (_ & Ec & Hal & (L & X) & _). rewrite Hal in Hn. rewrite L in Hl.
      destruct (H Hn Hl) as [Hc Hp]. rewrite pasked_app, app_nil_r. split; [congruence|].
      intros k s' Hs'. assert (Hk : k < length (pf_subs pf)) by (rewrite <- L; apply nth_error_Some; congruence).
      destruct (nth_error (pf_subs pf) k) as [s|] eqn:Hs; [|apply nth_error_None in Hs; lia].
      destruct (X k s Hs) as (s2 & Hs2 & A & _). rewrite Hs2 in Hs'. injection Hs' as <-. rewrite A. apply Hp, Hs.
  Qed.
  Lemma run_rotating m0 subs ops m pf rs : ready (portfolio_init S subs) -> run (m0, portfolio_init S subs) ops = ((m, pf), rs) -> rotating ops pf.
  Proof.
    intros R. apply (run_ind (fun ops _ pf => rotating ops pf)).
    - split; [exact R|]. intros _ _. split; [reflexivity|]. intros i s Hs. cbn in Hs. rewrite nth_error_map in Hs.
      destruct (nth_error subs i); [|discriminate]. injection Hs as <-. reflexivity.
    - intros. eapply rotating_step; eauto.
  Qed.

  (** labels *)
  Definition labelled_p (ops : list pfop) (m : meta) (pf : portfolio S) : Prop :=
    ready pf /\ (pf_alive pf = None -> 1 < length (pf_subs pf) ->
      (forall c i, dget c m = Some i -> exists s, nth_error (pf_subs pf) i = Some s /\ In c (pasks (pb_log s))) /\
      (NoDup (pasked ops) -> forall i s c, nth_error (pf_subs pf) i = Some s -> In c (pasks (pb_log s)) -> dget c m = Some i /\ In c (pasked ops))).
  Lemma run_labelled subs ops m pf rs : labels_own_p sub_ask -> ready (portfolio_init S subs) ->
    run ([], portfolio_init S subs) ops = ((m, pf), rs) -> labelled_p ops m pf.
  Proof.
    intros Ho R. apply (run_ind labelled_p).
    - split; [exact R|]. intros _ _. split; [discriminate|]. intros _ i s c Hs. cbn in Hs. rewrite nth_error_map in Hs.
      destruct (nth_error subs i); [|discriminate]. injection Hs as <-. intros [].
    - clear ops m pf rs. intros ops o m pf m' pf' r (R' & H) E. split; [eapply step_ready; eauto|]. intros Hn Hl.
      destruct o as [best u|c0 l].
      + destruct (step_ask _ _ _ _ _ _ _ R' E) as (_ & i & lab & Hi & Ha & _ & Hal & L & Hu & Hother & X). specialize (Hother Ho).
        rewrite L in Hl. rewrite Hal in Hn. unfold answer in Ha. rewrite Hn in Ha.
        assert (Hnone : pf_alive pf = None) by (destruct (pf_alive pf) eqn:Ea; [rewrite (choose_alive _ _ _ _ Ea) in Hn; discriminate|reflexivity]).
        destruct (Nat.eqb_spec (length (pf_subs pf)) 1); [lia|]. destruct Ha as (Ht & -> & Ec).
        destruct (H Hnone Hl) as [H1 H2]. split.
        * intros c k Hc. destruct (Nat.eq_dec c u) as [->|Hcu].
          -- rewrite Hu in Hc. injection Hc as <-. destruct (nth_error (pf_subs pf) i) as [s|] eqn:Hs; [|apply nth_error_None in Hs; lia].
             destruct (X i s Hs) as (s' & Hs' & A & _). exists s'. split; [exact Hs'|]. rewrite (A eq_refl), pasks_app. apply in_or_app. right. left. reflexivity.
          -- rewrite (Hother c Hcu) in Hc. destruct (H1 c k Hc) as (s & Hs & Hin). destruct (X k s Hs) as (s' & Hs' & A & B).
             exists s'. split; [exact Hs'|]. destruct (Nat.eq_dec k i) as [Hk|Hk]; [rewrite (A Hk), pasks_app; apply in_or_app; auto|rewrite (B Hk); exact Hin].
        * rewrite pasked_app. intros Hnd k s' c Hs' Hin. cbn in Hnd.
          assert (Hnu : ~ In u (pasked ops)) by (apply NoDup_remove_2 in Hnd; rewrite app_nil_r in Hnd; exact Hnd).
          assert (Hnd2 : NoDup (pasked ops)) by (apply NoDup_remove_1 in Hnd; rewrite app_nil_r in Hnd; exact Hnd).
          assert (Hk : k < length (pf_subs pf)) by (rewrite <- L; apply nth_error_Some; congruence).
          destruct (nth_error (pf_subs pf) k) as [s|] eqn:Hs; [|apply nth_error_None in Hs; lia].
          destruct (X k s Hs) as (s2 & Hs2 & A & B). rewrite Hs2 in Hs'. injection Hs' as <-.
          assert (Kold : In c (pasks (pb_log s)) -> dget c m' = Some k /\ In c (pasked ops ++ pasked [FAsk best u])).
          { intros Hin'. destruct (H2 Hnd2 k s c Hs Hin') as [D1 D2]. split; [|apply in_or_app; auto].
            rewrite Hother; [exact D1|]. intros ->. contradiction. }
          destruct (Nat.eq_dec k i) as [->|Hki].
          -- rewrite (A eq_refl), pasks_app in Hin. apply in_app_or in Hin as [Hin|[<-|[]]]; [apply Kold, Hin|].
             split; [exact Hu|]. apply in_or_app. right. left. reflexivity.
          -- rewrite (B Hki) in Hin. apply Kold, Hin.
      + destruct (step_tell _ _ _ _ _ _ _ E) as (-> & _ & Hal & (L & X) & _). rewrite Hal in Hn. rewrite L in Hl.
        destruct (H Hn Hl) as [H1 H2]. rewrite pasked_app, app_nil_r. split.
        * intros c k Hc. destruct (H1 c k Hc) as (s & Hs & Hin). destruct (X k s Hs) as (s' & Hs' & A & _). exists s'. rewrite A. auto.
        * intros Hnd k s' c Hs' Hin. assert (Hk : k < length (pf_subs pf)) by (rewrite <- L; apply nth_error_Some; congruence).
          destruct (nth_error (pf_subs pf) k) as [s|] eqn:Hs; [|apply nth_error_None in Hs; lia].
          destruct (X k s Hs) as (s2 & Hs2 & A & _). rewrite Hs2 in Hs'. injection Hs' as <-. rewrite A in Hin. eapply H2; eauto.
  Qed.

  (** after the choice *)
  Lemma run_alive m0 pf0 ops m pf rs i : ready pf0 -> pf_alive pf0 = Some i -> run (m0, pf0) ops = ((m, pf), rs) ->
    pf_alive pf = Some i /\
    (forall j s, j <> i -> nth_error (pf_subs pf0) j = Some s -> nth_error (pf_subs pf) j = Some s) /\
    (forall s, nth_error (pf_subs pf0) i = Some s -> exists s', nth_error (pf_subs pf) i = Some s' /\ pasks (pb_log s') = pasks (pb_log s) ++ pasked ops).
  Proof.
    intros R Ha E.
    assert (K : ready pf /\ pf_alive pf = Some i /\
    (forall j s, j <> i -> nth_error (pf_subs pf0) j = Some s -> nth_error (pf_subs pf) j = Some s) /\
    (forall s, nth_error (pf_subs pf0) i = Some s -> exists s', nth_error (pf_subs pf) i = Some s' /\ pasks (pb_log s') = pasks (pb_log s) ++ pasked ops)); [|apply K].
    revert E. apply (run_ind (fun ops _ pf => ready pf /\ pf_alive pf = Some i /\
    (forall j s, j <> i -> nth_error (pf_subs pf0) j = Some s -> nth_error (pf_subs pf) j = Some s) /\
    (forall s, nth_error (pf_subs pf0) i = Some s -> exists s', nth_error (pf_subs pf) i = Some s' /\ pasks (pb_log s') = pasks (pb_log s) ++ pasked ops))).
    - split; [exact R|]. split; [exact Ha|]. split; [auto|]. intros s Hs. exists s. split; [exact Hs|]. cbn. symmetry. apply app_nil_r.
    - clear ops m pf rs. intros ops o m pf m' pf' r (R' & Ha' & H1 & H2) E. split; [eapply step_ready; eauto|]. destruct o as [best u|c l].
      + destruct (step_ask _ _ _ _ _ _ _ R' E) as (_ & k & lab & Hk & Hans & _ & Hal & L & _ & _ & X).
        unfold answer in Hans. rewrite (choose_alive best m pf i Ha') in Hans, Hal. destruct Hans as (-> & _). split; [exact Hal|]. split.
        * intros j s Hj Hs. destruct (X j s (H1 j s Hj Hs)) as (s' & Hs' & _ & B). rewrite (B Hj) in Hs'. exact Hs'.
        * intros s Hs. destruct (H2 s Hs) as (s1 & Hs1 & E1). destruct (X i s1 Hs1) as (s2 & Hs2 & A & _). exists s2. split; [exact Hs2|].
          rewrite (A eq_refl), pasks_app, E1, pasked_app, app_assoc. reflexivity.
      + destruct (step_tell _ _ _ _ _ _ _ E) as (_ & _ & Hal & (L & X) & _). rewrite Ha' in X. split; [congruence|]. split.
        * intros j s Hj Hs. destruct (X j s (H1 j s Hj Hs)) as (s' & Hs' & _ & B). rewrite (B Hj) in Hs'. exact Hs'.
        * intros s Hs. destruct (H2 s Hs) as (s1 & Hs1 & E1). destruct (X i s1 Hs1) as (s2 & Hs2 & A & _). exists s2. split; [exact Hs2|].
          rewrite A, E1, pasked_app, app_nil_r. reflexivity.
  Qed.

  (** sampled starts *)
  Lemma step_logs o m pf m' pf' r : ready pf -> step (m, pf) o = ((m', pf'), r) -> forall j s, nth_error (pf_subs pf) j = Some s ->
    exists s' added, nth_error (pf_subs pf') j = Some s' /\ pb_log s' = pb_log s ++ added /\
      (added = [] \/ (exists u b, added = [PAsk u b] /\ (b = true -> 1 < j /\ fresh (pb_log s) = true)) \/ exists c l ok, added = [PTell c l ok]).
  Proof.
    intros R E j s Hs. destruct o as [best u|c l].
    - destruct (step_ask _ _ _ _ _ _ _ R E) as (_ & i & lab & _ & Ha & _ & _ & _ & _ & _ & H). destruct (H j s Hs) as (s' & Hs' & A & B).
      destruct (Nat.eq_dec j i) as [->|Hj].
      + exists s'. eexists. split; [exact Hs'|]. split; [apply A; reflexivity|]. right. left. eexists _, _. split; [reflexivity|].
        intros Hb. apply andb_true_iff in Hb as [Hb1 Hb2]. apply Nat.ltb_lt in Hb1. split; [|exact Hb2].
        unfold answer in Ha. destruct (choose best m pf); [destruct Ha as (_ & -> & _); lia|].
        destruct (length (pf_subs pf) =? 1); [destruct Ha as (_ & -> & _); lia|]. destruct Ha as (_ & -> & _). exact Hb1.
      + exists s', []. rewrite (B Hj) in *. rewrite app_nil_r. auto.
    - cbn [portfolio_step] in E. unfold portfolio_tell in E.
      destruct (tell_all S sub_tell (pf_alive pf) 0 c l (pf_subs pf)) as [subs n] eqn:Et.
      destruct (tell_all_asks _ _ _ _ _ _ _ Et) as [L H]. destruct (H j s Hs) as (s' & Hs' & _ & D).
      assert (Ep : pf_subs pf' = subs) by (destruct n as [[|n]|e]; injection E as _ <- _; reflexivity). rewrite Ep.
      destruct D as [->|(ok & D & _)]; [exists s, []; rewrite app_nil_r; auto|]. exists s', [PTell c l ok]. eauto 8.
  Qed.

  (** the tells, exactly *)
  Definition alive_at (alive : option nat) (j : nat) : Prop := match alive with Some i => j = i | None => True end.
  Lemma tell_all_exact (Hr : only_refuses sub_tell) alive c l subs : forall k subs' n, tell_all S sub_tell alive k c l subs = (subs', n) ->
    length subs' = length subs /\
    (exists x, n = Ok x /\ (x = 0 <-> forall j s, nth_error subs j = Some s -> alive_at alive (k + j) -> snd (sub_tell c l (pb s)) <> Ok tt)) /\
    forall j s, nth_error subs j = Some s -> exists s', nth_error subs' j = Some s' /\
      (alive_at alive (k + j) -> pb s' = fst (sub_tell c l (pb s)) /\ exists ok, pb_log s' = pb_log s ++ [PTell c l ok] /\ (ok = true <-> snd (sub_tell c l (pb s)) = Ok tt)) /\
      (~ alive_at alive (k + j) -> s' = s).
  Proof.
    induction subs as [|s0 subs IH]; intros k subs' n E; cbn [tell_all] in E.
    - injection E as <- <-. split; [reflexivity|]. split; [exists 0; split; [reflexivity|split; [intros _ [|j] s Hs; discriminate|reflexivity]]|].
      intros [|j] s Hs; discriminate.
    - destruct (tell_all S sub_tell alive (k + 1) c l subs) as [rest nr] eqn:Er.
      destruct (IH _ _ _ Er) as (L & (x & -> & Hx) & H). clear IH.
      assert (Hsh : forall j, k + 1 + j = k + Datatypes.S j) by (intros; lia).
      assert (Ht : forall s1, (alive_at alive (k + 0) -> pb s1 = fst (sub_tell c l (pb s0)) /\ exists ok, pb_log s1 = pb_log s0 ++ [PTell c l ok] /\ (ok = true <-> snd (sub_tell c l (pb s0)) = Ok tt)) ->
         (~ alive_at alive (k + 0) -> s1 = s0) ->
         forall j s, nth_error (s0 :: subs) j = Some s -> exists s', nth_error (s1 :: rest) j = Some s' /\
          (alive_at alive (k + j) -> pb s' = fst (sub_tell c l (pb s)) /\ exists ok, pb_log s' = pb_log s ++ [PTell c l ok] /\ (ok = true <-> snd (sub_tell c l (pb s)) = Ok tt)) /\
          (~ alive_at alive (k + j) -> s' = s)).
      { intros s1 A B [|j] s Hs; cbn in Hs; [injection Hs as <-; exists s1; auto|].
        destruct (H j s Hs) as (s' & Hs' & X). exists s'. split; [exact Hs'|]. rewrite <- Hsh. exact X. }
      assert (Hz : (alive_at alive (k + 0) -> snd (sub_tell c l (pb s0)) <> Ok tt) ->
         (x = 0 <-> forall j s, nth_error (s0 :: subs) j = Some s -> alive_at alive (k + j) -> snd (sub_tell c l (pb s)) <> Ok tt)).
      { intros A. rewrite Hx. split.
        - intros X [|j] s Hs; cbn in Hs; [injection Hs as <-; exact A|]. rewrite <- Hsh. apply X, Hs.
        - intros X j s Hs. rewrite Hsh. apply (X (Datatypes.S j) s Hs). }
      destruct (match alive with Some i => k =? i | None => true end) eqn:Ea.
      + assert (Ha : alive_at alive (k + 0)) by (destruct alive; cbn; [apply Nat.eqb_eq in Ea; lia|exact I]).
        pose proof (Hr c l (pb s0)) as Hcase. destruct (sub_tell c l (pb s0)) as [s1 r] eqn:Et. cbn [fst snd] in *.
        destruct Hcase as [-> | ->]; injection E as <- <-.
        * split; [cbn; congruence|]. split.
          -- eexists. split; [reflexivity|]. split; [discriminate|]. intros X. exfalso.
             apply (X 0 s0 eq_refl Ha). rewrite Et. reflexivity.
          -- apply Ht; [|contradiction]. intros _. split; [reflexivity|]. exists true. split; [reflexivity|tauto].
        * split; [cbn; congruence|]. split.
          -- exists x. split; [reflexivity|]. apply Hz. intros _. discriminate.
          -- apply Ht; [|contradiction]. intros _. split; [reflexivity|]. exists false. split; [reflexivity|]. split; discriminate.
      + assert (Ha : ~ alive_at alive (k + 0)).
        { destruct alive; cbn; [apply Nat.eqb_neq in Ea; lia|discriminate]. }
        injection E as <- <-. split; [cbn; congruence|]. split.
        * exists x. split; [reflexivity|]. apply Hz. contradiction.
        * apply Ht; [contradiction|reflexivity].
  Qed.

  Lemma no_warmup m0 subs ops m pf rs : su_warmup su = None -> ready (portfolio_init S subs) ->
    run (m0, portfolio_init S subs) ops = ((m, pf), rs) -> pf_alive pf = None.
  Proof.
    intros Hw R E. assert (K : ready pf /\ pf_alive pf = None); [|apply K]. revert E.
    apply (run_ind (fun _ _ pf => ready pf /\ pf_alive pf = None)); [auto|].
    intros ops' o m1 pf1 m2 pf2 r [R1 H] E. split; [eapply step_ready; eauto|]. destruct o as [best u|c l].
    - destruct (step_ask _ _ _ _ _ _ _ R1 E) as (_ & i & lab & _ & _ & _ & Hal & _). rewrite Hal. unfold Portfolio.choose. rewrite H, Hw. reflexivity.
    - destruct (step_tell _ _ _ _ _ _ _ E) as (_ & _ & Hal & _). congruence.
  Qed.
  Lemma pasks_bound m0 subs ops m pf rs : ready (portfolio_init S subs) -> run (m0, portfolio_init S subs) ops = ((m, pf), rs) ->
    forall i s, nth_error (pf_subs pf) i = Some s -> length (pasks (pb_log s)) <= length (pasked ops).
  Proof.
    intros R E. assert (K : ready pf /\ forall i s, nth_error (pf_subs pf) i = Some s -> length (pasks (pb_log s)) <= length (pasked ops)); [|apply K]. revert E.
    apply (run_ind (fun ops _ pf => ready pf /\ forall i s, nth_error (pf_subs pf) i = Some s -> length (pasks (pb_log s)) <= length (pasked ops))).
    - split; [exact R|]. intros i s Hs. cbn in Hs. rewrite nth_error_map in Hs. destruct (nth_error subs i); [|discriminate]. injection Hs as <-. cbn. lia.
    - intros ops' o m1 pf1 m2 pf2 r [R1 H] E. split; [eapply step_ready; eauto|]. intros i s Hs.
      assert (L : length (pf_subs pf2) = length (pf_subs pf1)).
      { destruct o as [best u|c l]; [destruct (step_ask _ _ _ _ _ _ _ R1 E) as (_ & ? & ? & _ & _ & _ & _ & L & _); exact L|].
        destruct (step_tell _ _ _ _ _ _ _ E) as (_ & _ & _ & (L & _) & _). exact L. }
      destruct (nth_error (pf_subs pf1) i) as [s1|] eqn:Hs1.
      + destruct (step_pasks _ _ _ _ _ _ R1 E i s1 Hs1) as (s2 & Hs2 & X). rewrite Hs2 in Hs. injection Hs as <-.
        specialize (H i s1 Hs1). rewrite pasked_app, app_length. lia.
      + exfalso. apply nth_error_None in Hs1. assert (i < length (pf_subs pf2)) by (apply nth_error_Some; congruence). lia.
  Qed.

  (** sequential histories: the warm-up *)
  Lemma sequential_bound num W subs l m pf rs : su_turns su = seq 0 num -> length subs = num -> su_warmup su = Some W ->
    ready (portfolio_init S subs) -> run ([], portfolio_init S subs) (sequential l) = ((m, pf), rs) -> Forall (fun r => r = Ok tt) rs ->
    forall i s, nth_error (pf_subs pf) i = Some s ->
    length (pasks (pb_log s)) <= ceil_div (Nat.min (length l) (W + 1)) num + (length l - (W + 1)).
  Proof.
    intros Ht Hnum HW R E Hrs.
    assert (Hlen : 0 < num) by (destruct R as (R1 & _); cbn in R1; rewrite map_length in R1; lia).
    assert (Hpl : forall l, pasked (sequential l) = map (fun x => snd (fst x)) l).
    { clear. induction l as [|x l IH]; [reflexivity|]. cbn. f_equal. exact IH. }
    assert (K : ready pf /\ length (pf_subs pf) = num /\ pf_tell pf = length l /\ (length l <= W + 1 -> pf_alive pf = None) /\
      forall i s, nth_error (pf_subs pf) i = Some s -> length (pasks (pb_log s)) <= ceil_div (Nat.min (length l) (W + 1)) num + (length l - (W + 1))); [|apply K].
    revert m pf rs E Hrs. induction l as [|x l IH] using rev_ind; intros m pf rs E Hrs.
    - cbn in E. injection E as <- <- <-. split; [exact R|]. split; [cbn; rewrite map_length; exact Hnum|]. split; [reflexivity|]. split; [reflexivity|].
      intros i s Hs. cbn in Hs. rewrite nth_error_map in Hs. destruct (nth_error subs i); [|discriminate]. injection Hs as <-. cbn. lia.
    - pose proof E as E0. unfold sequential in E. rewrite flat_map_app in E. fold (sequential l) in E. cbn [flat_map app] in E.
      pose proof (run_app (sequential l) [FAsk (fst (fst x)) (snd (fst x)); FTell (snd (fst x)) (snd x)] ([], portfolio_init S subs)) as [A B].
      rewrite E in A, B. cbn [fst snd] in A, B.
      destruct (run ([], portfolio_init S subs) (sequential l)) as [[m1 pf1] rs1] eqn:E1. cbn [fst snd] in A, B.
      subst rs. apply Forall_app in Hrs as [Hrs1 Hrs2]. destruct (IH _ _ _ eq_refl Hrs1) as (R1 & L1 & T1 & A1 & B1). clear IH.
      cbn [portfolio_run] in A, Hrs2.
      destruct (step (m1, pf1) (FAsk (fst (fst x)) (snd (fst x)))) as [[m2 pf2] r2] eqn:E2.
      destruct (step (m2, pf2) (FTell (snd (fst x)) (snd x))) as [[m3 pf3] r3] eqn:E3. cbn [fst snd] in A, Hrs2. injection A as -> ->.
      pose proof (Forall_inv (Forall_inv_tail Hrs2)) as X. cbn in X. subst r3. clear Hrs2.
      destruct (step_ask _ _ _ _ _ _ _ R1 E2) as (_ & k & lab & Hk & Hans & T2 & Hal2 & L2 & _ & _ & X2).
      destruct (step_tell _ _ _ _ _ _ _ E3) as (_ & _ & Hal3 & (L3 & X3) & T3 & _). specialize (T3 eq_refl).
      assert (R3 : ready pf3) by (eapply step_ready; [|exact E3]; eapply step_ready; eauto).
      assert (Hal : length (l ++ [x]) <= W + 1 -> pf_alive pf3 = None).
      { rewrite app_length. cbn. intros H. rewrite Hal3, Hal2. unfold Portfolio.choose. rewrite (A1 ltac:(lia)), HW, T1.
        destruct (Nat.ltb_spec W (length l)); [lia|]. rewrite andb_false_r. reflexivity. }
      split; [exact R3|]. split; [congruence|]. split; [rewrite app_length; cbn; lia|]. split; [exact Hal|].
      intros i s Hs. assert (Hi : i < num) by (rewrite <- L1, <- L2, <- L3; apply nth_error_Some; congruence).
      destruct (Nat.le_gt_cases (length (l ++ [x])) (W + 1)) as [H|H].
      + rewrite Nat.min_l by exact H. specialize (Hal H).
        destruct (Nat.eq_dec num 1) as [->|Hn1].
        * pose proof (pasks_bound _ _ _ _ _ _ R E0 i s Hs) as Y. rewrite Hpl, map_length in Y.
          pose proof (ceil_div_spec (length (l ++ [x])) 1 ltac:(lia)) as Z. unfold rounded_up in Z. lia.
        * destruct (run_rotating _ _ _ _ _ _ R E0) as (_ & Hrot). destruct (Hrot Hal ltac:(lia)) as (_ & Y). rewrite (Y i s Hs), Ht.
          pose proof (round_robin num i Hlen Hi (pasked (sequential (l ++ [x]))) 0) as Z. rewrite Hpl, map_length in *. lia.
      + rewrite app_length in *. cbn [length] in *. rewrite Nat.min_r by lia.
        destruct (nth_error (pf_subs pf1) i) as [s1|] eqn:Hs1; [|apply nth_error_None in Hs1; lia].
        specialize (B1 i s1 Hs1). destruct (X2 i s1 Hs1) as (s2 & Hs2 & Y1 & Y2). destruct (X3 i s2 Hs2) as (s3 & Hs3 & Y3 & _).
        rewrite Hs3 in Hs. injection Hs as <-. rewrite Y3.
        assert (Y : length (pasks (pb_log s2)) <= length (pasks (pb_log s1)) + 1).
        { destruct (Nat.eq_dec i k) as [Hik|Hik]; [rewrite (Y1 Hik), pasks_app, app_length; cbn; lia|rewrite (Y2 Hik); lia]. }
        destruct (Nat.le_gt_cases (length l) (W + 1)) as [H'|H'].
        * assert (length l = W + 1) by lia. rewrite Nat.min_l in B1 by lia. replace (W + 1) with (length l) by lia. lia.
        * rewrite Nat.min_r in B1 by lia. lia.
  Qed.
End Portfolio.

(** ** The setup of a portfolio *)
Lemma setup_facts nps budget nw warmup su : nps <> [] -> 1 <= nw -> portfolio_setup nps budget nw warmup = Ok su ->
  su_workers su = map (fun np : bool => if np then 1 else su_sub_workers su) nps /\ 1 <= su_sub_workers su /\
  su_turns su = turns_of (su_workers su) 0 /\ nw <= length nps * su_sub_workers su /\
  (length nps < nw -> match warmup with Some r => ~ (r == 1)%Q | None => True end ->
     nw <= length (filter (fun b => b) nps) + (length nps - length (filter (fun b => b) nps)) * su_sub_workers su) /\
  (nw <= length nps -> su_sub_workers su = 1).
Proof.
  intros Hne Hnw E. unfold portfolio_setup in E.
  assert (Hlen : 0 < length nps) by (destruct nps; [congruence|cbn; lia]).
  set (num := length nps) in *. set (np := length (filter (fun b => b) nps)) in *.
  assert (Hnp : np <= num) by apply filter_le.
  set (non := if nw <=? num then 0 else np) in *.
  assert (Hnon : non <= num /\ (nw <= num -> non = 0) /\ (num < nw -> non = np)).
  { unfold non. destruct (Nat.leb_spec nw num); repeat split; intros; lia. }
  destruct (Nat.eqb_spec (num - non) 0) as [|Hp]; [discriminate|].
  set (dist := match warmup with Some r => Qeq_bool r 1 | None => false end) in *.
  set (sw := if dist then ceil_div nw num else Nat.max 1 (ceil_div (nw - non) (num - non))) in *.
  destruct (Nat.ltb_spec (num * sw) nw) as [|H1]; [discriminate|].
  destruct (Nat.ltb_spec sw 1) as [|H2]; [discriminate|].
  pose proof (ceil_div_spec nw num Hlen) as C1. pose proof (ceil_div_spec (nw - non) (num - non) ltac:(lia)) as C2. unfold rounded_up in *.
  assert (F : su_workers su = map (fun np : bool => if np then 1 else su_sub_workers su) nps /\ su_sub_workers su = sw /\ su_turns su = turns_of (su_workers su) 0).
  { assert (T : forall ws, length ws = num -> flat_map (fun iw : nat * nat => repeat (fst iw) (snd iw)) (combine (seq 0 num) ws) = turns_of ws 0).
    { intros ws Hw. unfold turns_of. rewrite Hw. reflexivity. }
    destruct warmup as [r|]; [destruct budget as [b|]; [|discriminate]|]; injection E as <-; cbn; (split; [reflexivity|]); (split; [reflexivity|]); apply T, map_length. }
  destruct F as (F1 & F2 & F3). rewrite F2 in *. split; [exact F1|]. split; [exact H2|]. split; [exact F3|]. split; [lia|]. split.
  - intros Hlt Hr. destruct Hnon as (_ & _ & Hnon). specialize (Hnon Hlt). rewrite Hnon in *.
    assert (Ed : dist = false).
    { unfold dist. destruct warmup as [r|]; [|reflexivity]. destruct (Qeq_bool r 1) eqn:Eq; [|reflexivity]. apply Qeq_bool_iff in Eq. contradiction. }
    unfold sw. rewrite Ed, Hnon. set (c := ceil_div (nw - np) (num - np)) in *. clearbody c.
    pose proof (Nat.mul_le_mono_l c (Nat.max 1 c) (num - np) ltac:(lia)). lia.
  - intros Hle. destruct Hnon as (_ & Hnon & _). specialize (Hnon Hle). rewrite Hnon, !Nat.sub_0_r in *.
    assert (ceil_div nw num = 1) by nia. unfold sw. rewrite Hnon, !Nat.sub_0_r. destruct dist; lia.
Qed.

Lemma setup_ready S nps budget nw warmup su (subs : list S) : nps <> [] -> 1 <= nw -> portfolio_setup nps budget nw warmup = Ok su ->
  length subs = length nps -> ready S su (portfolio_init S subs).
Proof.
  intros Hne Hnw E Hl. destruct (setup_facts _ _ _ _ _ Hne Hnw E) as (F1 & F2 & F3 & _).
  assert (Lw : length (su_workers su) = length nps) by (rewrite F1, map_length; reflexivity).
  apply init_ready; rewrite ?Hl.
  - destruct nps; [congruence|cbn; lia].
  - rewrite F3, turns_length, F1. destruct nps as [|b nps]; [congruence|]. cbn. destruct b; lia.
  - intros i Hi. rewrite F3 in Hi. apply turns_in in Hi. lia.
  - exact Lw.
Qed.
Lemma turns_ones ws : (forall w, In w ws -> w = 1) -> forall off, turns_of ws off = seq off (length ws).
Proof.
  induction ws as [|w ws IH]; intros H off; [reflexivity|]. rewrite turns_cons, (H w (or_introl eq_refl)), IH; [reflexivity|].
  intros x Hx. apply H. right. exact Hx.
Qed.
Lemma setup_ones nps budget nw warmup su : nps <> [] -> 1 <= nw <= length nps -> portfolio_setup nps budget nw warmup = Ok su ->
  su_turns su = seq 0 (length nps).
Proof.
  intros Hne [H1 H2] E. destruct (setup_facts _ _ _ _ _ Hne H1 E) as (F1 & _ & F3 & _ & _ & F6). specialize (F6 H2).
  rewrite F3, turns_ones; [rewrite F1, map_length; reflexivity|]. intros w Hw. rewrite F1, F6 in Hw.
  apply in_map_iff in Hw as (b & <- & _). destruct b; reflexivity.
Qed.

(** ** Roundings *)
Lemma qint_spec x : (0 <= x)%Q -> (inject_Z (Z.of_nat (qint x)) <= x)%Q /\ (x < inject_Z (Z.of_nat (qint x + 1)))%Q.
Proof.
  intros H. unfold qint. assert (Hf : (0 <= Qfloor x)%Z) by (change 0%Z with (Qfloor 0); apply Qfloor_resp_le, H).
  split.
  - rewrite Z2Nat.id by exact Hf. apply Qfloor_le.
  - replace (Z.of_nat (Z.to_nat (Qfloor x) + 1)) with (Qfloor x + 1)%Z by lia. apply Qlt_floor.
Qed.
Lemma qint_ge n x : (inject_Z (Z.of_nat n) <= x)%Q -> n <= qint x.
Proof.
  intros H. unfold qint. apply Qfloor_resp_le in H. rewrite Qfloor_Z in H. lia.
Qed.
Lemma qceil_ge n x : (inject_Z (Z.of_nat n) <= x)%Q -> n <= qceil x.
Proof.
  intros H. unfold qceil. pose proof (Qle_ceiling x) as C. assert (K : (inject_Z (Z.of_nat n) <= inject_Z (Qceiling x))%Q) by (eapply Qle_trans; eauto).
  rewrite <- Zle_Qle in K. lia.
Qed.

From Coq Require Import List Arith QArith Lia Bool.
From Verif.Model Require Import Prelude Chain.
From Verif.Spec Require Import Chain.
From Verif.Proofs Require Import Prelude.
Import ListNotations.
Open Scope nat_scope.

(** ** totals *)
Lemma total_S bs k : total bs (k + 1) = match total bs k, nth_error bs k with
  | Some x, Some (Some b) => Some (x + b) | Some x, None => Some x | _, _ => None end.
Proof.
  revert k. induction bs as [|b bs IH]; intros [|k]; try reflexivity.
  - cbn. destruct b as [b|]; [|reflexivity]. destruct bs; cbn; f_equal; lia.
  - cbn [total nth_error Nat.add]. destruct b as [b|]; [|reflexivity]. rewrite IH.
    destruct (total bs k) as [x|]; [|reflexivity]. destruct (nth_error bs k) as [[y|]|]; try reflexivity. f_equal. lia.
Qed.

Lemma below_mono bs n i j : i <= j -> below n (total bs i) -> below n (total bs j).
Proof.
  intros H. induction H as [|j H IH]; [auto|]. intros Hb. specialize (IH Hb).
  replace (S j) with (j + 1) by lia. rewrite total_S.
  destruct (total bs j) as [x|]; [|exact I]. destruct (nth_error bs j) as [[b|]|]; cbn in *; try exact I; lia.
Qed.

Lemma total_over bs k : length bs <= k -> total bs k = total bs (length bs).
Proof.
  revert k. induction bs as [|b bs IH]; intros [|k] H; try reflexivity; [cbn in H; lia|].
  cbn [total length]. destruct b; [|reflexivity]. rewrite IH by (cbn in H; lia). reflexivity.
Qed.

Lemma in_charge_unique bs n i j : in_charge bs n i -> in_charge bs n j -> i = j.
Proof.
  assert (K : forall i j, in_charge bs n i -> in_charge bs n j -> i < j -> False).
  { intros i' j' (A1 & A2 & A3) (B1 & B2 & B3) H. destruct A3 as [A3|A3]; [|lia].
    apply B2. apply (below_mono bs n (i' + 1) j'); [lia|exact A3]. }
  intros A B. destruct (Nat.lt_trichotomy i j) as [H|[H|H]]; [exfalso; eauto|exact H|exfalso; eauto].
Qed.

Lemma pick_some bs : forall n sum k0 k, sum <= n -> pick n sum k0 bs = Some k ->
  exists j, k = k0 + j /\ j < length bs /\ ~ below (n - sum) (total bs j) /\ below (n - sum) (total bs (j + 1)).
Proof.
  induction bs as [|b bs IH]; intros n sum k0 k Hs E; [discriminate|]. cbn [pick] in E. destruct b as [b|].
  - destruct (Nat.ltb_spec n (sum + b)) as [H|H].
    + injection E as <-. exists 0. split; [lia|]. split; [cbn; lia|]. split; [cbn; lia|]. cbn. destruct bs; cbn; lia.
    + apply IH in E as (j & -> & Hj & A & B); [|exact H]. exists (S j). split; [lia|]. split; [cbn; lia|].
      cbn [total Nat.add]. split.
      * destruct (total bs j) as [x|]; cbn in *; [lia|tauto].
      * destruct (total bs (j + 1)) as [x|]; cbn in *; [lia|tauto].
  - injection E as <-. exists 0. split; [lia|]. split; [cbn; lia|]. split; [cbn; lia|]. exact I.
Qed.
Lemma pick_none bs : forall n sum k0, sum <= n -> pick n sum k0 bs = None ->
  exists x, total bs (length bs) = Some x /\ x <= n - sum.
Proof.
  induction bs as [|b bs IH]; intros n sum k0 Hs E; [exists 0; cbn; split; [reflexivity|lia]|].
  cbn [pick] in E. destruct b as [b|]; [|discriminate]. destruct (Nat.ltb_spec n (sum + b)) as [H|H]; [discriminate|].
  apply IH in E as (x & Ex & Hx); [|exact H]. exists (b + x). cbn [total length]. rewrite Ex. split; [reflexivity|lia].
Qed.

Lemma chosen_charge bs n : bs <> [] -> in_charge bs n (chosen bs n).
Proof.
  intros Hne. unfold chosen. destruct (pick n 0 0 bs) as [k|] eqn:E.
  - apply pick_some in E as (j & -> & Hj & A & B); [|lia]. rewrite Nat.sub_0_r in *. split; [exact Hj|]. split; [exact A|left; exact B].
  - apply pick_none in E as (x & Ex & Hx); [|lia]. destruct bs as [|b bs]; [congruence|]. clear Hne.
    set (l := b :: bs) in *. assert (Hl : 1 <= length l) by (cbn; lia). clearbody l.
    split; [lia|]. split; [|right; lia]. intros H.
    apply (below_mono l n (length l - 1) (length l)) in H; [|lia]. rewrite Ex in H. cbn in H. lia.
Qed.
Lemma label_charge bs n : bs <> [] -> below n (total bs (length bs)) -> label bs n = chosen bs n.
Proof.
  intros Hne Hb. unfold label, chosen. destruct (pick n 0 0 bs) as [k|] eqn:E; [reflexivity|].
  apply pick_none in E as (x & Ex & Hx); [|lia]. rewrite Ex in Hb. cbn in Hb. lia.
Qed.

Lemma update_nth {A} (f : A -> A) l : forall k j, nth_error (update k f l) j = if j =? k then option_map f (nth_error l j) else nth_error l j.
Proof.
  induction l as [|x l IH]; intros [|k] [|j]; cbn; try reflexivity.
  - destruct (j =? k); reflexivity.
  - apply IH.
Qed.
Lemma update_length {A} (f : A -> A) l : forall k, length (update k f l) = length l.
Proof. induction l as [|x l IH]; intros [|k]; cbn; auto. Qed.

Section Chain.
  Variable S : Type.
  Variable sub_ask : nat -> meta -> S -> meta * S.
  Variable sub_tell : nat -> Q -> meta -> S -> S * result unit.
  Variable bs : list (option nat).
  Variable no_crossing : bool.
  Hypothesis Hne : bs <> [].

  Notation internal_ask := (internal_ask S sub_ask bs).
  Notation internal_tell := (internal_tell S sub_tell no_crossing).
  Notation rejections := (rejections S sub_ask bs).
  Notation step := (chain_step S sub_ask sub_tell bs no_crossing).
  Notation run := (chain_run S sub_ask sub_tell bs no_crossing).

  Lemma internal_ask_spec n u m subs m' subs' : length subs = length bs -> internal_ask n u m subs = (m', subs') ->
    length subs' = length subs /\ dget u m' = Some (label bs n) /\
    forall k s, nth_error subs k = Some s -> exists s', nth_error subs' k = Some s' /\
      (in_charge bs n k /\ sb_log s' = sb_log s ++ [CAsk u] \/ ~ in_charge bs n k /\ s' = s).
  Proof.
    intros Hl E. unfold Chain.internal_ask in E. pose proof (chosen_charge bs n Hne) as Hc.
    assert (Hlt : chosen bs n < length subs) by (rewrite Hl; apply Hc).
    destruct (nth_error subs (chosen bs n)) as [s|] eqn:En; [|apply nth_error_None in En; lia].
    destruct (sub_ask u m (sb s)) as [m1 s1]. injection E as <- <-.
    split; [apply update_length|]. split; [rewrite dget_dset, Nat.eqb_refl; reflexivity|].
    intros k x Hx. rewrite update_nth. destruct (Nat.eqb_spec k (chosen bs n)) as [->|Hk].
    - rewrite Hx. cbn. eexists. split; [reflexivity|]. left. split; [exact Hc|]. cbn. congruence.
    - exists x. split; [exact Hx|]. right. split; [|reflexivity]. intros H. apply Hk. eapply in_charge_unique; eauto.
  Qed.

  Lemma internal_ask_meta n u m subs m' subs' c : labels_own sub_ask -> internal_ask n u m subs = (m', subs') -> c <> u -> dget c m' = dget c m.
  Proof.
    intros Ho E Hc. unfold Chain.internal_ask in E. destruct (nth_error subs (chosen bs n)) as [s|]; [|congruence].
    pose proof (Ho u m (sb s) c Hc) as X. destruct (sub_ask u m (sb s)) as [m1 s1]. injection E as <- <-.
    rewrite dget_dset. destruct (Nat.eqb_spec c u); [contradiction|exact X].
  Qed.

  Lemma rejections_spec us : forall n m subs m' subs', length subs = length bs -> rejections n us m subs = (m', subs') ->
    length subs' = length subs /\
    forall k s, nth_error subs k = Some s -> exists s' vs, nth_error subs' k = Some s' /\
      dealt bs k n us vs /\ sb_log s' = sb_log s ++ map CAsk vs.
  Proof.
    induction us as [|u us IH]; intros n m subs m' subs' Hl E; cbn in E.
    - injection E as <- <-. split; [reflexivity|]. intros k s Hs. exists s, []. split; [exact Hs|]. split; [constructor|].
      cbn. now rewrite app_nil_r.
    - destruct (internal_ask n u m subs) as [m1 subs1] eqn:E1.
      destruct (internal_ask_spec _ _ _ _ _ _ Hl E1) as (L1 & _ & H1).
      destruct (IH _ _ _ _ _ (eq_trans L1 Hl) E) as (L2 & H2). split; [congruence|].
      intros k s Hs. destruct (H1 k s Hs) as (s1 & Hs1 & H). destruct (H2 k s1 Hs1) as (s2 & vs & Hs2 & D & Elog).
      exists s2. destruct H as [[Hc El]|[Hc ->]].
      + exists (u :: vs). split; [exact Hs2|]. split; [constructor; assumption|]. rewrite Elog, El, <- app_assoc. reflexivity.
      + exists vs. split; [exact Hs2|]. split; [apply dealt_other; assumption|exact Elog].
  Qed.

  Definition plus (x y : option nat) : option nat := match x, y with Some a, Some b => Some (a + b) | _, _ => None end.

  Lemma internal_tell_spec n c l m : forall bs0 subs sum k0 subs', length subs = length bs0 ->
    internal_tell n c l m sum k0 bs0 subs = (subs', Ok tt) ->
    length subs' = length subs /\
    forall k s, nth_error subs k = Some s -> exists s', nth_error subs' k = Some s' /\
      ((below n (plus sum (total bs0 (k + 1))) \/ k + 1 = length bs0) /\ (no_crossing = true -> dget c m = Some (k0 + k)) /\
         sb_log s' = sb_log s ++ [CTell c l] \/
       ~ ((below n (plus sum (total bs0 (k + 1))) \/ k + 1 = length bs0) /\ (no_crossing = true -> dget c m = Some (k0 + k))) /\ s' = s).
  Proof.
    induction bs0 as [|b bs0 IH]; intros [|s0 subs] sum k0 subs' Hl E; try discriminate.
    - cbn in E. injection E as <-. split; [reflexivity|]. intros [|k] s Hs; discriminate.
    - cbn [Chain.internal_tell] in E.
      set (sum' := match sum, b with Some x, Some b => if match bs0 with [] => true | _ => false end then None else Some (x + b) | _, _ => None end) in E.
      set (told := (match sum' with None => true | Some x => n <? x end) && negb (no_crossing && match dget c m with None => true | Some i => negb (k0 =? i) end)) in E.
      assert (Hsum : forall k, k < length bs0 ->
        (below n (plus sum' (total bs0 (k + 1))) \/ k + 1 = length bs0) <->
        (below n (plus sum (total (b :: bs0) (k + 1 + 1))) \/ k + 1 + 1 = length (b :: bs0))).
      { intros k Hk. replace (k + 1 + 1) with (Datatypes.S (k + 1)) by lia. cbn [total length].
        unfold sum'. destruct bs0 as [|b0 bs0]; [cbn in Hk; lia|].
        destruct sum as [x|], b as [b|]; cbn [plus].
        - destruct (total (b0 :: bs0) (k + 1)) as [y|]; cbn [below plus]; [|intuition lia].
          replace (x + (b + y)) with (x + b + y) by lia. intuition lia.
        - cbn. intuition lia.
        - cbn. intuition lia.
        - cbn. intuition lia. }
      assert (Htold : told = true <-> (below n (plus sum (total (b :: bs0) 1)) \/ 1 = length (b :: bs0)) /\ (no_crossing = true -> dget c m = Some k0)).
      { unfold told. rewrite andb_true_iff, negb_true_iff.
        assert (A : (match sum' with None => true | Some x => n <? x end) = true <-> (below n (plus sum (total (b :: bs0) 1)) \/ 1 = length (b :: bs0))).
        { unfold sum'. cbn [total length]. destruct bs0 as [|b0 bs0].
          - destruct sum as [x|], b as [b|]; cbn; split; auto.
          - change (total (b0 :: bs0) 0) with (Some 0). destruct sum as [x|], b as [b|]; cbn [plus below length]; rewrite ?Nat.add_0_r, ?Nat.ltb_lt; intuition lia. }
        assert (B : (no_crossing && match dget c m with None => true | Some i => negb (k0 =? i) end) = false <-> (no_crossing = true -> dget c m = Some k0)).
        { destruct no_crossing; cbn; [|split; easy]. destruct (dget c m) as [i|]; [|split; [discriminate|intros H; specialize (H eq_refl); discriminate]].
          rewrite negb_false_iff, Nat.eqb_eq. split; [intros ->; reflexivity|intros H; specialize (H eq_refl); congruence]. }
        rewrite A, B. reflexivity. }
      assert (Hrest : forall rest, internal_tell n c l m sum' (k0 + 1) bs0 subs = (rest, Ok tt) ->
        length rest = length subs /\
        forall k s, nth_error subs k = Some s -> exists s', nth_error rest k = Some s' /\
        ((below n (plus sum (total (b :: bs0) (k + 1 + 1))) \/ k + 1 + 1 = length (b :: bs0)) /\ (no_crossing = true -> dget c m = Some (k0 + (k + 1))) /\
           sb_log s' = sb_log s ++ [CTell c l] \/
         ~ ((below n (plus sum (total (b :: bs0) (k + 1 + 1))) \/ k + 1 + 1 = length (b :: bs0)) /\ (no_crossing = true -> dget c m = Some (k0 + (k + 1)))) /\ s' = s)).
      { intros rest Er. cbn in Hl. destruct (IH subs sum' (k0 + 1) rest (ltac:(lia)) Er) as (L & H). split; [exact L|].
        intros k s Hs. destruct (H k s Hs) as (s' & Hs' & X). exists s'. split; [exact Hs'|].
        assert (Hk : k < length bs0) by (assert (k < length subs) by (apply nth_error_Some; congruence); lia).
        rewrite (Hsum k Hk) in X. replace (k0 + 1 + k) with (k0 + (k + 1)) in X by lia. exact X. }
      destruct told eqn:Et.
      + destruct (sub_tell c l m (sb s0)) as [s' r]. destruct r as [[]|e]; [|discriminate].
        destruct (internal_tell n c l m sum' (k0 + 1) bs0 subs) as [rest r] eqn:Er. injection E as <- ->.
        destruct (Hrest _ eq_refl) as (L & H). split; [cbn; congruence|].
        intros [|k] s Hs.
        * cbn in Hs. injection Hs as <-. eexists. split; [reflexivity|]. left. rewrite Nat.add_0_r.
          destruct (proj1 Htold eq_refl) as [A B]. split; [exact A|]. split; [exact B|reflexivity].
        * cbn in Hs. destruct (H k s Hs) as (s2 & Hs2 & X). exists s2. split; [exact Hs2|].
          replace (Datatypes.S k) with (k + 1) by lia. exact X.
      + destruct (internal_tell n c l m sum' (k0 + 1) bs0 subs) as [rest r] eqn:Er. injection E as <- ->.
        destruct (Hrest _ eq_refl) as (L & H). split; [cbn; congruence|].
        intros [|k] s Hs.
        * cbn in Hs. injection Hs as <-. exists s0. split; [reflexivity|]. right. rewrite Nat.add_0_r. split; [|reflexivity].
          intros X. apply Htold in X. discriminate.
        * cbn in Hs. destruct (H k s Hs) as (s2 & Hs2 & X). exists s2. split; [exact Hs2|].
          replace (Datatypes.S k) with (k + 1) by lia. exact X.
  Qed.

  (** one tell *)
  Lemma tell_spec c l m (ch : chain S) ch' : length (ch_subs ch) = length bs ->
    chain_tell S sub_tell bs no_crossing c l m ch = (ch', Ok tt) ->
    ch_ask ch' = ch_ask ch /\ ch_tell ch' = ch_tell ch + 1 /\ length (ch_subs ch') = length bs /\
    forall k s, nth_error (ch_subs ch) k = Some s -> exists s', nth_error (ch_subs ch') k = Some s' /\
      (informed bs (ch_tell ch) k /\ (no_crossing = true -> dget c m = Some k) /\ sb_log s' = sb_log s ++ [CTell c l] \/
       ~ (informed bs (ch_tell ch) k /\ (no_crossing = true -> dget c m = Some k)) /\ s' = s).
  Proof.
    intros Hl E. unfold chain_tell in E. destruct (internal_tell (ch_tell ch) c l m (Some 0) 0 bs (ch_subs ch)) as [subs r] eqn:Ei.
    destruct r as [[]|e]; [|discriminate]. injection E as <-.
    destruct (internal_tell_spec _ _ _ _ _ _ _ _ _ Hl Ei) as (L & H). repeat split; try assumption; [cbn; congruence|].
    intros k s Hs. destruct (H k s Hs) as (s' & Hs' & X). exists s'. split; [exact Hs'|].
    assert (Ep : plus (Some 0) (total bs (k + 1)) = total bs (k + 1)) by (destruct (total bs (k + 1)); reflexivity).
    rewrite Ep in X. exact X.
  Qed.

  (** a tell that raises: counters *)
  Lemma tell_err c l m (ch : chain S) ch' e : length (ch_subs ch) = length bs ->
    chain_tell S sub_tell bs no_crossing c l m ch = (ch', Err e) ->
    ch_ask ch' = ch_ask ch /\ ch_tell ch' = ch_tell ch.
  Proof.
    intros Hl E. unfold chain_tell in E. destruct (internal_tell (ch_tell ch) c l m (Some 0) 0 bs (ch_subs ch)) as [subs r] eqn:Ei.
    destruct r as [[]|e']; [discriminate|]. injection E as <- <-. split; reflexivity.
  Qed.

  (** ** histories *)
  Lemma step_ask us u m ch m' ch' r : length (ch_subs ch) = length bs -> step (m, ch) (MAsk us u) = ((m', ch'), r) ->
    r = Ok tt /\ ch_ask ch' = ch_ask ch + 1 /\ ch_tell ch' = ch_tell ch /\ length (ch_subs ch') = length bs /\
    forall k s, nth_error (ch_subs ch) k = Some s -> exists s' vs, nth_error (ch_subs ch') k = Some s' /\
      dealt bs k (ch_ask ch) (us ++ [u]) vs /\ sb_log s' = sb_log s ++ map CAsk vs.
  Proof.
    intros Hl E. cbn [chain_step] in E. destruct (rejections (ch_ask ch) (us ++ [u]) m (ch_subs ch)) as [m1 subs1] eqn:Er.
    injection E as <- <- <-. destruct (rejections_spec _ _ _ _ _ _ Hl Er) as (L & H).
    split; [reflexivity|]. split; [reflexivity|]. split; [reflexivity|]. split; [cbn; congruence|]. exact H.
  Qed.

  Lemma tells_app a b : tells (a ++ b) = tells a ++ tells b.
  Proof. apply flat_map_app. Qed.
  Lemma asks_app a b : asks (a ++ b) = asks a ++ asks b.
  Proof. apply flat_map_app. Qed.
  Lemma tells_asks vs : tells (map CAsk vs) = [].
  Proof. induction vs; cbn; auto. Qed.
  Lemma asks_asks vs : asks (map CAsk vs) = vs.
  Proof. induction vs as [|u vs IH]; [reflexivity|]. cbn. f_equal. exact IH. Qed.

  (** one step: the counters and the number of optimizers *)
  Lemma step_basic m ch o m' ch' r : length (ch_subs ch) = length bs -> step (m, ch) o = ((m', ch'), r) -> r = Ok tt ->
    length (ch_subs ch') = length bs /\ ch_ask ch' = ch_ask ch + num_asks [o] /\ ch_tell ch' = ch_tell ch + length (all_tells [o]).
  Proof.
    intros Hl E ->. destruct o as [us u|u|c l].
    - destruct (step_ask _ _ _ _ _ _ _ Hl E) as (_ & A & B & C & _). cbn. split; [exact C|]. split; [exact A|lia].
    - cbn in E. injection E as <- <-. cbn. repeat split; auto; lia.
    - cbn [chain_step] in E. destruct (chain_tell S sub_tell bs no_crossing c l m ch) as [ch1 r1] eqn:Et.
      injection E as <- <- ->. destruct (tell_spec _ _ _ _ _ Hl Et) as (A & B & C & _). cbn. repeat split; auto; lia.
  Qed.

  Lemma run_app a b st : fst (run st (a ++ b)) = fst (run (fst (run st a)) b) /\ snd (run st (a ++ b)) = snd (run st a) ++ snd (run (fst (run st a)) b).
  Proof.
    revert st. induction a as [|o a IH]; intros st; cbn [app]; [cbn; auto|].
    cbn [chain_run]. destruct (step st o) as [st1 r]. specialize (IH st1).
    destruct (run st1 (a ++ b)) as [x xs]. destruct (run st1 a) as [y ys]. cbn in *. destruct IH as [-> ->]. split; reflexivity.
  Qed.

  (** induction on histories that raise nothing *)
  Lemma run_ind (P : list mop -> meta -> chain S -> Prop) m0 (subs : list S) :
    P [] m0 (chain_init S subs) ->
    (forall ops o m ch m' ch', P ops m ch -> step (m, ch) o = ((m', ch'), Ok tt) -> P (ops ++ [o]) m' ch') ->
    forall ops m ch rs, run (m0, chain_init S subs) ops = ((m, ch), rs) -> Forall (fun r => r = Ok tt) rs -> P ops m ch.
  Proof.
    intros H0 H1 ops. induction ops as [|o ops IH] using rev_ind; intros m ch rs E Hr.
    - cbn in E. injection E as <- <- <-. exact H0.
    - pose proof (run_app ops [o] (m0, chain_init S subs)) as [A B]. rewrite E in A, B. cbn [fst snd] in A, B.
      destruct (run (m0, chain_init S subs) ops) as [[m1 ch1] rs1] eqn:E1. cbn [fst snd] in A, B.
      cbn [chain_run] in A, B. destruct (step (m1, ch1) o) as [[m2 ch2] r] eqn:E2. cbn [fst snd] in A, B.
      injection A as <- <-. subst rs. apply Forall_app in Hr as [Hr1 Hr2]. inversion Hr2; subst.
      eapply H1; [|exact E2]. eapply IH; eauto.
  Qed.

  Lemma num_asks_app a b : num_asks (a ++ b) = num_asks a + num_asks b.
  Proof. unfold num_asks. rewrite filter_app, app_length. reflexivity. Qed.
  Lemma all_tells_app a b : all_tells (a ++ b) = all_tells a ++ all_tells b.
  Proof. apply flat_map_app. Qed.

  Definition counted (ops : list mop) (ch : chain S) : Prop :=
    length (ch_subs ch) = length bs /\ ch_ask ch = num_asks ops /\ ch_tell ch = length (all_tells ops).
  Lemma counted_init subs : length subs = length bs -> counted [] (chain_init S subs).
  Proof. intros H. repeat split; cbn. rewrite map_length. exact H. Qed.
  Lemma counted_step ops o m ch m' ch' : counted ops ch -> step (m, ch) o = ((m', ch'), Ok tt) -> counted (ops ++ [o]) ch'.
  Proof.
    intros (A & B & C) E. destruct (step_basic _ _ _ _ _ _ A E eq_refl) as (A' & B' & C').
    split; [exact A'|]. rewrite num_asks_app, all_tells_app, app_length. split; lia.
  Qed.

  Lemma run_counted subs m0 ops m ch rs : length subs = length bs ->
    run (m0, chain_init S subs) ops = ((m, ch), rs) -> Forall (fun r => r = Ok tt) rs -> counted ops ch.
  Proof.
    intros Hl. apply (run_ind (fun ops m ch => counted ops ch)).
    - apply counted_init, Hl.
    - intros. eapply counted_step; eauto.
  Qed.

  (** what optimizer [k] hears when everybody is informed *)
  Definition heard (k : nat) (l : list (nat * Q)) : list (nat * Q) :=
    if k + 1 =? length bs then l else match total bs (k + 1) with None => l | Some x => firstn x l end.
  Lemma heard_snoc k l x : informed bs (length l) k -> heard k (l ++ [x]) = heard k l ++ [x].
  Proof.
    unfold informed, heard. intros H. destruct (Nat.eqb_spec (k + 1) (length bs)); [reflexivity|].
    destruct (total bs (k + 1)) as [y|]; [|reflexivity]. destruct H as [H|H]; [|contradiction]. cbn in H.
    rewrite !firstn_all2; rewrite ?app_length; cbn; lia || reflexivity.
  Qed.
  Lemma heard_not k l x : ~ informed bs (length l) k -> heard k (l ++ [x]) = heard k l.
  Proof.
    unfold informed, heard. intros H. destruct (Nat.eqb_spec (k + 1) (length bs)); [exfalso; auto|].
    destruct (total bs (k + 1)) as [y|]; [|exfalso; apply H; left; exact I].
    rewrite firstn_app. replace (y - length l) with 0. { cbn. apply app_nil_r. }
    destruct (Nat.le_gt_cases y (length l)); [lia|]. exfalso. apply H. left. exact H0.
  Qed.

  Lemma fed (Hc : no_crossing = false) subs m0 ops m ch rs : length subs = length bs ->
    run (m0, chain_init S subs) ops = ((m, ch), rs) -> Forall (fun r => r = Ok tt) rs ->
    counted ops ch /\ forall k s, nth_error (ch_subs ch) k = Some s -> tells (sb_log s) = heard k (all_tells ops).
  Proof.
    intros Hl. apply (run_ind (fun ops m ch => counted ops ch /\ forall k s, nth_error (ch_subs ch) k = Some s -> tells (sb_log s) = heard k (all_tells ops))).
    - split; [apply counted_init, Hl|]. intros k s Hs. cbn in Hs. rewrite nth_error_map in Hs.
      destruct (nth_error subs k); [|discriminate]. injection Hs as <-. cbn. unfold heard.
      destruct (k + 1 =? length bs); [reflexivity|]. destruct (total bs (k + 1)); [|reflexivity]. now rewrite firstn_nil.
    - clear ops m ch rs. intros ops o m ch m' ch' [Hcn H] E. split; [eapply counted_step; eauto|].
      destruct Hcn as (L & Na & Nt). intros k s' Hs'. rewrite all_tells_app.
      destruct o as [us u|u|c l].
      + destruct (step_ask _ _ _ _ _ _ _ L E) as (_ & _ & _ & L' & X).
        destruct (nth_error (ch_subs ch) k) as [s|] eqn:Hs.
        * destruct (X k s Hs) as (s2 & vs & Hs2 & _ & El). rewrite Hs2 in Hs'. injection Hs' as <-.
          rewrite El, tells_app, tells_asks, app_nil_r. cbn. rewrite app_nil_r. apply H, Hs.
        * exfalso. apply nth_error_None in Hs. assert (k < length (ch_subs ch')) by (apply nth_error_Some; congruence). lia.
      + cbn in E. injection E as <- <-. cbn. rewrite app_nil_r. apply H, Hs'.
      + cbn [chain_step] in E. destruct (chain_tell S sub_tell bs no_crossing c l m ch) as [ch1 r1] eqn:Et.
        injection E as <- <- ->. destruct (tell_spec _ _ _ _ _ L Et) as (_ & _ & L' & X).
        destruct (nth_error (ch_subs ch) k) as [s|] eqn:Hs.
        * destruct (X k s Hs) as (s2 & Hs2 & D). rewrite Hs2 in Hs'. injection Hs' as <-.
          rewrite Nt in D. change (all_tells [MTell c l]) with [(c, l)]. destruct D as [(I1 & _ & El)|(I1 & ->)].
          -- rewrite El, tells_app, heard_snoc by exact I1. f_equal. apply H, Hs.
          -- rewrite heard_not; [apply H, Hs|]. intros I2. apply I1. split; [exact I2|congruence].
        * exfalso. apply nth_error_None in Hs. assert (k < length (ch_subs ch1)) by (apply nth_error_Some; congruence). lia.
  Qed.

  Lemma charge_dec n k : {in_charge bs n k} + {~ in_charge bs n k}.
  Proof.
    destruct (Nat.eq_dec k (chosen bs n)) as [->|H]; [left; apply chosen_charge, Hne|].
    right. intros X. apply H. eapply in_charge_unique; [exact X|apply chosen_charge, Hne].
  Qed.

  Lemma share_step n k : k < length bs ->
    share bs (n + 1) k = share bs n k + (if charge_dec n k then 1 else 0).
  Proof.
    intros Hk. unfold share. destruct (charge_dec n k) as [(_ & A & B)|A].
    - destruct (total bs k) as [x|] eqn:Ex; [|exfalso; apply A; exact I]. cbn in A.
      destruct (Nat.eqb_spec (k + 1) (length bs)); [lia|]. destruct B as [B|B]; [|contradiction].
      rewrite total_S, Ex in B. destruct (nth_error bs k) as [[b|]|]; cbn in B; lia.
    - destruct (total bs k) as [x|] eqn:Ex; [|reflexivity].
      destruct (Nat.le_gt_cases x n) as [Hx|Hx].
      + destruct (Nat.eqb_spec (k + 1) (length bs)).
        { exfalso. apply A. split; [exact Hk|]. rewrite Ex. cbn. split; [lia|right; assumption]. }
        destruct (nth_error bs k) as [[b|]|] eqn:Eb.
        * destruct (Nat.le_gt_cases (x + b) n) as [Hb|Hb]; [lia|]. exfalso. apply A. split; [exact Hk|].
          rewrite Ex. cbn. split; [lia|]. left. rewrite total_S, Ex, Eb. exact Hb.
        * exfalso. apply A. split; [exact Hk|]. rewrite Ex. cbn. split; [lia|]. left. rewrite total_S, Ex, Eb. exact I.
        * apply nth_error_None in Eb. lia.
      + destruct (k + 1 =? length bs); [lia|]. destruct (nth_error bs k) as [[b|]|]; lia.
  Qed.

  Lemma shares subs m0 ops m ch rs : length subs = length bs -> Forall plain ops ->
    run (m0, chain_init S subs) ops = ((m, ch), rs) -> Forall (fun r => r = Ok tt) rs ->
    forall k s, nth_error (ch_subs ch) k = Some s -> length (asks (sb_log s)) = share bs (num_asks ops) k.
  Proof.
    intros Hl Hp E Hr. revert Hp.
    assert (K : counted ops ch /\ (Forall plain ops -> forall k s, nth_error (ch_subs ch) k = Some s -> length (asks (sb_log s)) = share bs (num_asks ops) k)); [|apply K].
    revert E Hr. apply (run_ind (fun ops m ch => counted ops ch /\ (Forall plain ops -> forall k s, nth_error (ch_subs ch) k = Some s -> length (asks (sb_log s)) = share bs (num_asks ops) k))).
    - split; [apply counted_init, Hl|]. intros _ k s Hs. cbn in Hs. rewrite nth_error_map in Hs.
      destruct (nth_error subs k); [|discriminate]. injection Hs as <-. cbn. unfold share.
      destruct (total bs k); [|reflexivity]. destruct (k + 1 =? length bs); [reflexivity|].
      destruct (nth_error bs k) as [[b|]|]; [lia|reflexivity|reflexivity].
    - clear ops m ch rs. intros ops o m ch m' ch' [Hcn H] E. split; [eapply counted_step; eauto|].
      intros Hp. apply Forall_app in Hp as [Hp Ho]. inversion Ho as [|? ? Ho' _]; subst. specialize (H Hp).
      destruct Hcn as (L & Na & Nt). intros k s' Hs'. rewrite num_asks_app.
      destruct o as [us u|u|c l]; [|contradiction|].
      + cbn in Ho'. subst us. destruct (step_ask _ _ _ _ _ _ _ L E) as (_ & _ & _ & L' & X).
        assert (Hk : k < length bs) by (rewrite <- L'; apply nth_error_Some; congruence).
        destruct (nth_error (ch_subs ch) k) as [s|] eqn:Hs; [|apply nth_error_None in Hs; lia].
        destruct (X k s Hs) as (s2 & vs & Hs2 & D & El). rewrite Hs2 in Hs'. injection Hs' as <-.
        rewrite El, asks_app, app_length, asks_asks, (H k s Hs). change (num_asks [MAsk [] u]) with 1.
        rewrite (share_step _ _ Hk). rewrite Na in D. f_equal. cbn in D.
        destruct (charge_dec (num_asks ops) k) as [Y|Y]; inversion D; subst; try contradiction.
        * match goal with Z : dealt _ _ _ [] _ |- _ => inversion Z end. reflexivity.
        * match goal with Z : dealt _ _ _ [] _ |- _ => inversion Z end. reflexivity.
      + cbn [chain_step] in E. destruct (chain_tell S sub_tell bs no_crossing c l m ch) as [ch1 r1] eqn:Et.
        injection E as <- <- ->. destruct (tell_spec _ _ _ _ _ L Et) as (_ & _ & L' & X).
        change (num_asks [MTell c l]) with 0. rewrite Nat.add_0_r.
        destruct (nth_error (ch_subs ch) k) as [s|] eqn:Hs.
        * destruct (X k s Hs) as (s2 & Hs2 & D). rewrite Hs2 in Hs'. injection Hs' as <-.
          destruct D as [(_ & _ & El)|(_ & ->)]; [|apply H, Hs].
          rewrite El, asks_app. cbn. rewrite app_nil_r. apply H, Hs.
        * exfalso. apply nth_error_None in Hs. assert (k < length (ch_subs ch1)) by (apply nth_error_Some; congruence). lia.
  Qed.

  (** ** labels *)
  Definition labelled (m : meta) (subs : list (sub S)) : Prop :=
    forall c k, dget c m = Some k -> exists s, nth_error subs k = Some s /\ In c (asks (sb_log s)).

  Lemma ask_labelled n u m subs m' subs' : labels_own sub_ask -> length subs = length bs -> below n (total bs (length bs)) ->
    internal_ask n u m subs = (m', subs') -> labelled m subs -> labelled m' subs'.
  Proof.
    intros Ho Hl Hb E H c k Hc. destruct (internal_ask_spec _ _ _ _ _ _ Hl E) as (L & Hu & X).
    destruct (Nat.eq_dec c u) as [->|Hcu].
    - rewrite Hu in Hc. injection Hc as <-. rewrite label_charge in * by assumption.
      pose proof (chosen_charge bs n Hne) as Hch.
      destruct (nth_error subs (chosen bs n)) as [s|] eqn:Es.
      + destruct (X _ _ Es) as (s' & Hs' & [[_ El]|[Z _]]); [|contradiction]. exists s'. split; [exact Hs'|].
        rewrite El, asks_app. apply in_or_app. right. left. reflexivity.
      + apply nth_error_None in Es. destruct Hch. lia.
    - rewrite (internal_ask_meta _ _ _ _ _ _ _ Ho E Hcu) in Hc. destruct (H c k Hc) as (s & Hs & Hi).
      destruct (X k s Hs) as (s' & Hs' & [[_ El]|[_ ->]]); [|exists s; auto].
      exists s'. split; [exact Hs'|]. rewrite El, asks_app. apply in_or_app. auto.
  Qed.

  Lemma rejections_labelled us : labels_own sub_ask -> forall n m subs m' subs', length subs = length bs ->
    (us <> [] -> below (n + length us - 1) (total bs (length bs))) ->
    rejections n us m subs = (m', subs') -> labelled m subs -> labelled m' subs'.
  Proof.
    intros Ho. induction us as [|u us IH]; intros n m subs m' subs' Hl Hb E H; cbn in E.
    - injection E as <- <-. exact H.
    - destruct (internal_ask n u m subs) as [m1 subs1] eqn:E1.
      destruct (internal_ask_spec _ _ _ _ _ _ Hl E1) as (L1 & _ & _).
      assert (Hn : below n (total bs (length bs))).
      { specialize (Hb ltac:(discriminate)). cbn in Hb. destruct (total bs (length bs)); cbn in *; [lia|exact I]. }
      refine (IH _ _ _ _ _ (eq_trans L1 Hl) _ E _); [|eapply ask_labelled; eauto].
      intros _. specialize (Hb ltac:(discriminate)). cbn [length] in Hb. replace (n + 1 + length us - 1) with (n + Datatypes.S (length us) - 1) by lia. exact Hb.
  Qed.

  Lemma in_budget_app a b : forall n, in_budget bs n (a ++ b) <-> in_budget bs n a /\ in_budget bs (n + num_asks a) b.
  Proof.
    induction a as [|o a IH]; intros n; cbn [app in_budget].
    - unfold num_asks; cbn. rewrite Nat.add_0_r. tauto.
    - change (o :: a) with ([o] ++ a). rewrite num_asks_app.
      destruct o as [us u|u|c l]; rewrite IH.
      + change (num_asks [MAsk us u]) with 1. rewrite Nat.add_assoc. tauto.
      + change (num_asks [MSuggested u]) with 1. rewrite Nat.add_assoc. tauto.
      + change (num_asks [MTell c l]) with 0. tauto.
  Qed.

  Lemma own (Hc : no_crossing = true) subs ops m ch rs : labels_own sub_ask -> length subs = length bs -> in_budget bs 0 ops ->
    run ([], chain_init S subs) ops = ((m, ch), rs) -> Forall (fun r => r = Ok tt) rs ->
    forall k s, nth_error (ch_subs ch) k = Some s -> incl (map fst (tells (sb_log s))) (asks (sb_log s)).
  Proof.
    intros Ho Hl Hb E Hr. revert Hb.
    assert (K : counted ops ch /\ (in_budget bs 0 ops -> labelled m (ch_subs ch) /\ forall k s, nth_error (ch_subs ch) k = Some s -> incl (map fst (tells (sb_log s))) (asks (sb_log s)))); [|apply K].
    revert E Hr. apply (run_ind (fun ops m ch => counted ops ch /\ (in_budget bs 0 ops -> labelled m (ch_subs ch) /\ forall k s, nth_error (ch_subs ch) k = Some s -> incl (map fst (tells (sb_log s))) (asks (sb_log s))))).
    - split; [apply counted_init, Hl|]. intros _. split; [intros c k X; discriminate|]. intros k s Hs. cbn in Hs. rewrite nth_error_map in Hs.
      destruct (nth_error subs k); [|discriminate]. injection Hs as <-. cbn. intros x [].
    - clear ops m ch rs. intros ops o m ch m' ch' [Hcn H] E. split; [eapply counted_step; eauto|].
      intros Hb. apply in_budget_app in Hb as [Hb Hb']. destruct (H Hb) as [Hlab Hown]. clear H.
      destruct Hcn as (L & Na & Nt). destruct o as [us u|u|c l].
      + split.
        * cbn [chain_step] in E. destruct (rejections (ch_ask ch) (us ++ [u]) m (ch_subs ch)) as [m1 subs1] eqn:Er.
          injection E as <- <-. cbn. eapply rejections_labelled; eauto. intros _. cbn in Hb'. destruct Hb' as [Hb' _].
          rewrite app_length, Na. cbn. replace (num_asks ops + (length us + 1) - 1) with (num_asks ops + length us) by lia. exact Hb'.
        * destruct (step_ask _ _ _ _ _ _ _ L E) as (_ & _ & _ & L' & X). intros k s' Hs'.
          assert (Hk : k < length bs) by (rewrite <- L'; apply nth_error_Some; congruence).
          destruct (nth_error (ch_subs ch) k) as [s|] eqn:Hs; [|apply nth_error_None in Hs; lia].
          destruct (X k s Hs) as (s2 & vs & Hs2 & _ & El). rewrite Hs2 in Hs'. injection Hs' as <-.
          rewrite El, asks_app, asks_asks, tells_app, tells_asks, app_nil_r. apply incl_appl, (Hown k s Hs).
      + cbn in E. injection E as <- <-. split; assumption.
      + cbn [chain_step] in E. destruct (chain_tell S sub_tell bs no_crossing c l m ch) as [ch1 r1] eqn:Et.
        injection E as <- <- ->. destruct (tell_spec _ _ _ _ _ L Et) as (_ & _ & L' & X). split.
        * intros c' k Hck. destruct (Hlab c' k Hck) as (s & Hs & Hi). destruct (X k s Hs) as (s' & Hs' & [(_ & _ & El)|(_ & ->)]).
          -- exists s'. split; [exact Hs'|]. rewrite El, asks_app. apply in_or_app. auto.
          -- exists s. auto.
        * intros k s' Hs'. assert (Hk : k < length bs) by (rewrite <- L'; apply nth_error_Some; congruence).
          destruct (nth_error (ch_subs ch) k) as [s|] eqn:Hs; [|apply nth_error_None in Hs; lia].
          destruct (X k s Hs) as (s2 & Hs2 & D). rewrite Hs2 in Hs'. injection Hs' as <-.
          destruct D as [(_ & Hk' & El)|(_ & ->)]; [|apply (Hown k s Hs)].
          rewrite El, asks_app, tells_app, map_app. cbn. rewrite app_nil_r. apply incl_app; [apply (Hown k s Hs)|].
          intros x [<-|[]]. destruct (Hlab c k (Hk' Hc)) as (s3 & Hs3 & Hi). rewrite Hs in Hs3. injection Hs3 as <-. exact Hi.
  Qed.

  (** the label of a candidate *)
  Lemma rejections_meta us : labels_own sub_ask -> forall n m subs m' subs' c, rejections n us m subs = (m', subs') -> ~ In c us -> dget c m' = dget c m.
  Proof.
    intros Ho. induction us as [|u us IH]; intros n m subs m' subs' c E Hc; cbn in E; [congruence|].
    destruct (internal_ask n u m subs) as [m1 subs1] eqn:E1. rewrite (IH _ _ _ _ _ _ E); [|intros X; apply Hc; right; exact X].
    eapply internal_ask_meta; eauto. intros ->. apply Hc. left. reflexivity.
  Qed.
  Lemma rejections_last us u : forall n m subs m' subs', length subs = length bs ->
    rejections n (us ++ [u]) m subs = (m', subs') -> dget u m' = Some (label bs (n + length us)).
  Proof.
    induction us as [|v us IH]; intros n m subs m' subs' Hl E; cbn in E.
    - destruct (internal_ask n u m subs) as [m1 subs1] eqn:E1. injection E as <- <-.
      rewrite Nat.add_0_r. eapply internal_ask_spec; eauto.
    - destruct (internal_ask n v m subs) as [m1 subs1] eqn:E1. destruct (internal_ask_spec _ _ _ _ _ _ Hl E1) as (L1 & _ & _).
      rewrite (IH _ _ _ _ _ (eq_trans L1 Hl) E). cbn. f_equal. f_equal. lia.
  Qed.
  Lemma step_meta m ch o m' ch' r c : labels_own sub_ask -> ~ In c (proposed [o]) -> step (m, ch) o = ((m', ch'), r) -> dget c m' = dget c m.
  Proof.
    intros Ho Hc E. destruct o as [us u|u|d l].
    - cbn [chain_step] in E. destruct (rejections (ch_ask ch) (us ++ [u]) m (ch_subs ch)) as [m1 subs1] eqn:Er.
      injection E as <- _ _. eapply rejections_meta; eauto. cbn in Hc. rewrite app_nil_r in Hc. exact Hc.
    - cbn in E. congruence.
    - cbn [chain_step] in E. destruct (chain_tell S sub_tell bs no_crossing d l m ch). congruence.
  Qed.
  Lemma run_meta ops : labels_own sub_ask -> forall st c, ~ In c (proposed ops) -> dget c (fst (fst (run st ops))) = dget c (fst st).
  Proof.
    intros Ho. induction ops as [|o ops IH]; intros [m ch] c Hc; [reflexivity|].
    change (o :: ops) with ([o] ++ ops) in Hc. unfold proposed in Hc. rewrite flat_map_app in Hc.
    cbn [chain_run]. destruct (step (m, ch) o) as [[m1 ch1] r] eqn:E.
    specialize (IH (m1, ch1) c). destruct (run (m1, ch1) ops) as [st rs]. cbn [fst] in *.
    rewrite IH by (intros X; apply Hc, in_or_app; right; exact X).
    eapply step_meta; eauto. intros X. apply Hc, in_or_app. left. exact X.
  Qed.

  Lemma no_cross (Hc : no_crossing = true) subs ops1 us u ops2 m ch rs : labels_own sub_ask -> length subs = length bs ->
    below (num_asks ops1 + length us) (total bs (length bs)) -> ~ In u (proposed ops2) ->
    run ([], chain_init S subs) (ops1 ++ MAsk us u :: ops2) = ((m, ch), rs) -> Forall (fun r => r = Ok tt) rs ->
    dget u m = Some (chosen bs (num_asks ops1 + length us)).
  Proof.
    intros Ho Hl Hb Hu E Hr. pose proof (run_app ops1 (MAsk us u :: ops2) ([], chain_init S subs)) as [A B].
    rewrite E in A, B. cbn [fst snd] in A, B. subst rs. apply Forall_app in Hr as [Hr _].
    destruct (run ([], chain_init S subs) ops1) as [[m1 ch1] rs1] eqn:E1. cbn [fst snd] in *.
    destruct (run_counted _ _ _ _ _ _ Hl E1 Hr) as (L & Na & _).
    cbn [chain_run] in A. destruct (step (m1, ch1) (MAsk us u)) as [[m2 ch2] r] eqn:E2.
    pose proof (run_meta ops2 Ho (m2, ch2) u Hu) as X. destruct (run (m2, ch2) ops2) as [st rs2]. cbn [fst] in A, X.
    rewrite <- A in X. cbn [fst] in X. rewrite X.
    cbn [chain_step] in E2. destruct (rejections (ch_ask ch1) (us ++ [u]) m1 (ch_subs ch1)) as [m3 subs3] eqn:Er.
    injection E2 as <- _ _. rewrite (rejections_last _ _ _ _ _ _ _ L Er), Na. f_equal. apply label_charge; assumption.
  Qed.
End Chain.

(** ** budgets *)
Lemma frac_div p q b : 0 < q -> fraction p q b (Nat.max 1 (p * b / q)).
Proof.
  intros Hq. unfold fraction. pose proof (Nat.div_mod_eq (p * b) q) as E. pose proof (Nat.mod_upper_bound (p * b) q ltac:(lia)) as M.
  destruct (Nat.le_gt_cases 1 (p * b / q)) as [H|H].
  - rewrite Nat.max_r by exact H. right. split; [exact H|]. nia.
  - left. split; [lia|]. replace (p * b / q) with 0 in E by lia. lia.
Qed.
Lemma frac_one w : fraction 1 1 w (Nat.max 1 w).
Proof. replace (Nat.max 1 w) with (Nat.max 1 (1 * w / 1)) by (rewrite Nat.mul_1_l, Nat.div_1_r; reflexivity). apply frac_div. lia. Qed.
Lemma conv_named budget w d nb name : named budget w d nb name (conv_budget budget w d nb name).
Proof.
  assert (K : forall q, 0 < q -> forall b, fraction 1 q b (Nat.max 1 (b / q))).
  { intros q Hq b. rewrite <- (Nat.mul_1_l b) at 2. apply frac_div, Hq. }
  assert (P : forall q, 0 < q -> match budget with Some (S _ as b) => fraction 1 q b (Nat.max 1 (match budget with Some (S x) => S x / q | _ => w end))
     | _ => fraction 1 1 w (Nat.max 1 (match budget with Some (S x) => S x / q | _ => w end)) end).
  { intros q Hq. destruct budget as [[|b]|]; [apply frac_one|apply K, Hq|apply frac_one]. }
  destruct name; unfold named, conv_budget.
  - reflexivity.
  - apply frac_one.
  - apply frac_one.
  - apply P; lia.
  - apply P; lia.
  - apply P; lia.
  - apply P; lia.
  - apply P; lia.
  - destruct budget as [[|b]|]; [apply frac_one| |apply frac_one]. rewrite (Nat.mul_comm (S b) 4). apply frac_div. lia.
  - destruct budget as [[|b]|]; [apply frac_one| |apply frac_one]. pose proof (Nat.sqrt_spec' (S b)) as X.
    assert (1 <= Nat.sqrt (S b)) by nia. rewrite Nat.max_r by assumption. rewrite Nat.add_1_r. exact X.
Qed.

Lemma total_some bs x : total (map Some bs ++ [x]) (length bs) = Some (nsum bs).
Proof. induction bs as [|b bs IH]; [reflexivity|]. cbn [map app length total nsum fold_right]. rewrite IH. reflexivity. Qed.

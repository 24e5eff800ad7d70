(** Proofs about the registered portfolios *)
From Coq Require Import List Arith ZArith QArith Qround Bool Lia.
From Verif.Model Require Import Prelude MultiValue Portfolio NamedPortfolios.
From Verif.Spec Require Import NamedPortfolios.
Import ListNotations.
Open Scope nat_scope.

Lemma ceil_div_spec a n : 1 <= n -> rounded_up a n (ceil_div a n).
Proof.
  intros H. unfold rounded_up, ceil_div. pose proof (Nat.div_mod a n ltac:(lia)) as D. pose proof (Nat.mod_upper_bound a n ltac:(lia)) as U.
  destruct (Nat.ltb_spec 0 (a mod n)); nia.
Qed.
Lemma ceil_div_1 a : ceil_div a 1 = a.
Proof. unfold ceil_div. rewrite Nat.div_1_r, Nat.mod_1_r. cbn. lia. Qed.
Lemma qint_of_nat (n : nat) (q : Q) : (q == inject_Z (Z.of_nat n))%Q -> qint q = n.
Proof. intros E. unfold qint. rewrite E, Qfloor_Z. lia. Qed.
Lemma qceil_of_nat (n : nat) (q : Q) : (q == inject_Z (Z.of_nat n))%Q -> qceil q = n.
Proof. intros E. unfold qceil. rewrite E, Qceiling_Z. lia. Qed.
Lemma quarter b : qint ((1 # 4) * inject_Z (Z.of_nat b)) = b / 4.
Proof.
  unfold qint, Qfloor, Qmult, inject_Z. cbn [Qnum Qden]. rewrite Z.mul_1_l. change (Z.pos (4 * 1)) with (Z.of_nat 4). now rewrite <- Nat2Z.inj_div, Nat2Z.id.
Qed.
Lemma tenth b : qint ((1 # 10) * inject_Z (Z.of_nat b)) = b / 10.
Proof.
  unfold qint, Qfloor, Qmult, inject_Z. cbn [Qnum Qden]. rewrite Z.mul_1_l. change (Z.pos (10 * 1)) with (Z.of_nat 10). now rewrite <- Nat2Z.inj_div, Nat2Z.id.
Qed.

(** The set-up of [n] parallelizable optimizers *)
Definition blocks (n w : nat) : list nat := flat_map (fun i => repeat i w) (seq 0 n).
Lemma combine_repeat {A B} (l : list A) (b : B) : combine l (repeat b (length l)) = map (fun a => (a, b)) l.
Proof. induction l as [|a l IH]; cbn; [reflexivity|now rewrite IH]. Qed.
Lemma filter_repeat_false n : filter (fun b : bool => b) (repeat false n) = [].
Proof. induction n; cbn; auto. Qed.
Definition sub_budget (warmup : option Q) (num : nat) (b : nat) : nat :=
  let rebudget := match warmup with Some r => qceil (inject_Z (Z.of_nat b) * r) | None => b end in
  ceil_div rebudget num + match warmup with Some r => if qlt r 1 then 1 + qint (inject_Z (Z.of_nat b) * (1 - r)) else 0 | None => 0 end.
Lemma setup_parallel num budget nw warmup : 1 <= num -> 1 <= nw -> match warmup with Some r => Qeq_bool r 1 = false /\ budget <> None | None => True end ->
  portfolio_setup (repeat false num) budget nw warmup =
  Ok (Setup (option_map (sub_budget warmup num) budget) (Nat.max 1 (ceil_div nw num)) (repeat (Nat.max 1 (ceil_div nw num)) num)
            (blocks num (Nat.max 1 (ceil_div nw num)))
            (match warmup, budget with Some r, Some b => Some (qint (r * inject_Z (Z.of_nat b))) | _, _ => None end)).
Proof.
  intros Hn Hw HW. unfold portfolio_setup. rewrite repeat_length, filter_repeat_false. cbn [length].
  assert (E : (if nw <=? num then 0 else 0) = 0) by (destruct (nw <=? num); reflexivity). rewrite E, !Nat.sub_0_r.
  destruct (Nat.eqb_spec num 0) as [?|_]; [lia|].
  assert (ED : match warmup with Some r => Qeq_bool r 1 | None => false end = false) by (destruct warmup as [r|]; [apply HW|reflexivity]). rewrite ED.
  set (w := Nat.max 1 (ceil_div nw num)). pose proof (ceil_div_spec nw num Hn) as (C1 & C2).
  destruct (Nat.ltb_spec (num * w) nw) as [Hc|_]; [nia|]. destruct (Nat.ltb_spec w 1) as [Hc|_]; [lia|].
  assert (EM : map (fun np : bool => if np then 1 else w) (repeat false num) = repeat w num) by (generalize w; clear; intros w; induction num; cbn; congruence).
  rewrite EM. assert (ET : flat_map (fun iw : nat * nat => repeat (fst iw) (snd iw)) (combine (seq 0 num) (repeat w num)) = blocks num w).
  { unfold blocks. pose proof (combine_repeat (seq 0 num) w) as G. rewrite seq_length in G. rewrite G. generalize (seq 0 num). clear.
    induction l as [|a l IH]; cbn [map flat_map]; [reflexivity|]. rewrite IH. reflexivity. }
  rewrite ET. destruct warmup as [r|]; [destruct budget as [b|]; [|destruct HW; congruence]|]; reflexivity.
Qed.
Lemma init_parallel classes warmup budget nw self : 
  let optimizers := match classes with [] => default_optimizers budget nw | _ => classes end in
  Forall (fun c => no_parallelization c = false) optimizers -> 1 <= nw -> optimizers <> [] ->
  match warmup with Some r => Qeq_bool r 1 = false /\ budget <> None | None => True end ->
  let w := Nat.max 1 (ceil_div nw (length optimizers)) in
  portfolio_init classes warmup budget nw self =
  Ok (PObj nw (map (fun c => Opt c (option_map (sub_budget warmup (length optimizers)) budget) w false) optimizers) (blocks (length optimizers) w)
           (match warmup, budget with Some r, Some b => Some (qint (r * inject_Z (Z.of_nat b))) | _, _ => None end)).
Proof.
  intros optimizers Hf Hw Hne HW w. unfold portfolio_init. fold optimizers.
  assert (EM : map no_parallelization optimizers = repeat false (length optimizers)).
  { clear - Hf. induction Hf as [|c l Hc Hf IH]; cbn; [reflexivity|]. now rewrite Hc, IH. }
  rewrite EM, setup_parallel; auto; [|destruct optimizers; [congruence|cbn; lia]]. cbn [bind su_sub_budget su_workers su_turns su_warmup]. fold w.
  rewrite combine_repeat, map_map. reflexivity.
Qed.
Lemma default_parallel budget nw : Forall (fun c => no_parallelization c = false) (default_optimizers budget nw).
Proof. unfold default_optimizers. destruct budget as [b|]; [destruct (12 * nw <=? b)|]; cbn; repeat constructor. Qed.
Lemma default_nonempty budget nw : default_optimizers budget nw <> [].
Proof. unfold default_optimizers. destruct budget as [b|]; [destruct (12 * nw <=? b)|]; discriminate. Qed.
Lemma init_self classes warmup budget nw s s' : portfolio_init classes warmup budget nw s = portfolio_init classes warmup budget nw s'.
Proof. reflexivity. Qed.
Lemma init_default budget nw : 1 <= nw ->
  let l := default_optimizers budget nw in let w := Nat.max 1 (ceil_div nw (length l)) in
  forall self, portfolio_init [] None budget nw self = Ok (PObj nw (map (fun c => Opt c (option_map (fun b => ceil_div b (length l)) budget) w false) l) (blocks (length l) w) None).
Proof.
  intros Hw l w self. rewrite (init_parallel [] None budget nw self); [|apply default_parallel|exact Hw|apply default_nonempty|exact I]. fold l. f_equal. f_equal.
  - apply map_ext. intros c. f_equal. destruct budget as [b|]; [|reflexivity]. cbn. f_equal. unfold sub_budget. lia.
Qed.

(** Turns *)
Lemma blocks_length n w : length (blocks n w) = n * w.
Proof. unfold blocks. generalize 0. induction n as [|n IH]; intros k; cbn; [reflexivity|]. now rewrite app_length, repeat_length, IH. Qed.
Lemma blocks_in n w i : In i (blocks n w) -> i < n.
Proof. unfold blocks. rewrite in_flat_map. intros (j & Hj & H). apply repeat_spec in H. subst. apply in_seq in Hj. lia. Qed.
Lemma blocks_all n w i : 1 <= w -> i < n -> In i (blocks n w).
Proof. intros Hw H. unfold blocks. rewrite in_flat_map. exists i. split; [apply in_seq; lia|]. destruct w; [lia|now left]. Qed.
Lemma turn_blocks s n w k : po_turns s = blocks n w -> 1 <= n -> 1 <= w -> length (po_optims s) <> 1 ->
  exists i, In i (blocks n w) /\ turn s k = (if i <? length (po_optims s) then Ok i else Err AssertionError).
Proof.
  intros E Hn Hw H1. unfold turn. rewrite E. destruct (Nat.eqb_spec (length (po_optims s)) 1); [lia|]. pose proof (blocks_length n w) as L.
  destruct (length (blocks n w)) as [|m] eqn:EL; [nia|]. destruct (nth_error (blocks n w) (k mod S m)) as [i|] eqn:EN.
  - exists i. split; [now apply nth_error_In in EN|reflexivity].
  - apply nth_error_None in EN. pose proof (Nat.mod_upper_bound k (S m)). lia.
Qed.
Lemma turn_reaches s n w i : po_turns s = blocks n w -> 1 <= w -> i < n -> length (po_optims s) <> 1 ->
  exists k, turn s k = (if i <? length (po_optims s) then Ok i else Err AssertionError).
Proof.
  intros E Hw Hi H1. destruct (In_nth_error _ _ (blocks_all n w i Hw Hi)) as (k & Hk). exists k. unfold turn. rewrite E.
  destruct (Nat.eqb_spec (length (po_optims s)) 1); [lia|]. assert (Lk : k < length (blocks n w)) by (apply nth_error_Some; congruence).
  destruct (length (blocks n w)) as [|m] eqn:EL; [lia|]. rewrite Nat.mod_small by lia. now rewrite Hk.
Qed.
Lemma sound_blocks s n w : po_turns s = blocks n w -> 1 <= n -> 1 <= w -> 1 <= length (po_optims s) -> (sound s <-> length (po_optims s) = 1 \/ length (po_optims s) = n).
Proof.
  intros E Hn Hw H1. destruct (Nat.eq_dec (length (po_optims s)) 1) as [E1|E1].
  - split; [now left|]. intros _. assert (T : forall k, turn s k = Ok 0) by (intros k; unfold turn; rewrite E1; reflexivity).
    split; [intros k; exists 0; apply T|]. intros i Hi. exists 0. rewrite T. f_equal. lia.
  - split.
    + intros (A & B). right. destruct (Nat.lt_trichotomy (length (po_optims s)) n) as [L|[L|L]]; [exfalso|exact L|exfalso].
      * destruct (turn_reaches s n w (length (po_optims s)) E Hw L E1) as (k & Hk). rewrite Nat.ltb_irrefl in Hk. destruct (A k) as (i & Hi). congruence.
      * destruct (B n L) as (k & Hk). destruct (turn_blocks s n w k E Hn Hw E1) as (i & Hi & T). apply blocks_in in Hi. rewrite Hk in T.
        destruct (Nat.ltb_spec i (length (po_optims s))); [|lia]. injection T as ->. lia.
    + intros [?|L]; [lia|]. split.
      * intros k. destruct (turn_blocks s n w k E Hn Hw E1) as (i & Hi & T). apply blocks_in in Hi. exists i. rewrite T. destruct (Nat.ltb_spec i (length (po_optims s))); [reflexivity|lia].
      * intros i Hi. destruct (turn_reaches s n w i E Hw ltac:(lia) E1) as (k & Hk). exists k. destruct (Nat.ltb_spec i (length (po_optims s))); [exact Hk|lia].
Qed.

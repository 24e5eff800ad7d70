(** * C69: chains of optimizers *)
From Coq Require Import List Arith QArith Lia Bool.
From Verif.Model Require Import Prelude Chain.
From Verif.Spec Require Import Chain.
From Verif.Proofs Require Import Prelude Chain.
Import ListNotations.
Open Scope nat_scope.

(** Each name of budget means what it says, and the last optimizer has the rest of the budget: the budgets
    sum to the budget of the chain as soon as it leaves at least 4 to the last one. *)
Theorem C69_budgets : forall budget workers dim n_opts names bs,
  chain_budgets budget workers dim n_opts names = Ok bs ->
  length bs = n_opts /\ n_opts = length names + 1 /\
  (forall i name, nth_error names i = Some name -> exists b, nth_error bs i = Some (Some b) /\ 1 <= b /\
     named budget workers dim (length names) name b) /\
  exists earlier, total bs (length names) = Some earlier /\
    match budget with
    | None => nth_error bs (length names) = Some None
    | Some b => exists last, nth_error bs (length names) = Some (Some last) /\ 4 <= last /\
        total bs n_opts = Some (Nat.max b (earlier + 4)) /\
        (earlier + 4 <= b -> total bs n_opts = Some b /\ last = b - earlier)
    end.
Proof.
  intros budget workers dim n_opts names bs E. unfold chain_budgets in E.
  set (l := map (conv_budget budget workers dim (length names)) names) in *.
  assert (Ll : length l = length names) by apply map_length. rewrite Ll in E.
  destruct (Nat.eqb_spec n_opts (length names + 1)) as [Hn|]; [|discriminate]. cbn [negb] in E.
  destruct (forallb (fun b => 0 <? b) l) eqn:Ep; [|discriminate]. cbn [negb] in E. injection E as <-.
  split; [rewrite app_length, map_length, Ll; cbn; lia|]. split; [exact Hn|]. split.
  - intros i name Hi. exists (conv_budget budget workers dim (length names) name).
    assert (Hl : nth_error l i = Some (conv_budget budget workers dim (length names) name)) by (unfold l; rewrite nth_error_map, Hi; reflexivity).
    assert (Hlt : i < length l) by (apply nth_error_Some; congruence).
    rewrite nth_error_app1 by (rewrite map_length; exact Hlt). rewrite nth_error_map, Hl. split; [reflexivity|]. split.
    + rewrite forallb_forall in Ep. apply nth_error_In in Hl. apply Ep, Nat.ltb_lt in Hl. exact Hl.
    + apply conv_named.
  - exists (nsum l). rewrite <- Ll. split; [apply total_some|].
    assert (Hlast : forall x, nth_error (map Some l ++ [x]) (length l) = Some x).
    { intros x. rewrite nth_error_app2 by (rewrite map_length; lia). rewrite map_length, Nat.sub_diag. reflexivity. }
    destruct budget as [b|]; [|apply Hlast].
    exists (Nat.max 4 (b - nsum l)). split; [apply Hlast|]. split; [lia|].
    assert (Ht : total (map Some l ++ [Some (Nat.max 4 (b - nsum l))]) n_opts = Some (nsum l + Nat.max 4 (b - nsum l))).
    { rewrite Hn, <- Ll, total_S, total_some, Hlast. reflexivity. }
    split; [etransitivity; [exact Ht|]; f_equal; lia|]. intros H. split; [etransitivity; [exact Ht|]; f_equal; lia|lia].
Qed.
Example C69_budgets_nontrivial :
  chain_budgets (Some 100) 4 2 4 [BSqrt; BThird; BInt 7] = Ok [Some 10; Some 33; Some 7; Some 50] /\
  chain_budgets None 4 2 3 [BHalf; BDimension] = Ok [Some 4; Some 2; None] /\
  chain_budgets (Some 10) 1 2 2 [BInt 0] = Err AssertionError.
Proof. vm_compute. auto. Qed.
(** The sum may exceed the budget: the last optimizer always has 4 at least. *)
Theorem C69_budgets_sum_refuted : ~ (forall b workers dim n_opts names bs,
  chain_budgets (Some b) workers dim n_opts names = Ok bs -> total bs n_opts = Some b).
Proof. intros H. specialize (H 5 1 2 2 [BHalf] [Some 2; Some 4] eq_refl). discriminate. Qed.

Section C69.
  Variable S : Type.
  Variable sub_ask : nat -> meta -> S -> meta * S.
  Variable sub_tell : nat -> Q -> meta -> S -> S * result unit.
  Variable bs : list (option nat).

  (** After any history that raised nothing, an ask is for the optimizer in charge of the number of asks so far and for
      nobody else; candidates refused by the constraints count as asks until the end of this one. *)
  Theorem C69_ask : forall no_crossing subs ops m ch rs, bs <> [] -> length subs = length bs ->
    chain_run S sub_ask sub_tell bs no_crossing ([], chain_init S subs) ops = ((m, ch), rs) -> Forall (fun r => r = Ok tt) rs ->
    forall us u m' ch' r, chain_step S sub_ask sub_tell bs no_crossing (m, ch) (MAsk us u) = ((m', ch'), r) ->
    r = Ok tt /\ length (ch_subs ch') = length bs /\
    (forall k s, nth_error (ch_subs ch) k = Some s -> exists s' vs, nth_error (ch_subs ch') k = Some s' /\
      dealt bs k (num_asks ops) (us ++ [u]) vs /\ sb_log s' = sb_log s ++ map CAsk vs) /\
    (exists k, in_charge bs (num_asks ops) k /\ forall j, in_charge bs (num_asks ops) j -> j = k).
  Proof.
    intros nc subs ops m ch rs Hne Hl E Hr us u m' ch' r Es.
    destruct (run_counted S sub_ask sub_tell bs nc Hne subs [] ops m ch rs Hl E Hr) as (L & Na & _).
    destruct (step_ask S sub_ask sub_tell bs nc Hne us u m ch m' ch' r L Es) as (A & _ & _ & B & C).
    rewrite Na in C. split; [exact A|]. split; [exact B|]. split; [exact C|].
    exists (chosen bs (num_asks ops)). split; [apply chosen_charge, Hne|]. intros j Hj.
    eapply in_charge_unique; [exact Hj|apply chosen_charge, Hne].
  Qed.

  (** Without suggestion nor refused candidate, the number of asks of each optimizer is known: the first ones use
      their budget, in order, and the last one everything else. *)
  Theorem C69_share : forall no_crossing subs ops m ch rs, bs <> [] -> length subs = length bs -> Forall plain ops ->
    chain_run S sub_ask sub_tell bs no_crossing ([], chain_init S subs) ops = ((m, ch), rs) -> Forall (fun r => r = Ok tt) rs ->
    forall k s, nth_error (ch_subs ch) k = Some s -> length (asks (sb_log s)) = share bs (num_asks ops) k.
  Proof. intros nc subs ops m ch rs Hne Hl Hp E Hr. eapply shares; eauto. Qed.

  (** Each optimizer is fed with what happened before it: it is told, in order, all the first tells up to its own
      budget and the ones of the previous optimizers; the last one is told everything. *)
  Theorem C69_fed : forall subs ops m ch rs, bs <> [] -> length subs = length bs ->
    chain_run S sub_ask sub_tell bs false ([], chain_init S subs) ops = ((m, ch), rs) -> Forall (fun r => r = Ok tt) rs ->
    forall k s, nth_error (ch_subs ch) k = Some s ->
    (k + 1 = length bs -> tells (sb_log s) = all_tells ops) /\
    (total bs (k + 1) = None -> tells (sb_log s) = all_tells ops) /\
    (forall x, k + 1 < length bs -> total bs (k + 1) = Some x -> tells (sb_log s) = firstn x (all_tells ops)).
  Proof.
    intros subs ops m ch rs Hne Hl E Hr k s Hs.
    destruct (fed S sub_ask sub_tell bs false Hne eq_refl subs [] ops m ch rs Hl E Hr) as (_ & H). rewrite (H k s Hs). unfold heard.
    split; [intros ->; rewrite Nat.eqb_refl; reflexivity|]. split.
    - intros ->. destruct (k + 1 =? length bs); reflexivity.
    - intros x Hk ->. destruct (Nat.eqb_spec (k + 1) (length bs)); [lia|reflexivity].
  Qed.

  (** In particular when it is asked: at that time it knows all the results (if there are no more tells than asks). *)
  Theorem C69_fed_before : forall subs ops m ch rs k s, bs <> [] -> length subs = length bs ->
    chain_run S sub_ask sub_tell bs false ([], chain_init S subs) ops = ((m, ch), rs) -> Forall (fun r => r = Ok tt) rs ->
    length (all_tells ops) <= num_asks ops -> in_charge bs (num_asks ops) k -> nth_error (ch_subs ch) k = Some s ->
    tells (sb_log s) = all_tells ops.
  Proof.
    intros subs ops m ch rs k s Hne Hl E Hr Hle (Hk & _ & Hc) Hs.
    destruct (C69_fed subs ops m ch rs Hne Hl E Hr k s Hs) as (A & B & C).
    destruct (Nat.eq_dec (k + 1) (length bs)) as [Hk'|Hk']; [apply A, Hk'|].
    destruct Hc as [Hc|Hc]; [|contradiction].
    destruct (total bs (k + 1)) as [x|]; [|apply B; reflexivity]. cbn in Hc.
    rewrite (C x ltac:(lia) eq_refl). apply firstn_all2. lia.
  Qed.

  (** Without crossing, and within the budget, optimizers are only told the candidates they proposed. *)
  Theorem C69_own : forall subs ops m ch rs, bs <> [] -> length subs = length bs -> labels_own sub_ask -> in_budget bs 0 ops ->
    chain_run S sub_ask sub_tell bs true ([], chain_init S subs) ops = ((m, ch), rs) -> Forall (fun r => r = Ok tt) rs ->
    forall k s, nth_error (ch_subs ch) k = Some s -> incl (map fst (tells (sb_log s))) (asks (sb_log s)).
  Proof. intros subs ops m ch rs Hne Hl Ho Hb E Hr. eapply own; eauto. Qed.

  (** And each result goes to the optimizer in charge when the candidate was proposed, if it arrives
      early enough, and to nobody else. *)
  Theorem C69_no_crossing : forall subs ops1 us u ops2 m ch rs l m' ch', bs <> [] -> length subs = length bs -> labels_own sub_ask ->
    below (num_asks ops1 + length us) (total bs (length bs)) -> ~ In u (proposed ops2) ->
    chain_run S sub_ask sub_tell bs true ([], chain_init S subs) (ops1 ++ MAsk us u :: ops2) = ((m, ch), rs) -> Forall (fun r => r = Ok tt) rs ->
    chain_step S sub_ask sub_tell bs true (m, ch) (MTell u l) = ((m', ch'), Ok tt) ->
    forall k s, nth_error (ch_subs ch) k = Some s -> exists s', nth_error (ch_subs ch') k = Some s' /\
      (in_charge bs (num_asks ops1 + length us) k /\ informed bs (length (all_tells (ops1 ++ MAsk us u :: ops2))) k ->
         sb_log s' = sb_log s ++ [CTell u l]) /\
      (~ (in_charge bs (num_asks ops1 + length us) k /\ informed bs (length (all_tells (ops1 ++ MAsk us u :: ops2))) k) -> s' = s).
  Proof.
    intros subs ops1 us u ops2 m ch rs l m' ch' Hne Hl Ho Hb Hu E Hr Es k s Hs.
    destruct (run_counted S sub_ask sub_tell bs true Hne subs [] _ m ch rs Hl E Hr) as (L & _ & Nt).
    pose proof (no_cross S sub_ask sub_tell bs true Hne eq_refl subs ops1 us u ops2 m ch rs Ho Hl Hb Hu E Hr) as Hm.
    cbn [chain_step] in Es. destruct (chain_tell S sub_tell bs true u l m ch) as [ch1 r1] eqn:Et. injection Es as <- <- ->.
    destruct (tell_spec S sub_ask sub_tell bs true u l m ch ch1 L Et) as (_ & _ & _ & X).
    destruct (X k s Hs) as (s' & Hs' & D). exists s'. split; [exact Hs'|]. rewrite Nt in D.
    pose proof (chosen_charge bs (num_asks ops1 + length us) Hne) as Hch.
    assert (K : (true = true -> dget u m = Some k) <-> in_charge bs (num_asks ops1 + length us) k).
    { rewrite Hm. split; [intros Y; specialize (Y eq_refl); injection Y as <-; exact Hch|].
      intros Y _. f_equal. eapply in_charge_unique; eauto. }
    rewrite K in D. split.
    - intros [Y1 Y2]. destruct D as [(_ & _ & D)|(D & _)]; [exact D|exfalso; apply D; auto].
    - intros Y. destruct D as [(D1 & D2 & _)|(_ & D)]; [exfalso; apply Y; auto|exact D].
  Qed.
End C69.

(** ** A concrete chain of three optimizers *)
Definition opts3 : list leaf := [Leaf true []; Leaf true []; Leaf true []].
Definition bs3 : list (option nat) := [Some 2; Some 3; Some 4].
Definition ops3 : list mop :=
  flat_map (fun u => [MAsk [] u; MTell u (inject_Z (Z.of_nat u))]) (seq 0 7).
Definition run3 (nc : bool) := chain_run leaf leaf_ask leaf_tell bs3 nc ([], chain_init leaf opts3).
Example C69_nontrivial :
  Forall (fun r => r = Ok tt) (snd (run3 false ops3)) /\ Forall (fun r => r = Ok tt) (snd (run3 true ops3)) /\
  Forall plain ops3 /\ in_budget bs3 0 ops3 /\ labels_own leaf_ask /\
  map (fun s => asks (sb_log s)) (ch_subs (snd (fst (run3 false ops3)))) = [[0; 1]; [2; 3; 4]; [5; 6]] /\
  map (fun s => map fst (tells (sb_log s))) (ch_subs (snd (fst (run3 false ops3)))) = [[0; 1]; [0; 1; 2; 3; 4]; [0; 1; 2; 3; 4; 5; 6]] /\
  map (fun s => map fst (tells (sb_log s))) (ch_subs (snd (fst (run3 true ops3)))) = [[0; 1]; [2; 3; 4]; [5; 6]].
Proof.
  split; [vm_compute; repeat constructor|]. split; [vm_compute; repeat constructor|].
  split; [vm_compute; repeat constructor|]. split; [vm_compute; repeat split; lia|].
  split; [intros u m s c _; reflexivity|]. vm_compute. auto.
Qed.

(** ** What does not hold *)
(** A sub-optimizer that does not accept foreign points makes [tell] raise, after the previous ones were told;
    the same candidate can be told again, and is then told twice to them. *)
Definition picky : list leaf := [Leaf true []; Leaf false []].
Theorem C69_tell_accepted_refuted : ~ (forall subs bs ops st rs, length subs = length bs ->
  chain_run leaf leaf_ask leaf_tell bs false ([], chain_init leaf subs) ops = (st, rs) ->
  incl (map fst (all_tells ops)) (proposed ops) -> Forall (fun r => r = Ok tt) rs).
Proof.
  intros H. specialize (H picky [Some 2; None] [MAsk [] 0; MTell 0 0%Q] _ _ eq_refl eq_refl ltac:(vm_compute; auto)).
  vm_compute in H. inversion H as [|? ? _ H2]; subst. inversion H2; discriminate.
Qed.
Example C69_tell_half_done :
  let '((m, ch), rs) := chain_run leaf leaf_ask leaf_tell [Some 2; None] false ([], chain_init leaf picky) [MAsk [] 0; MTell 0 0%Q; MTell 0 0%Q] in
  rs = [Ok tt; Err NotImplementedError; Err NotImplementedError] /\ ch_tell ch = 0 /\
  map (fun s => tells (sb_log s)) (ch_subs ch) = [[(0, 0%Q); (0, 0%Q)]; [(0, 0%Q); (0, 0%Q)]].
Proof. vm_compute. auto. Qed.

(** Without crossing, beyond the budget, the candidates of the last optimizer are labelled as those of the
    first one: nobody is told their losses. *)
Theorem C69_over_budget_refuted : ~ (forall (ops : list mop) m ch rs u k s,
  run3 true ops = ((m, ch), rs) -> Forall (fun r => r = Ok tt) rs -> In u (map fst (all_tells ops)) ->
  nth_error (ch_subs ch) k = Some s -> In u (asks (sb_log s)) -> length (all_tells ops) <= num_asks ops -> k = 2 -> In u (map fst (tells (sb_log s)))).
Proof.
  intros H.
  destruct (run3 true (map (fun u => MAsk [] u) (seq 0 10) ++ map (fun u => MTell u 0%Q) (seq 0 10))) as [[m ch] rs] eqn:E.
  pose proof E as E0. vm_compute in E.
  assert (Hr : Forall (fun r => r = Ok tt) rs) by (injection E as _ _ <-; repeat constructor).
  destruct (nth_error (ch_subs ch) 2) as [s|] eqn:Es; [|injection E as _ <- _; discriminate Es].
  specialize (H _ m ch rs 9 2 s E0 Hr ltac:(vm_compute; tauto) Es).
  injection E as <- <- <-. cbn in Es. injection Es as <-.
  specialize (H ltac:(vm_compute; tauto) ltac:(vm_compute; lia) eq_refl). vm_compute in H.
  repeat (destruct H as [H|H]; [discriminate H|]). exact H.
Qed.

(** Without crossing, nobody is told the loss of a suggestion, nor of a candidate that was not asked. *)
Theorem C69_suggestion_refuted : ~ (forall (ops : list mop) m ch rs u,
  run3 true ops = ((m, ch), rs) -> Forall (fun r => r = Ok tt) rs -> In u (map fst (all_tells ops)) ->
  exists k s, nth_error (ch_subs ch) k = Some s /\ In u (map fst (tells (sb_log s)))).
Proof.
  intros H. specialize (H [MSuggested 5; MTell 5 0%Q] _ _ _ 5 eq_refl ltac:(repeat constructor) ltac:(vm_compute; auto)).
  destruct H as (k & s & Hs & Hi). destruct k as [|[|[|[|k]]]]; vm_compute in Hs; try discriminate; injection Hs as <-; exact Hi.
Qed.

(** Chains of chains share the label: the outer chain overwrites it and the inner one tells the wrong optimizer,
    so a chain does not satisfy the hypothesis [C69_own] is about for the level above it. *)
Definition inner_ask : nat -> meta -> chain leaf -> meta * chain leaf := chain_ask leaf leaf_ask [Some 1; None].
Definition inner_tell : nat -> Q -> meta -> chain leaf -> chain leaf * result unit := chain_tell leaf leaf_tell [Some 1; None] true.
Definition outer_run := chain_run (chain leaf) inner_ask inner_tell [Some 2; None] false
  ([], chain_init (chain leaf) [chain_init leaf [Leaf true []; Leaf true []]; chain_init leaf [Leaf true []; Leaf true []]]).
Theorem C69_nested_refuted : ~ (forall ops m ch rs i s k s',
  outer_run ops = ((m, ch), rs) -> Forall (fun r => r = Ok tt) rs ->
  nth_error (ch_subs ch) i = Some s -> nth_error (ch_subs (sb s)) k = Some s' ->
  i = 0 -> incl (map fst (tells (sb_log s'))) (asks (sb_log s'))).
Proof.
  intros H. destruct (outer_run [MAsk [] 0; MAsk [] 1; MTell 1 0%Q]) as [[m ch] rs] eqn:E. pose proof E as E0. vm_compute in E.
  assert (Hr : Forall (fun r => r = Ok tt) rs) by (injection E as _ _ <-; repeat constructor).
  destruct (nth_error (ch_subs ch) 0) as [s|] eqn:Es; [|injection E as _ <- _; discriminate Es].
  destruct (nth_error (ch_subs (sb s)) 0) as [s'|] eqn:Es'.
  2: { injection E as _ <- _. cbn in Es. injection Es as <-. discriminate Es'. }
  specialize (H _ m ch rs 0 s 0 s' E0 Hr Es Es' eq_refl).
  injection E as _ <- _. cbn in Es. injection Es as <-. cbn in Es'. injection Es' as <-.
  specialize (H 1 ltac:(vm_compute; auto)). vm_compute in H. destruct H as [H|[]]. discriminate H.
Qed.

(** A candidate refused by the constraints may give the turn to the next optimizer before the end of the budget of
    the previous one. *)
Theorem C69_rejected_refuted : ~ (forall ops m ch rs k s,
  run3 false ops = ((m, ch), rs) -> Forall (fun r => r = Ok tt) rs -> nth_error (ch_subs ch) k = Some s ->
  (forall u, ~ In (MSuggested u) ops) -> num_asks ops <= 2 -> k = 1 -> asks (sb_log s) = []).
Proof.
  intros H. destruct (run3 false [MAsk [0; 1] 2]) as [[m ch] rs] eqn:E. pose proof E as E0. vm_compute in E.
  assert (Hr : Forall (fun r => r = Ok tt) rs) by (injection E as _ _ <-; repeat constructor).
  destruct (nth_error (ch_subs ch) 1) as [s|] eqn:Es; [|injection E as _ <- _; discriminate Es].
  specialize (H _ m ch rs 1 s E0 Hr Es ltac:(intros u [X|[]]; discriminate) ltac:(vm_compute; lia) eq_refl).
  injection E as _ <- _. cbn in Es. injection Es as <-. discriminate H.
Qed.

Print Assumptions C69_budgets.
Print Assumptions C69_ask.
Print Assumptions C69_share.
Print Assumptions C69_fed.
Print Assumptions C69_fed_before.
Print Assumptions C69_own.
Print Assumptions C69_no_crossing.
Print Assumptions C69_nested_refuted.

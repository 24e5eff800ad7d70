(** The 007 game and its runner (nevergrad/functions/rl/envs.py and base.py). *)
From Coq Require Import List Arith QArith Bool Lia Lqa.
From Verif.Model Require Import Prelude MultiValue DoubleOSeven.
From Verif.Spec Require Import DoubleOSeven.
From Verif.Proofs Require Import MultiValue DoubleOSeven.
Import ListNotations.
Open Scope nat_scope.

(** Whatever was played, a round with two of the three actions is accepted, the observations are what the rules say, the
    reward of a player is 1 exactly when the rules say that this player wins, never both, and the game stops then or at the
    hundredth round. *)
Theorem C108_rules : forall h0 h1 g i0 i1 a0 a1, goes h0 h1 g -> action_at i0 = Ok a0 -> action_at i1 = Ok a1 ->
  exists g' out, game_step i0 i1 g = Ok (g', out)
    /\ o_first out = [ammo (a0 :: h0); guards (a0 :: h0); ammo (a1 :: h1); guards (a1 :: h1)]
    /\ o_second out = [ammo (a1 :: h1); guards (a1 :: h1); ammo (a0 :: h0); guards (a0 :: h0)]
    /\ (fst (o_rewards out) = 1 <-> wins (a0 :: h0) (a1 :: h1))
    /\ (snd (o_rewards out) = 1 <-> wins (a1 :: h1) (a0 :: h0))
    /\ fst (o_rewards out) + snd (o_rewards out) <= 1
    /\ (o_done out = true <->
          wins (a0 :: h0) (a1 :: h1) \/ wins (a1 :: h1) (a0 :: h0) \/ length (a0 :: h0) = 100).
Proof.
  intros h0 h1 g i0 i1 a0 a1 G E0 E1. destruct (goes_inv h0 h1 g G) as (-> & EG & L & _).
  destruct (step_rules h0 h1 i0 i1 a0 a1 E0 E1 EG L) as (out & E & O0 & O1 & W0 & W1 & R & D & _).
  exists (state_of (a0 :: h0) (a1 :: h1)), out. repeat (split; [assumption|]).
  rewrite D, <- W0, <- W1. cbn [length]. lia.
Qed.
Print Assumptions C108_rules.

(** A game which has not stopped has less than 100 rounds. *)
Theorem C108_stops : forall h0 h1 g, goes h0 h1 g -> length h0 < 100 /\ length h1 < 100.
Proof. intros h0 h1 g G. destruct (goes_inv h0 h1 g G) as (_ & _ & L & B). lia. Qed.
Print Assumptions C108_stops.

(** The two players have the same rules: exchanging the actions exchanges the observations and the rewards. *)
Theorem C108_symmetric : forall h0 h1 g h0' h1' g' i0 i1 k k' out out',
  goes h0 h1 g -> goes h0' h1' g' -> h0' = h1 -> h1' = h0 ->
  game_step i0 i1 g = Ok (k, out) -> game_step i1 i0 g' = Ok (k', out') ->
  o_first out' = o_second out /\ o_second out' = o_first out
  /\ fst (o_rewards out') = snd (o_rewards out) /\ snd (o_rewards out') = fst (o_rewards out) /\ o_done out' = o_done out.
Proof.
  intros h0 h1 g h0' h1' g' i0 i1 k k' out out' G G' -> -> E E'.
  destruct (goes_inv h0 h1 g G) as (-> & EG & L & _). destruct (goes_inv h1 h0 g' G') as (-> & EG' & L' & _).
  destruct (action_at i0) as [a0|x] eqn:A0; [|unfold game_step in E; rewrite A0 in E; discriminate].
  destruct (action_at i1) as [a1|x] eqn:A1; [|unfold game_step in E; rewrite A0, A1 in E; discriminate].
  destruct (step_rules h0 h1 i0 i1 a0 a1 A0 A1 EG L) as (o & K & O0 & O1 & W0 & W1 & R & D & _).
  destruct (step_rules h1 h0 i1 i0 a1 a0 A1 A0 EG' L') as (o' & K' & O0' & O1' & W0' & W1' & R' & D' & _).
  rewrite E in K. inversion K; subst o. rewrite E' in K'. inversion K'; subst o'.
  split; [congruence|]. split; [congruence|].
  assert (X : fst (o_rewards out') = 1 <-> snd (o_rewards out) = 1) by (rewrite W0', W1; tauto).
  assert (Y : snd (o_rewards out') = 1 <-> fst (o_rewards out) = 1) by (rewrite W1', W0; tauto).
  assert (Z : fst (o_rewards out') = snd (o_rewards out) /\ snd (o_rewards out') = fst (o_rewards out)) by lia.
  destruct Z as [Z1 Z2]. split; [exact Z1|]. split; [exact Z2|].
  rewrite Z1, Z2 in D'. destruct (o_done out), (o_done out'); auto; exfalso.
  - assert (K0 : true = true) by reflexivity. apply D in K0. assert (false = true) by (apply D'; lia). discriminate.
  - assert (K0 : true = true) by reflexivity. apply D' in K0. assert (false = true) by (apply D; lia). discriminate.
Qed.
Print Assumptions C108_symmetric.

(** A run of two agents ends, after at most 100 rounds and at most [max_step], with at most one winner, and without a winner
    only because one of these limits was reached. *)
Theorem C108_run_once : forall (S0 S1 : Type) (act0 : S0 -> outcome -> S0 * nat) (act1 : S1 -> outcome -> S1 * nat)
  reset0 reset1 fuel max_step s0 s1, fair act0 -> fair act1 -> 100 <= fuel ->
  exists t0 t1 r0 r1 n, run_once act0 act1 reset0 reset1 fuel max_step s0 s1 = Ok (t0, t1, (r0, r1), n)
    /\ r0 + r1 <= 1 /\ n <= 100 /\ (forall m, max_step = Some m -> n <= m)
    /\ (r0 + r1 = 0 -> n = 100 \/ max_step = Some n).
Proof. intros S0 S1 act0 act1 reset0 reset1 fuel mx s0 s1 F0 F1 F. now apply run_once_ok. Qed.
Print Assumptions C108_run_once.

(** The mean rewards are between 0 and 1 and their sum too, for any number of repetitions but 0. *)
Theorem C108_means : forall (S0 S1 : Type) (act0 : S0 -> outcome -> S0 * nat) (act1 : S1 -> outcome -> S1 * nat)
  reset0 reset1 n fuel max_step s0 s1, fair act0 -> fair act1 -> 100 <= fuel ->
  (0 < n -> exists q0 q1, run act0 act1 reset0 reset1 n fuel max_step s0 s1 = Ok (q0, q1)
     /\ (0 <= q0 /\ 0 <= q1 /\ q0 + q1 <= 1)%Q)
  /\ (n = 0 -> run act0 act1 reset0 reset1 n fuel max_step s0 s1 = Err ZeroDivisionError).
Proof.
  intros S0 S1 act0 act1 reset0 reset1 n fuel mx s0 s1 F0 F1 F. unfold run. split.
  - intros Hn. destruct (repeat_ok act0 act1 F0 F1 reset0 reset1 fuel mx F n s0 s1 (0, 0)) as (r0 & r1 & E & B).
    rewrite E. cbn [bind fst snd]. destruct (Nat.eqb_spec n 0) as [|_]; [lia|].
    eexists _, _. split; [reflexivity|]. cbn [fst snd Nat.add] in B.
    assert (P : (0 < qnat n)%Q) by (unfold qnat; change 0%Q with (inject_Z 0); rewrite <- Zlt_Qlt; lia).
    assert (P0 : (0 <= qnat r0)%Q) by (unfold qnat; change 0%Q with (inject_Z 0); rewrite <- Zle_Qle; lia).
    assert (P1 : (0 <= qnat r1)%Q) by (unfold qnat; change 0%Q with (inject_Z 0); rewrite <- Zle_Qle; lia).
    assert (P2 : (qnat r0 + qnat r1 <= qnat n)%Q) by (unfold qnat; rewrite <- inject_Z_plus, <- Zle_Qle; lia).
    split; [|split].
    + apply Qle_shift_div_l; [exact P|]. lra.
    + apply Qle_shift_div_l; [exact P|]. lra.
    + setoid_replace (qnat r0 / qnat n + qnat r1 / qnat n)%Q with ((qnat r0 + qnat r1) / qnat n)%Q
        by (field; intros K; rewrite K in P; revert P; apply Qlt_irrefl).
      apply Qle_shift_div_r; [exact P|]. lra.
  - intros ->. reflexivity.
Qed.
Print Assumptions C108_means.

(** Playing against a fixed agent is the same game as playing against this agent in the runner: same end, same reward and same
    number of rounds, when the agent is in the same state at the start. *)
Theorem C108_fixed : forall (S0 S1 : Type) (act0 : S0 -> outcome -> S0 * nat) (act1 : S1 -> outcome -> S1 * nat)
  reset0 reset1 fuel max_step s0 s1 e, f_agent e = reset1 s1 ->
  match run_once act0 act1 reset0 reset1 fuel max_step s0 s1 with
  | Ok (t0, _, (r0, _), n) => exists e', run_once_single act0 act1 reset0 fuel max_step s0 e = Ok (t0, e', r0, n)
  | Err x => run_once_single act0 act1 reset0 fuel max_step s0 e = Err x
  end.
Proof.
  intros S0 S1 act0 act1 reset0 reset1 fuel mx s0 s1 e H. unfold run_once, run_once_single. cbn [fixed_reset].
  pose proof (play_fixed act0 act1 mx fuel 0 new_game (reset0 s0) (reset1 s1) (of_reset new_game) false (0, 0) eq_refl) as K.
  rewrite H. destruct (play act0 act1 fuel mx 0 new_game (reset0 s0) (reset1 s1) (of_reset new_game) false (0, 0))
    as [[[[t0 t1] [r0 r1]] n]|x]; [|exact K]. destruct K as (e' & K & _). exists e'. exact K.
Qed.
Print Assumptions C108_fixed.

(** But the runner resets its agents before each game, and nobody resets the fixed one: the second game may differ. *)
Definition opponent (s : nat) (_ : outcome) : nat * nat :=
  (S s, match s with 0 => 2 | 1 => 1 | 2 => 0 | _ => 2 end).
Definition shooter (s : unit) (_ : outcome) : unit * nat := (s, 0).
Theorem C108_reset_refuted : exists t0 t1 e n1 n2 n3 n4 t0' t1' e',
  run_once shooter opponent (fun s => s) (fun _ => 0) 100 None tt 0 = Ok (t0, t1, (0, 1), n1)
  /\ run_once shooter opponent (fun s => s) (fun _ => 0) 100 None t0 t1 = Ok (t0', t1', (0, 1), n2)
  /\ run_once_single shooter opponent (fun s => s) 100 None tt (fix_agent 0) = Ok (t0, e, 0, n3)
  /\ run_once_single shooter opponent (fun s => s) 100 None t0 e = Ok (t0', e', 1, n4).
Proof. do 10 eexists. split; [vm_compute; reflexivity|]. split; [vm_compute; reflexivity|]. split; vm_compute; reflexivity. Qed.
Print Assumptions C108_reset_refuted.

(** The agent of the library always plays one of the actions, never protects from a player without ammunition, and fires if it
    can when the other one has just protected four times. *)
Theorem C108_agent : forall pick my_amm my_prot their_amm their_prot, (forall n, 0 < n -> pick n < n) ->
  exists a, agent007 pick [my_amm; my_prot; their_amm; their_prot] = Ok a /\ a < 3
    /\ (their_amm = 0 -> action_at a <> Ok Protect)
    /\ (their_prot = 4 -> 0 < my_amm -> action_at a = Ok Fire).
Proof.
  intros pick ma mp ta tp0 P. unfold agent007.
  destruct (Nat.eqb_spec tp0 4) as [->|N]; destruct (Nat.eqb_spec ma 0) as [->|M]; cbn [andb negb];
    try (exists 0; split; [reflexivity|]; split; [lia|]; split; [discriminate|reflexivity]);
    (destruct (Nat.eqb_spec ta 0) as [->|T];
     [ pose proof (P 2 ltac:(lia)) as L; destruct (pick 2) as [|[|k]]; [| |lia]
     | pose proof (P 3 ltac:(lia)) as L; destruct (pick 3) as [|[|[|k]]]; [| | |lia] ];
     cbn [nth_error]; eexists; (split; [reflexivity|]); (split; [lia|]); (split; [intros; try lia; discriminate|intros; lia])).
Qed.
Print Assumptions C108_agent.

(** Both players keep protecting: nobody wins and the game goes on (20 rounds here). *)
Definition rounds (l : list (nat * nat)) : result (game * bool) :=
  fold_left (fun r a => bind r (fun p => bind (game_step (fst a) (snd a) (fst p)) (fun q => Ok (fst q, o_done (snd q)))))
    l (Ok (new_game, false)).
Example C108_both_protect : rounds (repeat (1, 1) 20) = Ok (mkGame (mkPlayer 0 20) (mkPlayer 0 20) 20, false).
Proof. reflexivity. Qed.
(** The second player reloads while the first one fires. *)
Example C108_shot : rounds [(2, 1); (0, 2)] = Ok (mkGame (mkPlayer 0 0) (mkPlayer 1 0) 2, true).
Proof. reflexivity. Qed.
Example C108_goes : goes [Reload] [Protect] (mkGame (mkPlayer 1 0) (mkPlayer 0 1) 1) /\ fair opponent /\ fair shooter.
Proof.
  split; [|split].
  - eapply (goes_more [] [] new_game 2 1); [constructor|reflexivity|reflexivity|reflexivity|reflexivity].
  - intros s o. destruct s as [|[|[|s]]]; cbn; lia.
  - intros s o. cbn; lia.
Qed.

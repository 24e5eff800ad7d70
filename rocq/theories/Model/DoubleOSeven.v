(** Model of the 007 game (nevergrad/functions/rl/envs.py), of the runner of environments and of environments in which one
    of the players is fixed (nevergrad/functions/rl/base.py), for this game. Agents have a state, which [act] and [reset]
    may change. *)
From Coq Require Import List Arith QArith Bool.
From Verif.Model Require Import Prelude MultiValue.
Import ListNotations.
Open Scope nat_scope.

(** envs.py:15 the list of actions; an action is given by its position *)
Inductive action : Type := Fire | Protect | Reload.
Definition action_at (i : nat) : result action :=
  match nth_error [Fire; Protect; Reload] i with Some a => Ok a | None => Err IndexError end.
Definition is_action (a b : action) : bool :=
  match a, b with Fire, Fire | Protect, Protect | Reload, Reload => true | _, _ => false end.

(** envs.py:18-20 *)
Record player : Type := mkPlayer { ammunitions : nat; consecutive_protect : nat }.
Definition new_player : player := mkPlayer 0 0.
Definition max_consecutive_protect : nat := 4.
(** envs.py:22-36 [update_with_action] *)
Definition update_with_action (a : action) (p : player) : result player :=
  bind (match a with
        | Fire => if ammunitions p =? 0 then Err ValueError else Ok (ammunitions p - 1)
        | Reload => Ok (ammunitions p + 1)
        | Protect => Ok (ammunitions p)
        end) (fun am =>
  Ok (mkPlayer am (match a with Protect => consecutive_protect p + 1 | _ => 0 end))).

(** envs.py:61-65; the flag [verbose] only prints *)
Record game : Type := mkGame { first_player : player; second_player : player; g_step : nat }.
(** envs.py:67-74 [reset] *)
Definition new_game : game := mkGame new_player new_player 0.
(** envs.py:76-78: own ammunitions and protections, then those of the other player *)
Definition view (p q : player) : list nat :=
  [ammunitions p; consecutive_protect p; ammunitions q; consecutive_protect q].

(** What a step returns for both players: observations and rewards, and whether the game is over. *)
Record outcome2 : Type := mkOut2 { o_first : list nat; o_second : list nat; o_rewards : nat * nat; o_done : bool }.
(** envs.py:107-109 *)
Definition possible (p : player) (a : action) : action :=
  if is_action a Fire && (ammunitions p =? 0) then Reload else a.
(** envs.py:83-127 [step], where the positions of the actions are given *)
Definition game_step (i0 i1 : nat) (g : game) : result (game * outcome2) :=
  bind (action_at i0) (fun a0 => bind (action_at i1) (fun a1 =>
    let a0 := possible (first_player g) a0 in
    let a1 := possible (second_player g) a1 in
    bind (update_with_action a0 (first_player g)) (fun p0 =>
    bind (update_with_action a1 (second_player g)) (fun p1 =>
    let rew := (0, 0) in
    let rew := if is_action a0 Fire && is_action a1 Reload then (1, 0)
               else if is_action a0 Reload && is_action a1 Fire then (0, 1) else rew in
    let rew := if existsb (fun p => max_consecutive_protect <? consecutive_protect p) [p0; p1] then
                 if consecutive_protect p1 <? consecutive_protect p0 then (0, 1)
                 else if consecutive_protect p0 <? consecutive_protect p1 then (1, 0) else rew
               else rew in
    let n := g_step g + 1 in
    Ok (mkGame p0 p1 n, mkOut2 (view p0 p1) (view p1 p0) rew ((n =? 100) || (0 <? fst rew + snd rew))))))).

(** base.py:16-29: what an agent receives: observation, reward ([None] at the start) and whether the game is over *)
Record outcome : Type := mkOut { observation : list nat; reward : option nat; done : bool }.
(** base.py:38-54 [from_multiagent_step], for the two players of a step and of a reset *)
Definition of_step (o : outcome2) : outcome * outcome :=
  (mkOut (o_first o) (Some (fst (o_rewards o))) (o_done o), mkOut (o_second o) (Some (snd (o_rewards o))) (o_done o)).
Definition of_reset (g : game) : outcome * outcome :=
  (mkOut (view (first_player g) (second_player g)) None false, mkOut (view (second_player g) (first_player g)) None false).

Section Agents.
  Context {S0 S1 : Type}.
  Variable act0 : S0 -> outcome -> S0 * nat.
  Variable act1 : S1 -> outcome -> S1 * nat.
  Variable reset0 : S0 -> S0.
  Variable reset1 : S1 -> S1.
  (** [step < max_step], [None] being the infinity *)
  Definition within (step : nat) (max_step : option nat) : bool :=
    match max_step with None => true | Some m => step <? m end.

  (** base.py:237-252: the loop, then the last outcome is shown to the agents. Result: states of the agents, sums of the
      rewards and number of steps. [fuel] is for the termination of the function only. *)
  Fixpoint play (fuel : nat) (max_step : option nat) (step : nat) (g : game) (s0 : S0) (s1 : S1) (o : outcome * outcome)
      (over : bool) (sums : nat * nat) : result (S0 * S1 * (nat * nat) * nat) :=
    if within step max_step && negb over then
      match fuel with
      | O => Err OutOfFuel
      | S fuel =>
          let (s0, a0) := act0 s0 (fst o) in
          let (s1, a1) := act1 s1 (snd o) in
          bind (game_step a0 a1 g) (fun r =>
          let (g, out) := r in
          play fuel max_step (step + 1) g s0 s1 (of_step out) (o_done out)
            (fst sums + fst (o_rewards out), snd sums + snd (o_rewards out)))
      end
    else Ok (fst (act0 s0 (fst o)), fst (act1 s1 (snd o)), sums, step).
  (** base.py:223-252 [_run_once] *)
  Definition run_once (fuel : nat) (max_step : option nat) (s0 : S0) (s1 : S1) : result (S0 * S1 * (nat * nat) * nat) :=
    play fuel max_step 0 new_game (reset0 s0) (reset1 s1) (of_reset new_game) false (0, 0).
  (** base.py:213-217: the repetitions *)
  Fixpoint repeat_run (n fuel : nat) (max_step : option nat) (s0 : S0) (s1 : S1) (sums : nat * nat) : result (nat * nat) :=
    match n with
    | O => Ok sums
    | S n => bind (run_once fuel max_step s0 s1) (fun r =>
               let '(s0, s1, rew, _) := r in
               repeat_run n fuel max_step s0 s1 (fst sums + fst rew, snd sums + snd rew))
    end.
  (** base.py:197-221 [run] for two named agents: the mean rewards *)
  Definition run (n fuel : nat) (max_step : option nat) (s0 : S0) (s1 : S1) : result (Q * Q) :=
    bind (repeat_run n fuel max_step s0 s1 (0, 0)) (fun sums =>
      if n =? 0 then Err ZeroDivisionError
      else Ok ((qnat (fst sums) / qnat n)%Q, (qnat (snd sums) / qnat n)%Q)).

  (** base.py:110-171: the game with the second player fixed, as a single agent environment: the game, the state of the
      fixed agent and its last outcome (none before the first reset). *)
  Record fixed_env : Type := mkFixed { f_game : game; f_agent : S1; f_outcome : option outcome }.
  (** base.py:113-123: the fixed agent is copied; copying is supposed to keep its state *)
  Definition fix_agent (s1 : S1) : fixed_env := mkFixed new_game s1 None.
  (** base.py:125-128, 165-166 [reset]: the fixed agent is not reset *)
  Definition fixed_reset (e : fixed_env) : list nat * fixed_env :=
    let o := of_reset new_game in (observation (fst o), mkFixed new_game (f_agent e) (Some (snd o))).
  (** base.py:130-141, 168-171 [step]; without an outcome the fixed agent has no action: KeyError *)
  Definition fixed_step (a0 : nat) (e : fixed_env) : result (outcome * fixed_env) :=
    match f_outcome e with
    | None => Err KeyError
    | Some o => let (s1, a1) := act1 (f_agent e) o in
                bind (game_step a0 a1 (f_game e)) (fun r =>
                let (g, out) := r in
                let os := of_step out in
                Ok (fst os, mkFixed g s1 (Some (snd os))))
    end.
  (** base.py:223-252 for a single agent *)
  Fixpoint play_single (fuel : nat) (max_step : option nat) (step : nat) (e : fixed_env) (s0 : S0) (o : outcome) (sum : nat)
      : result (S0 * fixed_env * nat * nat) :=
    if within step max_step && negb (done o) then
      match fuel with
      | O => Err OutOfFuel
      | S fuel =>
          let (s0, a0) := act0 s0 o in
          bind (fixed_step a0 e) (fun r =>
          let (o, e) := r in
          play_single fuel max_step (step + 1) e s0 o (sum + match reward o with Some v => v | None => 0 end))
      end
    else Ok (fst (act0 s0 o), e, sum, step).
  Definition run_once_single (fuel : nat) (max_step : option nat) (s0 : S0) (e : fixed_env) : result (S0 * fixed_env * nat * nat) :=
    let (obs, e) := fixed_reset e in
    play_single fuel max_step 0 e (reset0 s0) (mkOut obs None false) 0.
End Agents.

(** agents.py:67-74 [Agent007.act]; [pick n] is the position drawn by [np.random.choice] in a list of [n] *)
Definition agent007 (pick : nat -> nat) (obs : list nat) : result nat :=
  match obs with
  | [my_amm; my_prot; their_amm; their_prot] =>
      if (their_prot =? 4) && negb (my_amm =? 0) then Ok 0
      else match nth_error (if their_amm =? 0 then [0; 2] else [0; 1; 2]) (pick (if their_amm =? 0 then 2 else 3)) with
           | Some a => Ok a | None => Err IndexError
           end
  | _ => Err ValueError
  end.

(** Benchmarks from gym environments: /repo/nevergrad/functions/gym/multigym.py (GymMulti).
    The environment and the policy with its casts are arbitrary functions; numbers are exact. *)
From Coq Require Import Bool Arith List ZArith QArith Qabs Qround Lia.
From Verif Require Import Model.Prelude Model.MultiValue Model.Planning.
Import ListNotations.
Open Scope nat_scope.
Open Scope list_scope.

(** ** Sizes of the policies: multigym.py:252-283 *)
Record sizes : Type := Sizes { z_input : nat; z_output : nat; z_neurons : nat; z_ext : nat; z_memory : nat }.
(** [raw_in], [raw_out]: dimensions of the observations and of the actions; [stacking], [memory]: found in the name of the control;
    num_stacking is 1 *)
Definition make_sizes (memory stacking : bool) (neural_factor raw_in raw_out : nat) : sizes :=
  let memory_len := if memory then neural_factor * raw_in else 0 in
  let ext := if stacking then raw_in + raw_out else 0 in
  let input := raw_in + memory_len + ext in
  Sizes input (raw_out + memory_len) (neural_factor * (input - ext)) ext memory_len.
Definition internal_layers (semi : bool) : nat := if semi then 1 else 3.
Definition neural_size (deep semi greedy : bool) (z : sizes) : nat :=
  z_output z * z_neurons z + z_neurons z * (z_input z + 1) + (if deep then internal_layers semi * (z_neurons z * z_neurons z) else 0)
  + (if greedy then 1 else 0).
Definition first_size (z : sizes) : nat := z_neurons z * (z_input z + 1).
Definition second_size (z : sizes) : nat := z_neurons z * z_output z.
(** the slices of the weights read by neural: multigym.py:389-436; greedy: the last weight is the greedy coefficient *)
Definition slice (i j : nat) {A} (x : list A) : list A := firstn (j - i) (skipn i x).
Fixpoint internal_slices {A} (m : nat) (size i : nat) (x : list A) : list (list A) :=
  match m with 0 => [] | S m' => slice i (i + size) x :: internal_slices m' size (i + size) x end.
Definition layers {A} (deep semi greedy : bool) (z : sizes) (x : list A) : result (list (list A)) :=
  let x := if greedy then firstn (List.length x - 1) x else x in
  let a := slice 0 (first_size z) x in
  let b := slice (first_size z) (first_size z + second_size z) x in
  if negb (List.length a =? first_size z) || negb (List.length b =? second_size z) then Err ValueError (* reshape *)
  else if deep then
    let l := internal_slices (internal_layers semi) (z_neurons z * z_neurons z) (first_size z + second_size z) x in
    if existsb (fun s => negb (List.length s =? z_neurons z * z_neurons z)) l then Err ValueError
    else if negb (first_size z + second_size z + internal_layers semi * (z_neurons z * z_neurons z) =? List.length x) then Err AssertionError
    else Ok (a :: b :: l)
  else Ok [a; b].

Definition obs : Type := list Q.
Definition act : Type := list Q.
Definition trace : Type := (list obs * list act * Q)%type.
Definition t_obs (t : trace) : list obs := fst (fst t).
Definition t_act (t : trace) : list act := snd (fst t).
Definition t_reward (t : trace) : Q := snd t.

Fixpoint obs_eqb (a b : obs) : bool :=
  match a, b with [], [] => true | x :: a', y :: b' => Qeq_bool x y && obs_eqb a' b' | _, _ => false end.
(** np.array_equal; Simplification: exact numbers instead of float32 *)
Fixpoint array_equal (a b : list obs) : bool :=
  match a, b with [], [] => true | x :: a', y :: b' => obs_eqb x y && array_equal a' b' | _, _ => false end.

(** what changes in the function: multigym.py:325-332; [f_calls] is num_calls *)
Record state : Type := St { f_ext : list Q; f_archive : list trace; f_mean : Q; f_num : nat; f_calls : nat }.

(** archive_observations: multigym.py:664-686 *)
Definition archive_observations (acts : list act) (os : list obs) (reward : Q) (s : state) : state :=
  let n := S (f_num s) in
  let tau := (1 / qnat n)%Q in
  let mean := ((1 - tau) * f_mean s + tau * reward)%Q in
  let archive := if existsb (fun t => array_equal os (t_obs t)) (f_archive s) then f_archive s else f_archive s ++ [(os, acts, reward)] in
  St (f_ext s) archive mean n (f_calls s).

(** sorted(key = - length): stable *)
Fixpoint linsert (t : trace) (l : list trace) : list trace :=
  match l with
  | [] => [t]
  | u :: l' => if List.length (t_obs u) <=? List.length (t_obs t) then t :: l else u :: linsert t l'
  end.
Definition by_length (l : list trace) : list trace := fold_right linsert [] l.
Definition lastn {A} (n : nat) (l : list A) : list A := skipn (List.length l - n) l.
(** the loop of heuristic: multigym.py:565-574 *)
Fixpoint search (extrapolate : bool) (cur : list obs) (l : list trace) : result (option act) :=
  match l with
  | [] => Ok None
  | t :: l' =>
      if negb (List.length (t_obs t) =? List.length (t_act t)) then Err AssertionError
      else if (List.length (t_obs t) <? List.length cur) && negb extrapolate then search extrapolate cur l'
      else if array_equal (lastn (List.length cur) (t_obs t)) cur then
        match nth_error (t_act t) (List.length cur - 1) with Some a => Ok (Some a) | None => Err IndexError end
      else search extrapolate cur l'
  end.
(** heuristic: multigym.py:551-575 *)
Definition heuristic (extrapolate : bool) (o : obs) (os : list obs) (s : state) : result (option act * state) :=
  let archive := by_length (filter (fun t => qle (t_reward t) (f_mean s)) (f_archive s)) in
  bind (search extrapolate (os ++ [o]) archive) (fun r => Ok (r, St (f_ext s) archive (f_mean s) (f_num s) (f_calls s))).

(** the shift of the extended input: multigym.py:639-643; shorter than the additional input: the assignment fails *)
Definition push (add ext : list Q) : result (list Q) :=
  if List.length add <=? List.length ext then Ok (skipn (List.length add) ext ++ add) else Err ValueError.

Section Gym.
  Variable E M : Type.
  Variable reset : nat -> E * obs.                                     (* create_env, seed and reset *)
  Variable step : E -> act -> result (obs * Q * bool * E).             (* AssertionError: illegal action *)
  Variable policy : nat -> obs -> M -> list Q -> result (act * M).     (* time step, observation, memory, extended input: neural and action_cast *)
  Variable m0 : M.
  Variable gamma : Q.
  Variable stacking extrapolate : bool.

  (** the extended input after a step: multigym.py:630-643 *)
  Definition stack (a : act) (previous o : obs) (os : list obs) (s : state) : result state :=
    bind (heuristic extrapolate o os s) (fun rs =>
      let a' := match fst rs with Some b => b | None => map (fun _ => 0%Q) a end in
      bind (push (a' ++ previous) (f_ext (snd rs))) (fun ext =>
        Ok (St ext (f_archive (snd rs)) (f_mean (snd rs)) (f_num (snd rs)) (f_calls (snd rs))))).

  (** the loop over time steps: multigym.py:599-647; [n] steps remain.
      Simplification: the early stop of limited fidelity is part of [step]; an exception leaves the state unknown *)
  Fixpoint loop (n i : nat) (env : E) (o : obs) (mem : M) (acts : list act) (os : list obs) (cur reward : Q) (s : state) : result (Q * state) :=
    match n with
    | 0 => Ok (- reward, s)%Q
    | S n' =>
        bind (policy i o mem (f_ext s)) (fun am =>
        match step env (fst am) with
        | Err AssertionError => Ok (inject_Z (10 ^ 20) / (1 + qnat i), s)%Q
        | Err e => Err e
        | Ok (o', r, done, env') =>
            let cur' := (cur * gamma + r)%Q in
            let os' := os ++ [o'] in
            let acts' := acts ++ [fst am] in
            let s1 := if done && stacking then archive_observations acts' os' cur' s else s in
            bind (if stacking then stack (fst am) o o' os' s1 else Ok s1) (fun s2 =>
            if done : bool then Ok (- (reward + r), s2)%Q
            else loop n' (S i) env' o' (snd am) acts' os' cur' (reward + r)%Q s2)
        end)
    end.
  Definition simulate (steps seed : nat) (s : state) : result (Q * state) :=
    let (env, o) := reset seed in loop steps 0 env o m0 [] [] 0 0 s.

  (** gym_conformant: multigym.py:649-662; illegal actions are not caught *)
  Fixpoint conformant (env : E) (x : list act) (reward : Q) : result Q :=
    match x with
    | [] => Ok (- reward)%Q
    | a :: x' =>
        bind (step env a) (fun ord => let '(_, r, done, env') := ord in
          let reward := (reward * gamma + r)%Q in
          if done : bool then Ok (- reward)%Q else conformant env' x' reward)
    end.
End Gym.

(** gym_multi_function: multigym.py:466-488; [simulate_seed] is gym_simulate; [draw k] is the k-th seed drawn *)
Fixpoint sum_losses (simulate_seed : nat -> state -> result (Q * state)) (seeds : list nat) (total : Q) (s : state) : result (Q * state) :=
  match seeds with
  | [] => Ok (total, s)
  | seed :: l => bind (simulate_seed seed s) (fun ls => sum_losses simulate_seed l (total + fst ls)%Q (snd ls))
  end.
Definition gym_multi_function (simulate_seed : nat -> state -> result (Q * state)) (is_conformant randomized : bool) (draw : nat) (s : state) :
    result (Q * state) :=
  let s := St (f_ext s) (f_archive s) (f_mean s) (f_num s) (S (f_calls s)) in
  let n := if negb is_conformant && negb randomized then 7 else 1 in
  let seeds := if randomized then repeat draw n else seq 0 n in (* n = 1 when randomized *)
  bind (sum_losses simulate_seed seeds 0 s) (fun ls => Ok (fst ls / qnat n, snd ls)%Q).

(** sparse_gym_multi_function: multigym.py:447-464; [loss] is the loss of the weights times the enablers *)
Definition sparse_loss (limit : option nat) (enablers : list nat) (loss : Q) : result Q :=
  if negb (forallb (fun e => (e =? 0) || (e =? 1)) enablers) then Err AssertionError
  else Ok match limit with
          | None => loss
          | Some l => (loss + (1 + Qabs loss) * qnat (list_sum enablers - l))%Q
          end.
(** the loss of the recommendation of a sparse function: multigym.py:334-354, no penalty *)
Definition sparse_evaluation (enablers : list nat) (loss : Q) : result Q :=
  if negb (forallb (fun e => (e =? 0) || (e =? 1)) enablers) then Err AssertionError else Ok loss.
(** the number of evaluations averaged: multigym.py:352 *)
Definition num_evaluations (calls : nat) : nat := Nat.max (calls / 5) 23.
(** evaluation_function: multigym.py:346-354; [draw k] is the seed drawn by the k-th evaluation *)
Definition evaluation_function (simulate_seed : nat -> state -> result (Q * state)) (is_conformant randomized : bool) (draw : nat -> nat) (s : state) :
    result (Q * state) :=
  if negb randomized then gym_multi_function simulate_seed is_conformant false 0 s
  else let num := num_evaluations (f_calls s) in
       bind (sum_losses (fun k => gym_multi_function simulate_seed is_conformant true (draw k)) (seq 0 num) 0 s) (fun ls =>
         Ok (fst ls / qnat num, snd ls)%Q).

(** shapes of weights * enablers without reshape: multigym.py:454; the enablers have one dimension; numpy broadcasting *)
Definition broadcast1 (shape : list nat) (len : nat) : option (list nat) :=
  match rev shape with
  | [] => Some [len]
  | b :: r => if (b =? len) || (len =? 1) then Some shape else if b =? 1 then Some (rev r ++ [len]) else None
  end.
(** then gym_simulate reshapes to the policy shape: multigym.py:586-590; any failure there is an AssertionError *)
Definition sparse_shape (shape : list nat) : result (list nat) :=
  let n := fold_right Nat.mul 1 shape in
  match broadcast1 shape n with
  | None => Err ValueError
  | Some s => if fold_right Nat.mul 1 s =? n then Ok shape else Err AssertionError
  end.
(** discretize of a conformant policy: multigym.py:363-375; [cdf] is the normal cumulative distribution; floor for int *)
Fixpoint discrete_row (cdf : Q -> Q) (arities : list nat) (a : list Q) : result (list Z * list Q) :=
  match arities with
  | [] => Ok ([], a)
  | ar :: arities' =>
      match a with
      | [] => Err IndexError
      | x :: a' => bind (discrete_row cdf arities' a') (fun rl =>
          Ok (Z.min (Qround.Qfloor (cdf x * qnat ar)) (Z.of_nat ar - 1) :: fst rl, snd rl))
      end
  end.
Fixpoint discrete_rows (cdf : Q -> Q) (arities : list (list nat)) (a : list Q) : result (list (list Z)) :=
  match arities with
  | [] => match a with [] => Ok [] | _ => Err AssertionError end
  | ar :: arities' => bind (discrete_row cdf ar a) (fun rl => bind (discrete_rows cdf arities' (snd rl)) (fun o => Ok (fst rl :: o)))
  end.

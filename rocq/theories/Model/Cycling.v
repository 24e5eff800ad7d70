(** Team pursuit cycling: /repo/nevergrad/functions/cycling/*.py.
    The velocities and the powers of the physical formulas are arbitrary functions ([pace_motion], [follow_motion]), possibly raising;
    energies, positions, fatigue, distances and times are modelled, with exact numbers. *)
From Coq Require Import Bool Arith List ZArith QArith Lia.
From Verif Require Import Model.Prelude Model.MultiValue.
Import ListNotations.
Open Scope nat_scope.
Open Scope list_scope.

(** ** Positions *)
Definition set_nth {A} (i : nat) (x : A) (l : list A) : list A := firstn i l ++ match skipn i l with [] => [] | _ :: r => x :: r end.
(** set_position(0) of the riders without energy: teampursuit.py:112-119 *)
Definition mask (alive : list bool) (ps : list nat) : list nat :=
  map (fun ap => if fst ap : bool then snd ap else 0) (combine alive ps).
Definition count_alive (alive : list bool) : nat := List.length (filter (fun a => a) alive).
(** teampursuit.py:127-133 (cyclists_remaining is called for the leader) *)
Definition transition_at (alive : list bool) (ps : list nat) (i : nat) : list nat :=
  match nth i ps 0 with
  | 0 => ps
  | 1 => set_nth i (count_alive alive) (mask alive ps)
  | S p => set_nth i p ps
  end.
Definition transition (alive : list bool) (ps : list nat) : list nat :=
  fold_left (transition_at alive) (seq 0 (List.length ps)) ps.
(** leader: teampursuit.py:121-125 *)
Fixpoint leader_from (i : nat) (ps : list nat) : option nat :=
  match ps with [] => None | p :: ps' => if p =? 1 then Some i else leader_from (S i) ps' end.
Definition leader (ps : list nat) : option nat := leader_from 0 ps.
(** validate_order: mensteampursuit.py:100-109 *)
Definition validate_at (ps : list nat) (i : nat) : list nat :=
  if nth i ps 0 =? 4 then
    let ps := set_nth i 3 ps in
    if nth ((i + 1) mod 4) ps 0 =? 0 then set_nth ((i + 3) mod 4) 2 (set_nth ((i + 2) mod 4) 1 ps)
    else if nth ((i + 2) mod 4) ps 0 =? 0 then set_nth ((i + 3) mod 4) 2 ps
    else ps
  else ps.
Definition validate_order (ps : list nat) : list nat := fold_left validate_at (seq 0 (List.length ps)) ps.

Section Race.
  Variable V : Type.                                        (* velocity of a rider *)
  Variable v0 : V.                                          (* 0 *)
  Variable pace_motion : V -> nat -> Q -> result (Q * V).       (* velocity, fatigue, power: distance, new velocity *)
  Variable follow_motion : V -> nat -> Q -> Q -> result (Q * V). (* velocity, fatigue, drafting coefficient, distance: power, new velocity *)

  (** cyclist.py:19-34; the total energy is fixed by the weight and the mean maximum power *)
  Record rider : Type := Rider { r_start : nat; r_total : Q; r_pos : nat; r_energy : Q; r_fatigue : nat; r_vel : V }.
  Definition with_pos (r : rider) (p : nat) : rider :=
    Rider (r_start r) (r_total r) p (r_energy r) (r_fatigue r) (r_vel r).
  Definition with_fatigue (r : rider) (f : nat) : rider :=
    Rider (r_start r) (r_total r) (r_pos r) (r_energy r) f (r_vel r).
  (** reset: cyclist.py:138-142 *)
  Definition reset (r : rider) : rider := Rider (r_start r) (r_total r) (r_start r) (r_total r) 0 v0.
  (** cyclist.py:60-63, 94-97 *)
  Definition burn (energy power : Q) : Q :=
    (if qlt (power * (1#10)) energy then energy - power * (1#10) else 0)%Q.
  (** set_pace: cyclist.py:36-65 *)
  Definition set_pace (r : rider) (power : Q) : result (Q * rider) :=
    bind (pace_motion (r_vel r) (r_fatigue r) power) (fun dv =>
      Ok (fst dv, Rider (r_start r) (r_total r) (r_pos r) (burn (r_energy r) power) (r_fatigue r) (snd dv))).
  Definition drafting_coefficients : list Q := [75#100; 65#100; 55#100]%Q.
  (** follow: cyclist.py:67-97 *)
  Definition follow (r : rider) (d : Q) : result rider :=
    match nth_error drafting_coefficients (r_pos r - 2) with
    | None => Err IndexError
    | Some c => bind (follow_motion (r_vel r) (r_fatigue r) c d) (fun pv =>
        Ok (Rider (r_start r) (r_total r) (r_pos r) (burn (r_energy r) (fst pv)) (r_fatigue r) (snd pv)))
    end.

  Definition has_energy (r : rider) : bool := qlt 0 (r_energy r).
  Definition alive (team : list rider) : list bool := map has_energy team.
  Definition positions (team : list rider) : list nat := map r_pos team.
  Definition place (ps : list nat) (team : list rider) : list rider := map (fun rp => with_pos (fst rp) (snd rp)) (combine team ps).
  (** cyclists_remaining: teampursuit.py:112-119 *)
  Definition remaining (team : list rider) : nat * list rider :=
    (count_alive (alive team), place (mask (alive team) (positions team)) team).

  (** the riders behind the leader: mensteampursuit.py:66-68 *)
  Fixpoint follow_all (d : Q) (team : list rider) : result (list rider) :=
    match team with
    | [] => Ok []
    | r :: team' => bind (if 1 <? r_pos r then follow r d else Ok r) (fun r' => bind (follow_all d team') (fun t => Ok (r' :: t)))
    end.
  (** the loop of a segment: mensteampursuit.py:63-75; [li] is the leader *)
  Fixpoint ride (fuel li : nat) (power distance ridden time : Q) (team : list rider) : result (Q * list rider) :=
    if qlt ridden distance then
      match fuel with
      | 0 => Err OutOfFuel
      | S f =>
          match nth_error team li with
          | None => Err AttributeError
          | Some l =>
              bind (set_pace l power) (fun dl =>
              bind (follow_all (fst dl) (set_nth li (snd dl) team)) (fun team' =>
              ride f li power distance (if qle (ridden + fst dl) distance then ridden + fst dl else distance)%Q (time + (1#10))%Q team'))
          end
      end
    else Ok (time, team).
  (** increase_fatigue of the leader and recover of the others: mensteampursuit.py:77-80 *)
  Definition recover (r : rider) : rider := if 1 <? r_pos r then with_fatigue r (r_fatigue r - 1) else r.
  Definition tire (li : nat) (team : list rider) : list rider :=
    map recover (match nth_error team li with Some l => set_nth li (with_fatigue l (r_fatigue l + 2)) team | None => team end).

  (** None: math.inf; [s_log] is not in the code: positions and fatigue of the riders when each segment starts *)
  Record sim : Type := Sim { s_team : list rider; s_time : option Q; s_prop : Q; s_profile : list (option Q); s_log : list (list (nat * nat)) }.
  Definition tplus (t : option Q) (x : Q) : option Q := option_map (fun t => t + x)%Q t.
  Definition segment_distance (n i : nat) : Q := (if (i =? 0) || (i =? n - 1) then 375#2 else 125)%Q.
  Definition takes (tr : list bool) (i : nat) : bool := match i with 0 => false | S j => nth j tr false end.

  (** the loop over the segments: mensteampursuit.py:49-92, womensteampursuit.py:47-86; [n] segments for a distance [race] *)
  Fixpoint segments (men : bool) (fuel n : nat) (race : Q) (tr : list bool) (i : nat) (pacing : list Q) (s : sim) : result sim :=
    match pacing with
    | [] => Ok s
    | power :: rest =>
        let distance := segment_distance n i in
        let (k, team) := remaining (s_team s) in
        if (if men then 3 <=? k else k =? 3) then
          let team := if men && (k =? 3) then place (validate_order (positions team)) team else team in
          let team := if takes tr i then place (transition (alive team) (positions team)) team else team in
          let time := if takes tr i then tplus (s_time s) (12#100) else s_time s in
          match leader (positions team) with
          | None => Err AttributeError
          | Some li =>
              let log := s_log s ++ [map (fun r => (r_pos r, r_fatigue r)) team] in
              bind (ride fuel li power distance 0 0 team) (fun tt =>
              let (k, team) := remaining (tire li (snd tt)) in
              segments men fuel n race tr (S i) rest
                (if 3 <=? k
                 then Sim team (tplus time (fst tt)) (s_prop s + distance / race)%Q (s_profile s ++ [Some (distance / fst tt)%Q]) log
                 else Sim team None (s_prop s) (s_profile s ++ [None]) log))
          end
        else Ok (Sim team None (s_prop s) (s_profile s ++ repeat None (List.length pacing)) (s_log s))
    end.

  Definition race_segments (men : bool) : nat := if men then 31 else 23.
  Definition race_distance (men : bool) : Q := (if men then 4000 else 3000)%Q.
  (** simulate: mensteampursuit.py:28-98 *)
  Definition simulate (men : bool) (fuel : nat) (team : list rider) (tr : list bool) (pacing : list Q) : result sim :=
    if negb (List.length tr =? race_segments men - 1) then Err ValueError
    else if negb (List.length pacing =? race_segments men) then Err ValueError
    else if existsb (fun p => qlt 1200 p || qlt p 200) pacing then Err ValueError
    else segments men fuel (race_segments men) (race_distance men) tr 0 pacing (Sim (map reset team) (Some 0%Q) 0 [] []).
  (** the teams: mensteampursuit.py:22-26, womensteampursuit.py:22-26; total_energy: cyclist.py:150-153 *)
  Definition new_team (men : bool) : list rider :=
    map (fun i => let e := (if men then 6 * 75 * 240 else 5 * 65 * 210)%Q in Rider (i + 1) e (i + 1) e 0 v0) (seq 0 (if men then 4 else 3)).

  (** the argument of team_pursuit_simulation: a tuple of booleans, an array or the value of an Instrumentation *)
  Inductive strategy : Type :=
  | Transitions (l : list bool) | Pacing (l : list Q) | Both (tr : list bool) (pa : list Q).
  (** [True, False] * n *)
  Fixpoint alternate (n : nat) : list bool := match n with 0 => [] | S m => true :: false :: alternate m end.
  (** cycling.py:82-95; sequences are told apart by their lengths only, so here of either kind.
      Simplification: a sequence of numbers used as transitions or of booleans used as powers is a TypeError, and so are plain sequences of length 2 *)
  Definition strategies (x : strategy) : result (list bool * list Q) :=
    match x with
    | Both tr pa => Ok (tr, pa)
    | Transitions l =>
        if (List.length l =? 30) || (List.length l =? 22)
        then Ok (l, repeat (if List.length l =? 30 then 550 else 400)%Q (List.length l + 1))
        else if (List.length l =? 31) || (List.length l =? 23) || (List.length l =? 2) then Err TypeError else Err ValueError
    | Pacing l =>
        if (List.length l =? 31) || (List.length l =? 23) then Ok (alternate ((List.length l - 1) / 2), l)
        else if (List.length l =? 30) || (List.length l =? 22) || (List.length l =? 2) then Err TypeError else Err ValueError
    end.
  (** team_pursuit_simulation: cycling.py:80-108 *)
  Definition team_pursuit_simulation (fuel : nat) (x : strategy) : result Q :=
    bind (strategies x) (fun tp =>
      let men := negb (List.length (snd tp) =? 23) in
      if negb ((List.length (snd tp) =? 23) || (List.length (snd tp) =? 31)) then Err AssertionError
      else bind (simulate men fuel (new_team men) (fst tp) (snd tp)) (fun s =>
        match s_time s with
        | None => Ok 10000%Q
        | Some t => Ok (if qlt 10000 t then 10000 else t)%Q
        end)).
End Race.

(** the power of a follower: cyclist.py:68-90; [cda] and [rho] are the drag area and the density of the air, [m] the mass of the rider and bike *)
Definition follow_power (cda rho m : Q) (fatigue : nat) (draft v d : Q) : Q :=
  (let dt := 1#10 in
  let acceleration := 2 * (d - v * dt) / (dt * dt) in
  let new_v := v + acceleration * dt in
  let delta_ke := (1#2) * m * (new_v - v) in
  (cda * draft * (1#2) * rho * (v * v * v) + (25#10000) * m * (980665#100000) * v + delta_ke / dt) / ((977#1000) * (1 - (1#100) * qnat fatigue)))%Q.

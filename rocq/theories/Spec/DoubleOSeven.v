(** The rules of the 007 game, in terms of the actions that the players chose, the last one first. *)
From Coq Require Import List Arith.
From Verif.Model Require Import Prelude DoubleOSeven.
Import ListNotations.
Open Scope nat_scope.

(** Ammunitions: reloading gives one, firing uses one, and firing without any reloads. *)
Fixpoint ammo (h : list action) : nat :=
  match h with
  | [] => 0
  | Reload :: h => S (ammo h)
  | Fire :: h => match ammo h with 0 => 1 | S n => n end
  | Protect :: h => ammo h
  end.
(** How many times in a row the player has just protected. *)
Fixpoint guards (h : list action) : nat := match h with Protect :: h => S (guards h) | _ => 0 end.
(** The last action was a shot. *)
Definition shot (h : list action) : Prop := match h with Fire :: h => 0 < ammo h | _ => False end.
(** The last action was a reload, or firing without ammunition. *)
Definition reloaded (h : list action) : Prop :=
  match h with Reload :: _ => True | Fire :: h => ammo h = 0 | _ => False end.
(** "the first to fire while the other is reloading (or firing without ammunition)", or "the one that did not protect more
    than 4 times consecutively if the other one did" (envs.py:52-55). *)
Definition wins (mine theirs : list action) : Prop :=
  (shot mine /\ reloaded theirs) \/ (4 < guards theirs /\ guards mine <= 4).

(** The games which have not stopped, with the actions chosen by both players. *)
Inductive goes : list action -> list action -> game -> Prop :=
| goes_start : goes [] [] new_game
| goes_more h0 h1 g i0 i1 a0 a1 g' out : goes h0 h1 g -> action_at i0 = Ok a0 -> action_at i1 = Ok a1 ->
    game_step i0 i1 g = Ok (g', out) -> o_done out = false -> goes (a0 :: h0) (a1 :: h1) g'.
(** An agent which always plays one of the three actions. *)
Definition fair {T} (act : T -> outcome -> T * nat) : Prop := forall s o, snd (act s o) < 3.

(** Vocabulary for the games, independent of how they are played. *)
From Coq Require Import ZArith QArith List Permutation.
From Verif.Model Require Import Prelude Games.
Import ListNotations.
Open Scope nat_scope.

(** The tables a game of war goes through. *)
Inductive war_reaches shuffle h w p1 p2 : table -> table -> Prop :=
| war_here t : war_reaches shuffle h w p1 p2 t t
| war_next t t' t'' : war_turn shuffle h w p1 p2 t = Goes_on t' -> war_reaches shuffle h w p1 p2 t' t'' -> war_reaches shuffle h w p1 p2 t t''.
Inductive flip_reaches p1 p2 : flip_table -> flip_table -> Prop :=
| flip_here t : flip_reaches p1 p2 t t
| flip_next t t' t'' : flip_turn p1 p2 t = Flip_on t' -> flip_reaches p1 p2 t' t'' -> flip_reaches p1 p2 t t''.

(** A policy for the game: none, or a vector of the right length. *)
Definition fits (d : nat) (p : option policy) : Prop := match p with None => True | Some l => length l = d end.
(** The winner when the players are exchanged. *)
Definition other_winner (r : nat) : nat := match r with 1 => 2 | 2 => 1 | _ => r end.
(** Shuffling keeps the cards. *)
Definition shuffles (shuffle : Q -> list nat -> list nat) : Prop := forall s l, Permutation l (shuffle s l).

(** A card of the hand can be put on one of the two cards of the table: the hand and the table afterwards. *)
Definition legal (mine : list nat) (s0 s1 : nat) (kept : list nat) (st : nat * nat) : Prop :=
  exists before c after, mine = before ++ c :: after /\ kept = before ++ after /\
    exists on other, ((on = s0 /\ other = s1) \/ (on = s1 /\ other = s0)) /\ flip_match c on = true /\
      st = (Nat.min c other, Nat.max c other).

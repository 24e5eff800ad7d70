(** Vocabulary for samplers. *)
From Coq Require Import Arith ZArith QArith Permutation List.
From Verif.Model Require Import Sequences.
Import ListNotations.
Open Scope Q_scope.

(** [x] is in the [j]-th of the [n] equal cells of [0, 1) (numbered from 0) *)
Definition in_cell (n j : nat) (x : Q) : Prop := qnat j / qnat n <= x /\ x < qnat (S j) / qnat n.
Definition prime (p : nat) : Prop := (2 <= p)%nat /\ forall d, Nat.divide d p -> d = 1%nat \/ d = p.
(** exactly one number of [a, a + n) has the property *)
Definition exactly_one (a n : nat) (P : nat -> Prop) : Prop :=
  exists i, ((a <= i < a + n)%nat /\ P i) /\ forall i', (a <= i' < a + n)%nat -> P i' -> i' = i.
Fixpoint product (l : list nat) : nat := match l with [] => 1 | x :: l' => x * product l' end%nat.
(** a permutation of the digits 0, ..., b - 1 that keeps 0 *)
Definition digit_permutation (p : list nat) : Prop :=
  (2 <= length p)%nat /\ Permutation p (seq 0 (length p)) /\ nth_error p 0 = Some 0%nat.

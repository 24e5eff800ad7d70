(** What a mutation does to a list of coordinates, discretized by [bin]. *)
From Coq Require Import ZArith QArith List.
From Verif.Model Require Import Prelude Mutator.
Import ListNotations.
Open Scope nat_scope.

Section S.
Variable bin : nat -> Z -> Z.
Variables (arity : nat) (parent child : list Z).
Definition untouched (i : nat) : Prop := nth i child 0%Z = nth i parent 0%Z.
Definition moved (i : nat) : Prop := bin arity (nth i child 0%Z) <> bin arity (nth i parent 0%Z).
(** the coordinates satisfying [which] are in another bin, the others are untouched *)
Definition mutated (which : nat -> Prop) : Prop :=
  length child = length parent /\ forall i, i < length parent -> (which i /\ moved i) \/ (~ which i /\ untouched i).
(** ... and there is at least one of them *)
Definition mutated_some (which : nat -> Prop) : Prop := mutated which /\ exists i, i < length parent /\ which i.
End S.
(** the coordinates whose uniform draw does not exceed a rate *)
Definition drawn_below (u : list Q) (rate : Q) (i : nat) : Prop := (nth i u 0 <= rate)%Q.
(** [u] holds one number of [0, 1) per coordinate *)
Definition uniforms (n : nat) (u : list Q) : Prop := length u = n /\ Forall (fun x => 0 <= x < 1)%Q u.

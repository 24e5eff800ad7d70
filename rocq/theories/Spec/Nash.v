(** Vocabulary for empirical distributions. *)
From Coq Require Import Arith QArith List.
From Verif.Model Require Import MultiValue Nash.
Import ListNotations.
Open Scope nat_scope.

Section S.
Context {A : Type}.
(** the largest number of trials *)
Definition most (l : tried A) (m : nat) : Prop := (exists a, In (a, m) l) /\ forall a c, In (a, c) l -> c <= m.
(** the number of trials of some points *)
Definition trials (l : tried A) : nat := list_sum (map snd l).
End S.

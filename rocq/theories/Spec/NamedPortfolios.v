(** What a portfolio is made of *)
From Coq Require Import List Arith.
From Verif.Model Require Import Prelude NamedPortfolios.
Import ListNotations.

(** [q] is [a / n] rounded up *)
Definition rounded_up (a n q : nat) : Prop := a <= n * q /\ n * q < a + n.
(** the [i]-th optimizer is asked at some point *)
Definition used (s : pobj) (i : nat) : Prop := exists k, turn s k = Ok i.
(** no ask fails, and each of the optimizers is used *)
Definition sound (s : pobj) : Prop :=
  (forall k, exists i, turn s k = Ok i) /\ forall i, i < length (po_optims s) -> used s i.

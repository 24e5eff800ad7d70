(** Vocabulary for the exchanges with an evolution strategy *)
From Coq Require Import List Arith QArith Permutation.
From Verif.Model Require Import Prelude MultiValue Cma.
Import ListNotations.
Open Scope nat_scope.

Section Cma.
  Context {X : Type}.
  (** the points of the strategy, the points which were returned, and the evaluations it was told, in order *)
  Definition drawn (effs : list (effect X)) : list X := flat_map (fun e => match e with Drawn xs => xs | _ => [] end) effs.
  Definition gave (effs : list (effect X)) : list X := flat_map (fun e => match e with Gave x _ => [x] | _ => [] end) effs.
  Definition learnt (effs : list (effect X)) : list (nat * X * Q) :=
    flat_map (fun e => match e with Batch us xs ys _ => combine (combine us xs) ys | _ => [] end) effs.
  (** the evaluations which the user has told *)
  Definition told (evs : list (cma_event X)) : list (nat * X * Q) :=
    flat_map (fun e => match e with CTell u x l _ => [(u, x, l)] | _ => [] end) evs.
  Definition told_uids (evs : list (cma_event X)) : list nat := map (fun t => fst (fst t)) (told evs).
  (** the [k] best (or all if there are fewer) of some candidates *)
  Definition k_best {A} (k : nat) (loss : A -> Q) (all best : list A) : Prop :=
    length best = Nat.min k (length all) /\
    exists rest, Permutation (best ++ rest) all /\ forall p r, In p best -> In r rest -> (loss p <= loss r)%Q.
End Cma.

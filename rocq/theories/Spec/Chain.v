(** Vocabulary about chains of optimizers. *)
From Coq Require Import List Arith QArith Bool.
From Verif.Model Require Import Prelude Chain.
Import ListNotations.
Open Scope nat_scope.

(** the first [k] optimizers together; [None] is no limit *)
Fixpoint total (bs : list (option nat)) (k : nat) : option nat :=
  match k, bs with
  | 0, _ | _, [] => Some 0
  | Datatypes.S k, None :: _ => None
  | Datatypes.S k, Some b :: bs => match total bs k with None => None | Some x => Some (b + x) end
  end.
Definition below (n : nat) (x : option nat) : Prop := match x with None => True | Some x => n < x end.
(** optimizer [k] is in charge of the [n]-th ask (from 0); the last one when all the budgets are spent *)
Definition in_charge (bs : list (option nat)) (n k : nat) : Prop :=
  k < length bs /\ ~ below n (total bs k) /\ (below n (total bs (k + 1)) \/ k + 1 = length bs).
(** optimizer [k] is informed of the [n]-th tell *)
Definition informed (bs : list (option nat)) (n k : nat) : Prop :=
  below n (total bs (k + 1)) \/ k + 1 = length bs.

Definition asks (l : list call) : list nat := flat_map (fun c => match c with CAsk u => [u] | _ => [] end) l.
Definition tells (l : list call) : list (nat * Q) := flat_map (fun c => match c with CTell c l => [(c, l)] | _ => [] end) l.
(** the tells of a history *)
Definition all_tells (ops : list mop) : list (nat * Q) :=
  flat_map (fun o => match o with MTell c l => [(c, l)] | _ => [] end) ops.
(** the candidates proposed by the optimizers *)
Definition proposed (ops : list mop) : list nat :=
  flat_map (fun o => match o with MAsk us u => us ++ [u] | _ => [] end) ops.
(** the number of asks of a history *)
Definition num_asks (ops : list mop) : nat :=
  length (filter (fun o => match o with MTell _ _ => false | _ => true end) ops).

(** among the candidates [us] proposed at the counters n, n+1, ..., those of optimizer [k] *)
Inductive dealt (bs : list (option nat)) (k : nat) : nat -> list nat -> list nat -> Prop :=
| dealt_nil n : dealt bs k n [] []
| dealt_mine n u us vs : in_charge bs n k -> dealt bs k (n + 1) us vs -> dealt bs k n (u :: us) (u :: vs)
| dealt_other n u us vs : ~ in_charge bs n k -> dealt bs k (n + 1) us vs -> dealt bs k n (u :: us) vs.

(** how many of the first [n] asks are for optimizer [k] *)
Definition share (bs : list (option nat)) (n k : nat) : nat :=
  match total bs k with
  | None => 0
  | Some x =>
      if k + 1 =? length bs then n - x
      else match nth_error bs k with Some (Some b) => Nat.min b (n - x) | _ => n - x end
  end.

(** the sub-optimizers only label their own candidates *)
Definition labels_own {S : Type} (sub_ask : nat -> meta -> S -> meta * S) : Prop :=
  forall u m s c, c <> u -> dget c (fst (sub_ask u m s)) = dget c m.

(** all the candidates proposed during a history (refused ones included) have a counter below the sum of
    the budgets; [n] is the counter at its start *)
Fixpoint in_budget (bs : list (option nat)) (n : nat) (ops : list mop) : Prop :=
  match ops with
  | [] => True
  | MAsk us _ :: ops => below (n + length us) (total bs (length bs)) /\ in_budget bs (n + 1) ops
  | MSuggested _ :: ops => in_budget bs (n + 1) ops
  | MTell _ _ :: ops => in_budget bs n ops
  end.
(** neither suggestion nor refused candidate *)
Definition plain (o : mop) : Prop :=
  match o with MAsk us _ => us = [] | MSuggested _ => False | MTell _ _ => True end.

(** [v] is the integer part of [p / q] of [b], at least 1 *)
Definition fraction (p q b v : nat) : Prop :=
  v = 1 /\ p * b < q \/ 1 <= v /\ q * v <= p * b < q * (v + 1).
(** the meaning of the names of budgets, for [nb] budgets given, [w] workers and dimension [d] *)
Definition named (budget : option nat) (w d nb : nat) (name : bname) (v : nat) : Prop :=
  let part p q := match budget with Some (Datatypes.S _ as b) => fraction p q b v | _ => fraction 1 1 w v end in
  match name with
  | BInt n => v = n
  | BWorkers => fraction 1 1 w v
  | BDimension => fraction 1 1 d v
  | BHalf => part 1 2
  | BThird => part 1 3
  | BFourth => part 1 4
  | BTenth => part 1 10
  | BEqual => part 1 (nb + 1)
  | BMost => part 4 5
  | BSqrt => match budget with Some (Datatypes.S _ as b) => v * v <= b < (v + 1) * (v + 1) | _ => fraction 1 1 w v end
  end.

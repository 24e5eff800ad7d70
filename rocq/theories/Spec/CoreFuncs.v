(** What the optimum of a test function is. *)
From Coq Require Import Reals Arith ZArith QArith List.
From Verif.Model Require Import Prelude.
Import ListNotations.
Open Scope R_scope.

(** In each dimension [d] of [dims], on all vectors of dimension [d]: [f] returns a number,
    its minimum is [v d], reached at [opt d] only. *)
Definition optimum (dims : nat -> Prop) (f : list R -> result R) (v : nat -> R) (opt : nat -> list R) : Prop :=
  forall d, dims d -> length (opt d) = d /\
    forall x, length x = d -> exists r, f x = Ok r /\ v d <= r /\ (r = v d <-> x = opt d).
Definition all_dims (d : nat) : Prop := True.
Definition from_dim (n d : nat) : Prop := (n <= d)%nat.
(** the vector with all coordinates equal to [c] *)
Definition constant (c : R) (d : nat) : list R := repeat c d.
(** the [i]-th vector of the canonical basis in dimension [d] *)
Definition axis (d i : nat) : list R := map (fun k => if (k =? i)%nat then 1 else 0) (seq 0 d).

(** [q] rounds to [n]: to the nearest integer, ties to even *)
Definition rounds (q : Q) (n : Z) : Prop :=
  (inject_Z n - (1 # 2) < q /\ q < inject_Z n + (1 # 2))%Q \/
  ((q == inject_Z n - (1 # 2) \/ q == inject_Z n + (1 # 2))%Q /\ Z.even n = true).
(** coordinate [i] is as in (0, 1, ..., arity - 1, 0, 1, ...) once rounded *)
Definition correct (arity : nat) (x : list Q) (i : nat) : Prop :=
  exists q, nth_error x i = Some q /\ rounds q (Z.of_nat (i mod arity)).
Definition target (arity : nat) (x : list Q) : Prop := forall i, (i < length x)%nat -> correct arity x i.
(** [k] coordinates are wrong *)
Definition mistakes (arity : nat) (x : list Q) (k : nat) : Prop :=
  exists l, NoDup l /\ length l = k /\ forall i, In i l <-> (i < length x)%nat /\ ~ correct arity x i.
(** the first [k] coordinates are correct, and not the next one *)
Definition correct_prefix (arity : nat) (x : list Q) (k : nat) : Prop :=
  (k <= length x)%nat /\ (forall i, (i < k)%nat -> correct arity x i) /\ (k = length x \/ ~ correct arity x k).

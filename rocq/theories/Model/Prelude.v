(** Shared vocabulary of the models: Python exceptions as values, and
    insertion-ordered Python dicts as association lists. *)
From Coq Require Import List Arith Bool.
Import ListNotations.

(** The Python exceptions raised by the modelled code paths. *)
Inductive exn : Type :=
| ValueError | TypeError | RuntimeError | KeyError | IndexError
| AssertionError | StopIteration | ZeroDivisionError | AttributeError
| NotImplementedError | EarlyStopping | TooManyAsk | OutOfFuel
| UserError (n : nat).

(** A call either returns a value or raises. *)
Inductive result (A : Type) : Type :=
| Ok (a : A)
| Err (e : exn).
Arguments Ok {A} a.
Arguments Err {A} e.

Definition bind {A B} (m : result A) (f : A -> result B) : result B :=
  match m with Ok a => f a | Err e => Err e end.

(** Python dict with [nat] keys: association list in insertion order. *)
Section Dict.
  Context {V : Type}.
  (** [d.get(k)] *)
  Fixpoint dget (k : nat) (d : list (nat * V)) : option V :=
    match d with
    | [] => None
    | (k', v) :: d' => if Nat.eqb k k' then Some v else dget k d'
    end.
  (** [k in d] *)
  Definition dmem (k : nat) (d : list (nat * V)) : bool :=
    match dget k d with Some _ => true | None => false end.
  (** [d[k] = v]: an existing key keeps its position, a new key goes last. *)
  Fixpoint dset (k : nat) (v : V) (d : list (nat * V)) : list (nat * V) :=
    match d with
    | [] => [(k, v)]
    | (k', v') :: d' =>
        if Nat.eqb k k' then (k', v) :: d' else (k', v') :: dset k v d'
    end.
  (** [d.pop(k, None)] / [del d[k]] on the remaining items *)
  Fixpoint ddel (k : nat) (d : list (nat * V)) : list (nat * V) :=
    match d with
    | [] => []
    | (k', v') :: d' => if Nat.eqb k k' then d' else (k', v') :: ddel k d'
    end.
  Definition dkeys (d : list (nat * V)) : list nat := map fst d.
  Definition dvals (d : list (nat * V)) : list V := map snd d.
End Dict.

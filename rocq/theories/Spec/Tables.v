(** Vocabulary for the optimizers which look for the nearest entry of a table *)
From Coq Require Import String.
From Coq Require Import ZArith QArith Bool Arith List.
From Verif.Model Require Import Prelude MultiValue Tables.
Import ListNotations.
Open Scope list_scope.
Open Scope nat_scope.

(** The first occurrences in a list *)
Fixpoint firsts {A : Type} (eqb : A -> A -> bool) (l : list A) : list A :=
  match l with [] => [] | x :: l => x :: filter (fun y => negb (eqb x y)) (firsts eqb l) end.

(** The places of a table, in the order in which they are first written: by dimension, then by ratio *)
Definition dims (rows : list row) : list nat := firsts Nat.eqb (map (fun r => fst (fst r)) rows).
Definition ratios (rows : list row) (d : nat) : list Q :=
  firsts Qeq_bool (map (fun r => snd (fst r)) (filter (fun r => fst (fst r) =? d) rows)).
Definition places (rows : list row) : list (nat * Q) := flat_map (fun d => map (fun q => (d, q)) (ratios rows d)) (dims rows).
(** The names written at one place *)
Definition at_place (rows : list row) (k : nat * Q) : list string :=
  map snd (filter (fun r => (fst (fst r) =? fst k) && Qeq_bool (snd (fst r)) (snd k)) rows).
(** [k]: the first one of the places which are closest to a dimension and a ratio *)
Definition closest (rows : list row) (d : nat) (nod : Q) (k : nat * Q) : Prop :=
  let far x := ((qnat d - qnat (fst x)) ^ 2 + (nod - snd x) ^ 2)%Q in
  exists l1 l2, places rows = l1 ++ k :: l2 /\
    (forall x, In x l1 -> (far k < far x)%Q) /\ (forall x, In x l2 -> (far k <= far x)%Q).

(** An order of iteration of sets: each element once *)
Definition iterates (order : list string -> list string) : Prop :=
  forall l, NoDup (order l) /\ forall x, In x (order l) <-> In x l.
(** [a] appears as often as any other one; it is the only one *)
Definition a_top (l : list string) (a : string) : Prop :=
  In a l /\ forall x, count_occ string_dec l x <= count_occ string_dec l a.
Definition only_top (l : list string) (a : string) : Prop := a_top l a /\ forall x, a_top l x -> x = a.
(** the names which support several workers, when there are several *)
Definition allowed (nw : nat) (l : list string) : list string :=
  if 1 <? nw then filter (fun a => negb (no_parallelization a)) l else l.

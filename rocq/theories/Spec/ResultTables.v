(** Vocabulary for tables. *)
From Coq Require Import List String Permutation.
From Verif.Model Require Import ResultTables.
Import ListNotations.

Section Spec.
Context {V : Type} (nan : V).
(** Columns have different names and rows one cell per column. *)
Definition well_formed (t : table V) : Prop :=
  NoDup (cols t) /\ Forall (fun r => List.length r = List.length (cols t)) (rows t).
(** The content of a row at a column; missing when the table has no such column. *)
Inductive content (t : table V) (row : list V) (name : string) : V -> Prop :=
| present : forall k v, nth_error (cols t) k = Some name -> nth_error row k = Some v -> content t row name v
| absent : ~ In name (cols t) -> content t row name nan.
(** The rows of some tables, each with its table. *)
Definition rows_of (ts : list (table V)) : list (table V * list V) := flat_map (fun t => map (pair t) (rows t)) ts.
(** The rows of [t] are those of [ts], one after the other, with the same contents. *)
Definition gathers (t : table V) (ts : list (table V)) : Prop :=
  Forall2 (fun row tr => forall name v, content t row name v <-> content (fst tr) (snd tr) name v) (rows t) (rows_of ts) /\
  (forall name, In name (cols t) <-> exists t', In t' ts /\ In name (cols t')).
End Spec.

Section Spec2.
Context {V : Type}.
(** What a criterion asks. *)
Definition satisfies (c : criterion V) (v : V) : Prop :=
  match c with Among l => In v l | Such f => f v = true | Equal w => v = w end.
(** A total order. *)
Definition total_order (le : V -> V -> bool) : Prop :=
  (forall a b, le a b = true \/ le b a = true) /\
  (forall a b c, le a b = true -> le b c = true -> le a c = true) /\
  (forall a b, le a b = true -> le b a = true -> a = b).
End Spec2.

(** The file an experiment is written to: the requested one, or the one named after the
    experiment if none is requested or if it cannot be written. *)
Inductive destination (writable : string -> bool) (experiment : string) : option string -> string -> Prop :=
| requested : forall o, writable o = true -> destination writable experiment (Some o) o
| unnamed : destination writable experiment None (experiment ++ ".csv")
| fallback : forall o, writable o = false -> destination writable experiment (Some o) (experiment ++ ".csv").

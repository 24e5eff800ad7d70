(** Vocabulary for random states. *)
From Coq Require Import List ZArith.
From Verif.Model Require Import RandomState.
Import ListNotations.
Open Scope nat_scope.

(** The random states of a parameter and of all its sub-parameters. *)
Inductive every (P : option nat -> Prop) : tree -> Prop :=
| every_node k st d kids : P st -> Forall (fun p => every P (snd p)) kids -> every P (Tree k st d kids).
(** none is left to initialize; all are generator [h]; none is initialized *)
Definition settled : tree -> Prop := every (fun s => s <> None).
Definition all_same (h : nat) : tree -> Prop := every (fun s => s = Some h).
Definition untouched : tree -> Prop := every (fun s => s = None).
(** Operations that neither copy without random state, nor replace a standard deviation; and that do not seed. *)
Definition quiet (o : op) : Prop := match o with ResetCopy _ | SetSigma _ _ _ => False | _ => True end.
Definition no_seed (o : op) : Prop := match o with Seed _ _ _ => False | _ => True end.
(** A parameter within [n] containers, each with this only element. *)
Fixpoint nested (n : nat) (st : option nat) (t : tree) : tree :=
  match n with O => t | S n' => Tree Container st [] [(0, nested n' st t)] end.
(** Constants, possibly in containers, like the internal parameters of an array with a fixed standard deviation. *)
Inductive inert : tree -> Prop :=
| inert_const st d kids : inert (Tree Const st d kids)
| inert_container st d kids : Forall (fun p => inert (snd p)) kids -> inert (Tree Container st d kids).
(** Arrays with fixed standard deviation and constants, in containers. *)
Inductive ordinary : tree -> Prop :=
| ordinary_const st d kids : ordinary (Tree Const st d kids)
| ordinary_data st d kids : Forall (fun p => inert (snd p)) kids -> ordinary (Tree Data st d kids)
| ordinary_container st d kids : Forall (fun p => ordinary (snd p)) kids -> ordinary (Tree Container st d kids).
(** The array at a path. *)
Inductive array_at : list nat -> tree -> list Z -> list (nat * tree) -> Prop :=
| array_here st d kids : array_at [] (Tree Data st d kids) d kids
| array_below i key path st d kids t d' kids' : nth_error kids i = Some (key, t) -> array_at path t d' kids' -> array_at (i :: path) (Tree Container st d kids) d' kids'.
Definition zsum (l : list Z) : Z := fold_right Z.add 0%Z l.
(** From [w] to [w'], generator [h] may have given numbers, and nothing else happened. *)
Definition only (h : nat) (w w' : world) : Prop :=
  seed w' = seed w /\ fresh w' = fresh w /\ used w' = used w /\ count w h <= count w' h /\ forall h', h' <> h -> count w' h' = count w h'.
(** Each coordinate of [d'] is that of [d] plus [steps] different numbers which generator [h] gave between [w] and [w'], times
    [sigma]. *)
Definition moved (stream : Z -> nat -> Z) (h : nat) (w w' : world) (steps : nat) (sigma : Z) (d d' : list Z) : Prop :=
  length d' = length d /\ forall j x, nth_error d j = Some x ->
    exists ps, length ps = steps /\ NoDup ps /\ Forall (fun p => count w h <= p < count w' h) ps /\
      nth_error d' j = Some (x + sigma * zsum (map (stream (seed w h)) ps))%Z.

(** Vocabulary for the wrapper of Pyomo models. *)
From Coq Require Import String List ZArith QArith.
From Verif.Model Require Import Prelude PyomoModel.
Import ListNotations.
Open Scope Q_scope.

(** The values of a continuous range ([r_step] is 0) or of consecutive integers (1). *)
Definition in_domain (r : nrange) (x : Q) : Prop :=
  (forall s, r_start r = Some s -> if fst (r_closed r) then s <= x else s < x)
  /\ (forall e, r_end r = Some e -> if snd (r_closed r) then x <= e else x < e).
(** What the parameter may take. *)
Definition allowed (s : scalar) (x : Q) : Prop :=
  (forall l, s_lower s = Some l -> l <= x) /\ (forall u, s_upper s = Some u -> x <= u).
(** [up] and [down] give the neighbours among the numbers which can be represented. *)
Definition neighbours (repr : Q -> Prop) (up down : Q -> Q) : Prop :=
  forall x, x < up x /\ down x < x /\ (forall y, repr y -> x < y -> up x <= y) /\ (forall y, repr y -> y < x -> y <= down x).
(** The arguments of a call: one value for each variable. *)
Definition full (vars : list nat) (args : list (nat * Q)) : Prop :=
  NoDup (map fst args) /\ forall k, In k vars <-> In k (map fst args).
(** The value of a variable in the arguments. *)
Definition value_of (args : list (nat * Q)) (k : nat) : option Q := dget k args.
(** A function of the values of the variables only. *)
Definition reads {A} (vars : list nat) (f : (nat -> option Q) -> A) : Prop :=
  forall e e', (forall k, In k vars -> e k = e' k) -> f e = f e'.
Definition request_args (r : request) : list (nat * Q) :=
  match r with RObjective a => a | RConstraint _ a => a end.
(** The values of consecutive integers from the greatest one, where the range starts, to the least one. *)
Definition in_descending (r : nrange) (x : Q) : Prop :=
  (forall s, r_start r = Some s -> if fst (r_closed r) then x <= s else x < s)
  /\ (forall e, r_end r = Some e -> if snd (r_closed r) then e <= x else e < x).

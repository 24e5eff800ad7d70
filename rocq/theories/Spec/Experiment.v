(** Vocabulary for experiments *)
From Coq Require Import Arith ZArith QArith Bool List.
From Verif.Model Require Import Prelude.
From Verif.Model Require Experiment.
Import ListNotations.
Open Scope nat_scope.

(** Two dicts with the same items *)
Definition same_items (d e : list (nat * nat)) : Prop := forall k, dget k d = dget k e.
(** Two functions created with the same settings: class, descriptors, name of the parametrization *)
Definition alike (f g : Experiment.efunction) : Prop :=
  Experiment.f_class f = Experiment.f_class g /\ same_items (Experiment.f_desc f) (Experiment.f_desc g) /\
  Experiment.p_name (Experiment.f_param f) = Experiment.p_name (Experiment.f_param g).
(** The constructor records its class and arguments, and the descriptors are a dict *)
Definition records (construct : nat -> list (nat * nat) -> result Experiment.efunction) : Prop :=
  forall c i f, construct c i = Ok f -> Experiment.f_class f = c /\ Experiment.f_init f = i /\ NoDup (dkeys (Experiment.f_desc f)).
(** a copy of a copy of ... of a function *)
Inductive copied construct (f : Experiment.efunction) : nat -> Experiment.efunction -> Prop :=
| copied_0 : copied construct f 0 f
| copied_S n g h : copied construct f n g -> Experiment.copy construct g = Ok h -> copied construct f (S n) h.

(** A function [f] agrees with [out], newly made with the same arguments: every descriptor of [out] has its value in [f],
    and [f] was not given a descriptor with one of the two reserved names *)
Definition consistent (out f : Experiment.efunction) : Prop :=
  forall k, match dget k (Experiment.f_desc out) with
            | Some v => dget k (Experiment.f_desc f) = Some v
            | None => k = Experiment.k_parametrization \/ k = Experiment.k_dimension -> dget k (Experiment.f_desc f) = None
            end.

(** The optimization is reached: a fresh copy of the function could be made, and the optimizer be created *)
Definition reached (ev : Experiment.events) (x : Experiment.xp) : Prop :=
  Experiment.e_copy ev = Ok (Experiment.x_checkers x) /\
  (Experiment.x_started x = false -> Experiment.e_instantiate ev = None /\ Experiment.e_reference ev = None) /\
  Experiment.e_has_budget ev = true.
(** the recommendation violates a constraint *)
Definition violates (ev : Experiment.events) (x : Experiment.xp) (b : bool) : Prop :=
  (Experiment.e_violation ev = Ok true /\ b = true) \/
  (Experiment.e_violation ev = Ok false /\ Experiment.x_checkers x = 0 /\ b = false) \/
  (Experiment.e_violation ev = Ok false /\ Experiment.x_checkers x <> 0 /\ Experiment.e_unsatisfied ev = Ok b).
(** errors which [run] lets through *)
Definition passes (e : exn) : Prop := e = Experiment.CopyError \/ e = Experiment.Unsupported.

(** Vocabulary for experiments with a special evaluation. *)
From Coq Require Import Arith QArith List.
From Verif.Model Require Import Pareto Experiment.
From Verif.Spec Require Import Pareto.
Import ListNotations.

(** [q] is the smallest evaluation among [l]. *)
Definition smallest (ev : point -> Q) (l : list point) (q : Q) : Prop :=
  (exists p, In p l /\ ev p = q) /\ forall p, In p l -> (q <= ev p)%Q.

(** Different functions of a single objective with parametrizations of the same name *)
Definition compatible (l : list (nat * efunction)) : Prop :=
  NoDup (map fst l) /\ (forall x, In x l -> f_upper (snd x) = None) /\
  (forall x y, In x l -> In y l -> p_name (f_param (snd x)) = p_name (f_param (snd y))).

(** No point of [l] dominates another. *)
Definition incomparable (l : list point) : Prop := forall p, In p l -> undominated l p.

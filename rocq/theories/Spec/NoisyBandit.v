(** Vocabulary for NoisyBandit: counts over the observed history (points asked with
    their origin, points told with their losses). *)
From Coq Require Import List Arith QArith.
From Verif.Model Require Import Prelude MultiValue NoisyBandit.
From Verif.Spec Require Import Archive.
Import ListNotations.
Local Open Scope nat_scope.

(** number of points asked *)
Definition asks (os : list nb_obs) : nat :=
  length (filter (fun o => match o with Asked _ _ => true | _ => false end) os).
(** what was told, in order *)
Definition tells (os : list nb_obs) : list told :=
  flat_map (fun o => match o with Told uid key loss => [(uid, key, loss)] | _ => [] end) os.
(** the arms: the distinct points told, in order of first evaluation *)
Definition arms (os : list nb_obs) : list nat := first_occurrences (map t_key (tells os)).
(** the points asked that were newly drawn *)
Definition draws (os : list nb_obs) : list nat :=
  flat_map (fun o => match o with Asked New key => [key] | _ => [] end) os.

(** the estimate of a point from the losses told for it, in order (its statistics are
    those of C06) *)
Definition estimate (msqrt : Q -> Q) (n : crit) (losses : list Q) : option Q :=
  match losses with
  | [] => None
  | y :: ys => Some (mv_est msqrt n (mv_eval msqrt 0 y ys))
  end.

(** [k] has, among all told points, the smallest optimistic estimate *)
Definition most_promising (msqrt : Q -> Q) (os : list nb_obs) (k : nat) : Prop :=
  exists e, estimate msqrt Optimistic (losses_of k (tells os)) = Some e /\
  forall k' e', estimate msqrt Optimistic (losses_of k' (tells os)) = Some e' -> (e <= e')%Q.

(** every new draw of the history differs from all points drawn or told before it *)
Definition fresh_draws (os : list nb_obs) : Prop :=
  forall pre post k, os = pre ++ Asked New k :: post ->
    ~ In k (draws pre) /\ ~ In k (map t_key (tells pre)).

(** the drawn points waiting for their first evaluation *)
Definition waiting (os : list nb_obs) : list nat :=
  filter (fun k => if in_dec Nat.eq_dec k (map t_key (tells os)) then false else true) (draws os).

(** at every moment of the history, at most [w] of them *)
Definition at_most_waiting (w : nat) (os : list nb_obs) : Prop :=
  forall pre post, os = pre ++ post -> length (waiting pre) <= w.

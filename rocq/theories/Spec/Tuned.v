(** Vocabulary for the choices of NgIohTuned and its relatives *)
From Coq Require Import List Arith ZArith Bool.
From Verif.Model Require Import Prelude Select Tuned.
From Verif.Spec Require Import Select.
Import ListNotations.
Open Scope nat_scope.

(** The problems for which CSEC10, CSEC11 and NgIohTuned fail: those marked as real-world problems of hyper-parameter
    tuning (and neither as neural nor as constrained) which are continuous, have no noise and a budget of at least 12
    times the dimension. *)
Definition unlucky (v : tuned) (t : tinfo) : Prop :=
  (v = CSEC10 \/ v = CSEC11) /\
  t_real t = true /\ t_hp t = true /\ t_neural t = false /\ t_constraints t = false /\
  i_continuous (t_info t) = true /\ has_noise (t_info t) = false /\
  exists b, i_budget (t_info t) = Some b /\ 12 * i_dim (t_info t) <= b.

(** The usual problem: continuous, without noise, not marked in any way *)
Definition unmarked (t : tinfo) : Prop := t_real t = false /\ t_constraints t = false.
Definition ordinary (t : tinfo) : Prop :=
  unmarked t /\ i_continuous (t_info t) = true /\ has_noise (t_info t) = false.

(** One worker, from 2 to 49 variables and a budget of at least 30 times their number: the optimizers which work, one
    after the other (the three of MultiCMA in turn) *)
Definition one_after_the_other (d b : nat) : list algo :=
  if 2000 * d <? b then [AVLPCMA] else
  if (300 * d =? b) && (d <? 30) then [ACMAinit; ACMAinit; ACMAinit] else
  if (300 * d <? b) && (d =? 2) then [ACMAinit; ACMAinit; ACMAinit; ARBFGS] else
  [ACobyla; if (300 * d <? b) && (8 <=? d) then ACmaFmin2 else AElitistCMA; ASQP].

(** The same for NgIoh8, with a budget below 300 times the number of variables *)
Definition one_after_the_other8 (d : nat) : list algo :=
  if d =? 2 then [ASbplx] else if d <? 15 then [AElitistCMA; ASQP] else [ACobyla; AElitistCMA; ASQP].

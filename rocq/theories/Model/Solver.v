(** Model of [_constraint_solver], the search for a point which satisfies the constraints, when the candidate to be asked
    does not (nevergrad/optimization/base.py:862-882), on top of the archive of Model/Archive.v. A point is given by the
    number of its standardized data; the constraints and the distance to the original candidate are functions of the point.
    Losses are exact. *)
From Coq Require Import List Arith QArith Bool.
From Verif.Model Require Import Prelude MultiValue Archive.
Import ListNotations.
Open Scope nat_scope.

(** What a constraint returns: a boolean or a number (the TypeError for anything else is left out). *)
Inductive answer : Type := Holds (b : bool) | Margin (q : Q).
(** parametrization/utils.py:269-277 [float_penalty] *)
Definition penalty_of (a : answer) : Q :=
  match a with Holds b => if b then 0%Q else 1%Q | Margin q => (- qmin 0 q)%Q end.

Section Solver.
  Variable msqrt : Q -> Q.
  (** the pruning of the archive of the inner optimizer *)
  Variable pruning : list mv -> list (nat * nat) -> result (list (nat * nat)).
  (** [parameter._constraint_checkers] *)
  Variable checkers : list (nat -> answer).
  (** base.py:875 the distance to the original candidate *)
  Variable distance : nat -> Q.
  (** [opt.ask()]: uid and point, given what was told before to the inner optimizer (a OnePlusOne) *)
  Variable propose : list (nat * nat * Q) -> nat * nat.

  (** base.py:872 *)
  Definition penalty (key : nat) : Q := fold_left (fun a f => a + penalty_of (f key))%Q checkers 0%Q.
  (** base.py:877 *)
  Definition solver_loss (key : nat) : Q := if qle (penalty key) 0 then distance key else (penalty key + distance key + 1)%Q.
  (** base.py:868-880: what is told to the inner optimizer *)
  Fixpoint solver_loop (budget : nat) (hist : list (nat * nat * Q)) : list (nat * nat * Q) :=
    match budget with
    | O => hist
    | S n => let (c, key) := propose hist in
             let hist := hist ++ [(c, key, solver_loss key)] in
             if qle (penalty key) 0 then hist else solver_loop n hist
    end.
  (** base.py:881-882 the point of the candidate recommended by the inner optimizer, [None] being the original one;
      [deterministic] is the flag of the parametrization, which its copy keeps. *)
  Definition constraint_solver (deterministic : bool) (budget : nat) : option nat :=
    let hist := solver_loop budget [] in
    match arch_recommend deterministic (arch_run msqrt pruning arch_init hist) with
    | None => None
    | Some c => option_map (fun t => snd (fst t)) (find (fun t => fst (fst t) =? c) hist)
    end.
End Solver.

(** Model of the callbacks: nevergrad/optimization/callbacks.py. *)
From Coq Require Import Arith ZArith QArith Bool Lia List.
From Verif.Model Require Import Prelude MultiValue.
Import ListNotations.
Open Scope nat_scope.

(** ** Early stopping *)

(** callbacks.py:374-392 [_LossImprovementToleranceCriterion]. An observation is the loss of
    the recommendation (None: no loss yet). Several objectives: [recommend] raises, see
    [no_improvement_moo]. *)
Record criterion : Type := Criterion { cr_best : option Q; cr_count : nat }.
Definition new_criterion : criterion := Criterion None 0.
Definition cr_call (window : nat) (c : criterion) (loss : option Q) : criterion * bool :=
  match loss with
  | None => (c, false)
  | Some v =>
      match cr_best c with
      | None => (Criterion (Some v) (cr_count c), false)
      | Some b =>
          let c' := if qle b v then Criterion (Some b) (cr_count c + 1) else Criterion (Some v) 0 in
          (c', window <? cr_count c')
      end
  end.
Definition cr_run (window : nat) (obs : list (option Q)) (c : criterion) : criterion :=
  fold_left (fun c o => fst (cr_call window c o)) obs c.
(** callbacks.py:362-371 [_DurationCriterion]: a call reads the clock twice, the first time only if
    it has not started *)
Record duration : Type := Duration { du_start : option Q; du_max : Q }.
Definition du_call (d : duration) (clock1 clock2 : Q) : duration * bool :=
  let start := match du_start d with Some s => s | None => clock1 end in
  (Duration (Some start) (du_max d), qlt (start + du_max d) clock2).
Definition du_run (calls : list (Q * Q)) (d : duration) : duration :=
  fold_left (fun d c => fst (du_call d (fst c) (snd c))) calls d.
(** callbacks.py:337-341 [EarlyStopping.__call__]: as a callback of [ask] it has no argument,
    as one of [tell] it has some *)
Definition early_stopping (has_args : bool) (criterion_says : result bool) : result unit :=
  if has_args then Err RuntimeError
  else bind criterion_says (fun stop => if stop then Err EarlyStopping else Ok tt).
(** callbacks.py:380-381 with base.py:580-583: the criterion asks for a recommendation *)
Definition no_improvement_says (num_objectives window : nat) (c : criterion) (loss : option Q) : result bool :=
  if 1 <? num_objectives then Err RuntimeError else Ok (snd (cr_call window c loss)).

(** ** Printer and logger *)

(** callbacks.py:23-50 [OptimizationPrinter] and callbacks.py:53-99 [OptimizationLogger] *)
Record printer : Type := Printer { pr_tells : nat; pr_seconds : Q; pr_next_tell : nat; pr_next_time : Q }.
Definition new_printer (tells : nat) (seconds now : Q) : printer := Printer tells seconds tells (now + seconds)%Q.
(** one call, with the number of tells of the optimizer; the clock is read twice *)
Definition pr_call (p : printer) (num_tell : nat) (now now2 : Q) : printer * bool :=
  if qle (pr_next_time p) now || (num_tell <=? pr_next_tell p) then
    (Printer (pr_tells p) (pr_seconds p) (num_tell + pr_tells p) (now2 + pr_seconds p)%Q, true)
  else (p, false).

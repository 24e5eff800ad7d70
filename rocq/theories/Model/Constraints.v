(** Model of the penalties of constraints: nevergrad/optimization/utils.py:353-399
    [ConstraintManager] and nevergrad/parametrization/utils.py:269-277 [float_penalty]. *)
From Coq Require Import Reals Bool Lra List.
From Verif.Model Require Import Prelude.
Import ListNotations.
Open Scope R_scope.

(** what a constraint returns *)
Inductive output : Type := OBool (b : bool) | OFloat (x : R) | ONan | OOther.
(** parametrization/utils.py:269-277; [min(0, nan)] is 0 *)
Definition float_penalty (o : output) : result R :=
  match o with
  | OBool b => Ok (if b then 0 else 1)
  | OFloat x => Ok (- Rmin 0 x)
  | ONan => Ok 0
  | OOther => Err TypeError
  end.
Fixpoint sum_penalties (l : list output) : result R :=
  match l with
  | [] => Ok 0
  | o :: l => bind (float_penalty o) (fun x => bind (sum_penalties l) (fun y => Ok (x + y)))
  end.
(** parametrization/core.py:317-318 the end of [satisfies_constraints], which stops at the
    first constraint which is not satisfied *)
Fixpoint satisfied (l : list output) : result bool :=
  match l with
  | [] => Ok true
  | o :: l => bind (float_penalty o) (fun x => if Rle_dec x 0 then satisfied l else Ok false)
  end.
Record manager : Type := Manager { mg_trials : nat; mg_factor : R; mg_exponent : R }.
Definition new_manager : manager := Manager 1000 1 (1001 / 1000).
(** optimization/utils.py:372-392 [update]: the attributes are set, then checked *)
Definition mg_update (m : manager) (trials : option nat) (factor exponent : option R) : manager * result unit :=
  let set {X} (o : option X) (d : X) := match o with Some x => x | None => d end in
  let m' := Manager (set trials (mg_trials m)) (set factor (mg_factor m)) (set exponent (mg_exponent m)) in
  (m', if Rlt_dec (mg_exponent m') 1 then Err ValueError else Ok tt).
(** optimization/utils.py:394-399 [penalty]; the budget is positive *)
Definition coefficient (m : manager) (num_ask : nat) (budget : option nat) : R :=
  let budget := match budget with None => 1%nat | Some b => b end in
  mg_factor m * Rpower (mg_exponent m) (INR num_ask / sqrt (INR budget)).
Definition penalty (m : manager) (num_ask : nat) (budget : option nat) (outputs : list output) : result R :=
  bind (sum_penalties outputs) (fun s => Ok (coefficient m num_ask budget * s)).

(** A parameter with constraints, and sub-parameters with theirs: what the constraints
    return on its value *)
Inductive checked : Type := Checked (outputs : list output) (subs : list checked).
Definition outputs_of (c : checked) : list output := match c with Checked o _ => o end.
(** parametrization/core.py:274-318 [satisfies_constraints] without tabu list: all the
    sub-parameters are checked first *)
Fixpoint all_satisfied (c : checked) : result bool :=
  match c with
  | Checked outputs subs =>
      bind ((fix go (l : list checked) : result bool :=
               match l with
               | [] => Ok true
               | x :: l => bind (all_satisfied x) (fun b => bind (go l) (fun b' => Ok (b && b')))
               end) subs)
           (fun inside => if inside then satisfied outputs else Ok false)
  end.

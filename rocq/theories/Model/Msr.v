(** Model of the tells of [MultipleSingleRuns] (nevergrad/optimization/optimizerlib.py:5349-5378), the optimizer which runs several copies of an
    optimizer "with random weights for the different objective functions".  Its asks are those of a portfolio (Model/Portfolio.v).
    The copies are arbitrary; their logs keep the losses they were told. *)
From Coq Require Import List Arith QArith Bool.
From Verif.Model Require Import Prelude MultiValue Pareto Hypervolume HypervolumePareto.
From Verif.Model Require Float.
Import ListNotations.
Open Scope nat_scope.

(** np.sum(loss * coeffs), for a float [loss] and an array [coeffs] *)
Definition weigh (loss : Float.fl) (coeffs : list Q) : Float.fl := fold_right (fun c s => Float.fl_add (Float.fl_mulq loss c) s) (Float.Fin 0) coeffs.
Definition to_fl (l : loss_t) : Float.fl := match l with Fin q => Float.Fin q | Infinity => Float.PosInf end.
(** multiobjective/core.py:12 *)
Definition auto_bound : nat := 15.

Section Msr.
  Variable S : Type.
  Variable sub_tell : nat -> Float.fl -> S -> S * result unit.

  (** [ms_hp]: the attribute [_hypervolume_pareto]; [ms_subs]: [optims], with their logs *)
  Record msr : Type := Msr { ms_hp : option hpareto; ms_coeffs : list (list Q); ms_subs : list (S * list Float.fl) }.
  Definition msr_init (subs : list S) : msr := Msr None [] (map (fun s => (s, [])) subs).

  (** base.py:337-391, 432-438: the loss that [tell] hands to [_internal_tell_candidate]: the number itself for one objective (the
      clipping of numbers over 5e20 is left out), the loss computed from the hypervolume for several *)
  Definition scalar_loss (c : nat) (losses : list Q) (hp : option hpareto) : option hpareto * result Float.fl :=
    match losses with
    | [l] => (hp, Ok (Float.Fin l))
    | _ =>
        let h := match hp with Some h => h | None => hp_init None auto_bound false end in
        let (h, r) := hp_add (c, losses) h in (Some h, bind r (fun l => Ok (to_fl l)))
    end.
  (** optimizerlib.py:5376-5378: the loop over [zip(self.coeffs, self.optims)]; an exception of a copy interrupts it.  Each copy writes
      the loss it is told in the attribute [loss] of the candidate (base.py:389): the last value is returned. *)
  Fixpoint tell_copies (c : nat) (loss : Float.fl) (coeffs : list (list Q)) (cand : Float.fl) (subs : list (S * list Float.fl)) : list (S * list Float.fl) * result Float.fl :=
    match coeffs, subs with
    | w :: coeffs, (s, log) :: subs =>
        let this_loss := weigh loss w in
        let (s', r) := sub_tell c this_loss s in
        match r with
        | Ok _ => let (subs, r) := tell_copies c loss coeffs this_loss subs in ((s', log ++ [this_loss]) :: subs, r)
        | Err e => ((s', log ++ [this_loss]) :: subs, Err e)
        end
    | _, _ => (subs, Ok cand)
    end.
  (** optimizerlib.py:5370-5378, called by base.py:424; [draw]: the weights drawn by the first tell.  Returns the attribute [loss] of the candidate. *)
  Definition msr_tell (draw : list (list Q)) (c : nat) (losses : list Q) (m : msr) : msr * result Float.fl :=
    let (hp, r) := scalar_loss c losses (ms_hp m) in
    match r with
    | Err e => (Msr hp (ms_coeffs m) (ms_subs m), Err e)
    | Ok loss =>
        let coeffs := match ms_coeffs m with [] => draw | cs => cs end in
        let (subs, r) := tell_copies c loss coeffs loss (ms_subs m) in
        (Msr hp coeffs subs, r)
    end.
  Fixpoint msr_run (draw : list (list Q)) (tells : list (nat * list Q)) (m : msr) : msr * list (result Float.fl) :=
    match tells with
    | [] => (m, [])
    | (c, losses) :: tells => let (m, r) := msr_tell draw c losses m in let (m, rs) := msr_run draw tells m in (m, r :: rs)
    end.
End Msr.
Arguments Msr {S}. Arguments ms_hp {S}. Arguments ms_coeffs {S}. Arguments ms_subs {S}.

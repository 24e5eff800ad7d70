(** Model of the optimizers of the NGOpt family as users of the optimizer they select
    (nevergrad/optimization/optimizerlib.py:3806-3911 [NGOptBase], :4113-4119 [NGOpt8]).
    Which one is selected is in Model/Select.v.  Both are optimizers in the sense of
    Model/Optimizer.v: the algorithm of the outer one is the inner one. *)
From Coq Require Import List Arith ZArith QArith Bool.
From Verif.Model Require Import Prelude MultiValue Float Optimizer.
Import ListNotations.

Section Delegate.
  (** Types of the inner optimizers (the selected one, and the DE which replaces it) and
      of the archive and hypervolume of the outer one. *)
  Variables A C H ARC HV : Type.
  Notation inner := (ost A C H).

  (** The selected optimizer and its creation (which may raise), the DE and its creation,
      and whether the class replaces the first by the second when there are several
      objectives: NGOpt8 and its descendants, [noise_from_instrumentation or not has_noise]
      (optimizerlib.py:4116). *)
  Variable EI : env A C H.
  Variable create : result inner.
  Variable ED : env A C H.
  Variable create_de : inner.
  Variable replaces : bool.

  (** [_optim], with whether it has been replaced. *)
  Record delegate : Type := Delegate { d_replaced : bool; d_optim : option inner }.
  Definition d_init : delegate := Delegate false None.
  Definition d_env (d : delegate) : env A C H := if d_replaced d then ED else EI.

  (** optimizerlib.py:3842-3848 property [optim]: created at first use; if the creation
      raises, [_optim] stays None. The unwrapping of an NGOpt selecting an NGOpt
      (:3846) is in Model/Select.v. *)
  Definition d_get (d : delegate) : result inner :=
    match d_optim d with Some i => Ok i | None => create end.

  (** optimizerlib.py:3891-3892 [_internal_ask_candidate]. *)
  Definition d_ask (d : delegate) : delegate * result nat :=
    match d_get d with
    | Err e => (d, Err e)
    | Ok i => let '(i, r) := ask _ _ _ (d_env d) i in
              (Delegate (d_replaced d) (Some i), match r with Ok (c, _) => Ok c | Err e => Err e end)
    end.

  (** optimizerlib.py:3894-3895 [_internal_tell_candidate] and :3900-3901
      [_internal_tell_not_asked]: the loss is a float. *)
  Definition d_tell (d : delegate) (c : nat) (l : fl) : delegate * result unit :=
    match d_get d with
    | Err e => (d, Err e)
    | Ok i => let '(i, r) := tell _ _ _ (d_env d) i (CParam c) (LReal l) None in
              (Delegate (d_replaced d) (Some i), match r with Ok _ => Ok tt | Err e => Err e end)
    end.

  (** optimizerlib.py:4113-4119 [_num_objectives_set_callback], called by the setter of
      [num_objectives] (base.py:180-183) when it is first known.  Here it is applied
      before the next use of the optimizer (the start of an ask, the callbacks of a tell):
      nothing else reads [_optim] in between. *)
  Definition d_refresh (s : ost delegate ARC HV) : delegate :=
    let d := o_alg _ _ _ s in
    if replaces && (1 <? o_num_obj _ _ _ s)%nat && negb (d_replaced d)
    then Delegate true (Some create_de) else d.

  (** The outer optimizer: what does not concern the inner one is as in [E0]
      (constraints, penalties, archive, hypervolume, budget); callbacks registered by the
      user on the outer optimizer are left out. *)
  Variable E0 : env delegate ARC HV.
  Definition ngopt_env : env delegate ARC HV :=
    {| e_callbacks_ask := fun s => (d_refresh s, Ok tt);
       e_callbacks_tell := fun s _ _ => (d_refresh s, Ok tt);
       e_ask := fun s => d_ask (o_alg _ _ _ s);
       e_tell := fun s c l => d_tell (o_alg _ _ _ s) c l;
       e_tell_not_asked := fun s c l => d_tell (o_alg _ _ _ s) c l;
       e_spawn := e_spawn _ _ _ E0;
       e_satisfies := e_satisfies _ _ _ E0;
       e_satisfies_no_tabu := e_satisfies_no_tabu _ _ _ E0;
       e_can_skip := e_can_skip _ _ _ E0;
       e_solver := e_solver _ _ _ E0;
       e_penalty := e_penalty _ _ _ E0;
       e_update := e_update _ _ _ E0;
       e_hv_ref := e_hv_ref _ _ _ E0;
       e_hv_auto := e_hv_auto _ _ _ E0;
       e_hv_add := e_hv_add _ _ _ E0;
       e_hv_num_obj := e_hv_num_obj _ _ _ E0;
       e_has_checkers := e_has_checkers _ _ _ E0;
       e_tabu_length := e_tabu_length _ _ _ E0;
       e_max_trials := e_max_trials _ _ _ E0;
       e_budget := e_budget _ _ _ E0;
       e_penalize := e_penalize _ _ _ E0;
       e_no_hypervolume := e_no_hypervolume _ _ _ E0;
       e_pow := e_pow _ _ _ E0 |}.
End Delegate.

Arguments Delegate {A C H}.
Arguments d_replaced {A C H}.
Arguments d_optim {A C H}.
Arguments d_init {A C H}.
Arguments d_env {A C H}.
Arguments d_get {A C H}.
Arguments d_ask {A C H}.
Arguments d_tell {A C H}.
Arguments d_refresh {A C H ARC HV}.
Arguments ngopt_env {A C H ARC HV}.

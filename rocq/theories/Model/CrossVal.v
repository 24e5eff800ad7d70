(** Model of nevergrad/functions/helpers.py ([SpecialEvaluationExperiment]): experiments optimized
    on some functions and evaluated on another one. Functions are numbered instances, as in
    Model/Experiment.v; two functions are equal when they are the same instance, since
    ExperimentFunction defines no equality. Losses are exact rationals. Copies are left out. *)
From Coq Require Import Arith QArith Bool List.
From Verif.Model Require Import Prelude MultiValue Pareto Hypervolume HypervolumePareto Experiment.
Import ListNotations.
Open Scope nat_scope.

(** multiobjective/core.py:12 *)
Definition AUTO_BOUND : nat := 15.

(** The way to select a subset: at random, by a score (loss-covering, EPS, domain-covering), by the hypervolume *)
Inductive method := ByChance | ByScore (score : list point -> list point -> Q) | ByVolume.

(** helpers.py:27-31: the functions which are optimized, the bounds of the pack when there are several,
    the function of the evaluation, and the parameters *)
Record special := mkspecial { s_train : list (nat * efunction); s_pack_bounds : option (list Q); s_eval : nat * efunction;
                              s_size : option nat; s_method : method }.
(** functions/base.py:87, which helpers.py does not override: the bounds of the experiment itself *)
Definition s_upper_bounds (s : special) : option (list Q) := None.

(** ** helpers.py:113-130 *)
Section Create.
(** the loss of a function at the value of the parametrization of another *)
Variable loss_at : nat -> nat -> Q.
Definition create_one (experiments training_only : list (nat * efunction)) (pareto_size : option nat) (m : method)
    (eval_xp : nat * efunction) : result special :=
  let trainxps := filter (fun xp => negb (fst xp =? fst eval_xp)) experiments ++ training_only in
  if length trainxps =? 1 then Ok (mkspecial trainxps None eval_xp pareto_size m)
  else
    let upper_bounds := map (fun xp => loss_at (fst xp) (fst eval_xp)) trainxps in
    bind (multi_check trainxps) (fun _ => Ok (mkspecial trainxps (Some upper_bounds) eval_xp pareto_size m)).
Fixpoint all_ok {A} (l : list (result A)) : result (list A) :=
  match l with [] => Ok [] | r :: l' => bind r (fun a => bind (all_ok l') (fun l'' => Ok (a :: l''))) end.
Definition create (testing : bool) (experiments training_only : list (nat * efunction)) (pareto_size : option nat)
    (methods : list method) : result (list special) :=
  let methods := if testing then [ByChance] else methods in
  all_ok (flat_map (fun m => map (create_one experiments training_only pareto_size m) experiments) methods).
End Create.

(** ** helpers.py:58-70 *)
Section Evaluation.
(** the evaluation of a recommendation *)
Variable ev : point -> Q.
(** [min] of Python *)
Definition py_min (l : list Q) : result Q :=
  match l with [] => Err ValueError | x :: l' => Ok (fold_left (fun b y => if qlt y b then y else b) l' x) end.
(** core.py:128-131: the indicator exists once [_calc_hypervolume] was called, and then the best volume is not negative *)
Definition indicator (s : hpareto) : option (list point -> Q) :=
  match hp_bounds s, hp_best s with
  | Some b, Some v => if qle 0%Q v then Some (fun l => match compute b (map pt_losses l) with Ok w => w | Err _ => 0%Q end) else None
  | _, _ => None
  end.
Definition subset_of (m : method) (s : hpareto) : subset_t :=
  match m with ByChance => SRandom | ByScore f => SScored f | ByVolume => SHypervolume (indicator s) end.
(** the recommendations which are evaluated; [draws] are the random subsets *)
Definition candidates (s : special) (draws : list (list nat)) (recs : list point) : result (list point) :=
  match s_size s with
  | None => Ok recs
  | Some n =>
      if n <? length recs then
        match hp_extend (HypervolumePareto.Fin 0%Q) recs (hp_init (s_upper_bounds s) AUTO_BOUND false) with
        | (_, Err e) => Err e
        | (h, Ok _) => snd (hp_front (Some n) (subset_of (s_method s) h) draws h)
        end
      else Ok recs
  end.
Definition evaluation_function (s : special) (draws : list (list nat)) (recs : list point) : result Q :=
  bind (candidates s draws recs) (fun l => py_min (map ev l)).
End Evaluation.

(** ** helpers.py:32-38 and 72-80: descriptors; [is_pareto] tells the names which start with pareto_ *)
Definition own_descriptors (is_pareto : nat -> bool) (size : option nat) (d : ndict) : ndict :=
  match size with None => filter (fun kv => negb (is_pareto (fst kv))) d | Some _ => d end.
Definition special_descriptors (is_pareto : nat -> bool) (size : option nat) (own experiment : ndict) : ndict :=
  update (own_descriptors is_pareto size own) experiment.

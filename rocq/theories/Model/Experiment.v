(** Model of experiments: copies of functions (nevergrad/functions/base.py) and runs
    (nevergrad/benchmark/xpbase.py). Names, descriptor values and classes are numbers. *)
From Coq Require Import Arith ZArith QArith Bool List.
From Verif.Model Require Import Prelude.
Import ListNotations.
Open Scope nat_scope.

Definition ndict : Type := list (nat * nat).
(** [d.update(e)] *)
Definition update (d e : ndict) : ndict := fold_left (fun d kv => dset (fst kv) (snd kv) d) e d.
Definition value_eqb (a b : option nat) : bool :=
  match a, b with Some u, Some v => u =? v | None, None => true | _, _ => false end.
(** [d == e] *)
Definition dict_eqb (d e : ndict) : bool :=
  forallb (fun k => value_eqb (dget k d) (dget k e)) (dkeys d) && forallb (fun k => value_eqb (dget k d) (dget k e)) (dkeys e).

(** the names of two descriptors *)
Definition k_parametrization : nat := 0.
Definition k_dimension : nat := 1.
(** What benchmarks use of a parametrization: name, dimension, constraint checkers, and the flags which
    [copy] propagates (has_constraints, enforce_determinism, real_world, hptuning, neural). *)
Record param := { p_name : nat; p_dim : nat; p_checkers : list nat; p_flags : list bool }.
(** functions/base.py:51-110: the class and the arguments recorded by [__new__], descriptors, parametrization *)
Record efunction := { f_class : nat; f_init : ndict; f_desc : ndict; f_param : param; f_upper : option (list Q) }.
Definition with_desc (f : efunction) (d : ndict) : efunction :=
  {| f_class := f_class f; f_init := f_init f; f_desc := d; f_param := f_param f; f_upper := f_upper f |}.
Definition with_param (f : efunction) (p : param) : efunction :=
  {| f_class := f_class f; f_init := f_init f; f_desc := f_desc f; f_param := p; f_upper := f_upper f |}.
(** base.py:136-142 [descriptors] *)
Definition descriptors (f : efunction) : ndict :=
  update (f_desc f) [(k_parametrization, p_name (f_param f)); (k_dimension, p_dim (f_param f))].
(** base.py:144-145 *)
Definition add_descriptors (f : efunction) (d : ndict) : efunction := with_desc f (update (f_desc f) d).
(** base.py:152-164 *)
Definition equivalent_to (f other : efunction) : bool :=
  if negb (f_class other =? f_class f) then false
  else dict_eqb (f_desc f) (f_desc other) && (p_name (f_param f) =? p_name (f_param other)).
(** errors.ExperimentFunctionCopyError, errors.UnsupportedExperiment (common/errors.py) *)
Definition CopyError : exn := UserError 0.
Definition Unsupported : exn := UserError 1.
Section Copy.
  (** the constructor of a class with the given arguments; parameters among them are copied and given a new
      random state (base.py:21-25), which is left out *)
  Variable construct : nat -> ndict -> result efunction.
  (** base.py:166-175 *)
  Definition internal_copy (f : efunction) : result efunction := construct (f_class f) (f_init f).
  (** base.py:177-216 *)
  Definition copy (f : efunction) : result efunction :=
    bind (internal_copy f) (fun out =>
    let keys := dkeys (descriptors out) in
    let out := add_descriptors out (filter (fun kv => negb (existsb (Nat.eqb (fst kv)) keys)) (descriptors f)) in
    let out := if p_name (f_param out) =? p_name (f_param f) then out else with_param out (f_param f) in
    let out := with_param out {| p_name := p_name (f_param out); p_dim := p_dim (f_param out); p_checkers := p_checkers (f_param out);
                                 p_flags := p_flags (f_param f) |} in
    if negb (equivalent_to out f) then Err CopyError
    else
      let out := with_param out {| p_name := p_name (f_param out); p_dim := p_dim (f_param out); p_checkers := p_checkers (f_param f);
                                   p_flags := p_flags (f_param out) |} in
      Ok {| f_class := f_class out; f_init := f_init out; f_desc := f_desc out; f_param := f_param out; f_upper := f_upper f |}).
End Copy.

(** ** base.py:355-398 [MultiExperiment]: the instances are numbered *)
Definition multi_check (xps : list (nat * efunction)) : result unit :=
  match xps with
  | [] => Err AssertionError
  | x0 :: rest =>
      if negb (length (nodup Nat.eq_dec (map fst xps)) =? length xps) then Err AssertionError
      else if existsb (fun x => match f_upper (snd x) with Some _ => true | None => false end) xps then Err AssertionError
      else if negb (forallb (fun x => p_name (f_param (snd x0)) =? p_name (f_param (snd x))) rest) then Err AssertionError
      else Ok tt
  end.
(** base.py:391-393 *)
Fixpoint multi_func {A} (fs : list (A -> result Q)) (args : A) : result (list Q) :=
  match fs with [] => Ok [] | f :: fs => bind (f args) (fun r => bind (multi_func fs args) (fun rs => Ok (r :: rs))) end.

(** ** xpbase.py:135-330 [Experiment]. Losses are rationals, [None] is NaN. *)
Record xp_result := { r_loss : option Q; r_budget : option nat; r_objectives : option nat; r_error : option exn }.
(** xpbase.py:174; [None] is the empty string *)
Definition no_result : xp_result := {| r_loss := None; r_budget := None; r_objectives := None; r_error := None |}.
(** What happens during a run: the copy of the function, the creation of the optimizer (not done again when an interrupted
    experiment is resumed), the suggestions, the minimization; then the final evaluation of the recommendation. *)
Record events := {
  e_copy : result nat;              (* number of constraint checkers of the copy *)
  e_instantiate : option exn;
  e_reference : option exn;         (* the first [tell] of the upper bounds *)
  e_has_budget : bool;
  e_minimize : option exn;          (* suggestions included *)
  e_num_ask : nat;                  (* number of calls to [ask] when the minimization stops *)
  e_objectives : nat;
  e_loss : result Q;                (* the final evaluation *)
  e_violation : result bool;        (* [constraint_violation] is given, and positive at the recommendation *)
  e_unsatisfied : result bool }.    (* the recommendation does not satisfy the checkers *)
Record xp := { x_budget : nat; x_seed : option Z; x_checkers : nat; x_penalize : bool; x_started : bool; x_result : xp_result }.
Definition set_result (x : xp) (r : xp_result) : xp :=
  {| x_budget := x_budget x; x_seed := x_seed x; x_checkers := x_checkers x; x_penalize := x_penalize x; x_started := x_started x; x_result := r |}.
Definition set_started (x : xp) : xp :=
  {| x_budget := x_budget x; x_seed := x_seed x; x_checkers := x_checkers x; x_penalize := x_penalize x; x_started := true; x_result := x_result x |}.
Definition set_loss r l := {| r_loss := l; r_budget := r_budget r; r_objectives := r_objectives r; r_error := r_error r |}.
Definition set_budget r b := {| r_loss := r_loss r; r_budget := b; r_objectives := r_objectives r; r_error := r_error r |}.
Definition set_objectives r n := {| r_loss := r_loss r; r_budget := r_budget r; r_objectives := n; r_error := r_error r |}.
Definition set_error r e := {| r_loss := r_loss r; r_budget := r_budget r; r_objectives := r_objectives r; r_error := e |}.
(** xpbase.py:223-254 [_log_results]: the new result, and what is raised. Times are left out. *)
Definition log_results (ev : events) (x : xp) : xp * option exn :=
  let r := set_objectives (x_result x) (Some (e_objectives ev)) in
  match e_loss ev with
  | Err e => (set_result x r, Some e)
  | Ok l =>
      let r := set_loss r (Some l) in
      let violated := match e_violation ev with
                      | Err e => Err e
                      | Ok true => Ok true
                      | Ok false => if 0 <? x_checkers x then e_unsatisfied ev else Ok false
                      end in
      match violated with
      | Err e => (set_result x r, Some e)
      | Ok b =>
          let r := if b && x_penalize x then set_loss r (Some (l + 1000000000)%Q) else r in
          let r := set_budget r (Some (e_num_ask ev)) in
          (set_result x r, if x_budget x <? e_num_ask ev then Some RuntimeError else None)
      end
  end.
(** xpbase.py:256-315 [_run_with_error] *)
Definition run_with_error (ev : events) (x : xp) : xp * option exn :=
  match e_copy ev with
  | Err e => (x, Some e)
  | Ok n =>
      if negb (n =? x_checkers x) then (x, Some AssertionError)
      else
        match (if x_started x then None else e_instantiate ev) with
        | Some e => (x, Some e)
        | None =>
            match (if x_started x then None else e_reference ev) with
            | Some e => (set_started x, Some e)
            | None =>
                let x := set_started x in
                if negb (e_has_budget ev) then (x, Some AssertionError)
                else
                  match e_minimize ev with
                  | Some e => let '(x', raised) := log_results ev x in (x', match raised with Some e' => Some e' | None => Some e end)
                  | None => log_results ev x
                  end
            end
        end
  end.
(** xpbase.py:198-221 [run]: the new state, and the description or what is raised *)
Definition run (ev : events) (x : xp) : xp * result xp_result :=
  let '(x', raised) := run_with_error ev x in
  match raised with
  | None => (x', Ok (x_result x'))
  | Some (UserError 0) => (x', Err CopyError)
  | Some (UserError 1) => (x', Err Unsupported)
  | Some e => let x'' := set_result x' (set_error (x_result x') (Some e)) in (x'', Ok (x_result x''))
  end.
(** xpbase.py:321-330 [__eq__] of experiments; settings of the optimizer: name, budget, workers, batch mode (xpbase.py:104-111) *)
Definition settings_eqb (a b : nat * nat * nat * bool) : bool :=
  let '(o, bu, w, m) := a in let '(o', bu', w', m') := b in (o =? o') && (bu =? bu') && (w =? w') && Bool.eqb m m'.
Definition xp_eqb (a b : option Z * efunction * (nat * nat * nat * bool)) : bool :=
  let '(s, f, o) := a in let '(s', f', o') := b in
  match s, s' with None, None => true | Some u, Some v => Z.eqb v u | _, _ => false end && equivalent_to f f' && settings_eqb o o'.

(** Model of [Optimizer.ask], [tell], [suggest], [recommend]
    (nevergrad/optimization/base.py).

    Candidates are designated by their uid.  Everything specific to one algorithm
    (its internal ask and tell, its state and random generator), the constraint
    checks (which may update a tabu list), the callbacks, the constraint solver, the
    archive and the hypervolume computations are arbitrary functions of the complete
    visible state: the theorems hold for all of them.  These functions can modify
    their own part of the state only; callbacks that call the optimizer
    re-entrantly, and algorithms overriding [ask]/[tell] or writing the base class
    counters, are not covered.  Warnings are left out. *)
From Coq Require Import List Arith ZArith QArith Bool.
From Verif.Model Require Import Prelude MultiValue Float.
Import ListNotations.

(** What the user passes as [loss] (base.py:302): a real number or 0-d array; a
    tuple, list or 1-d array (of floats, of non-float numbers, or of things that
    cannot be converted to float); anything else. Nested sequences are left out. *)
Inductive item : Type := IFloat (f : fl) | IInt (f : fl) | IOther.
Inductive loss_in : Type := LReal (f : fl) | LSeq (l : list item) | LOther.

(** What the user passes as [candidate]: a parameter, a [MultiobjectiveReference]
    (with or without a value), anything else. *)
Inductive cand_in : Type := CParam (c : nat) | CRef (v : option nat) | CBad.

(** The loss after the type checks: a float or an array. *)
Inductive loss_v : Type := VFloat (f : fl) | VArray (l : list fl) | VOtherItem.

(** base.py:347 the clipping constant 5e20. *)
Definition max_loss : fl := Fin 500000000000000000000.

(** [float(loss)] then base.py:339-347. *)
Definition clip_loss (f : fl) : fl := if fl_lt f max_loss then f else max_loss.

(** [np.asarray(loss, dtype=float)] on a flat sequence. *)
Fixpoint as_floats (l : list item) : result (list fl) :=
  match l with
  | [] => Ok []
  | IOther :: _ => Err ValueError
  | IFloat f :: l' | IInt f :: l' => bind (as_floats l') (fun r => Ok (f :: r))
  end.

(** base.py:337-353: the loss type check.  [loss[0]] of a sequence of length one is
    used unclipped. *)
Definition check_loss (l : loss_in) : result loss_v :=
  match l with
  | LReal f => Ok (VFloat (clip_loss f))
  | LSeq [IFloat f] => Ok (VFloat f)
  | LSeq [_] => Ok VOtherItem
  | LSeq l => bind (as_floats l) (fun r => Ok (VArray r))
  | LOther => Err TypeError
  end.

(** base.py:368 [1 if isinstance(loss, float) else loss.size]; an int has no size. *)
Definition loss_size (l : loss_v) : result nat :=
  match l with
  | VFloat _ => Ok 1%nat
  | VArray l => Ok (length l)
  | VOtherItem => Err AttributeError
  end.

(** Observable interactions with the algorithm and the archive. *)
Inductive event : Type :=
| EAlgAsk                                        (* _internal_ask_candidate called *)
| EAlgTell (c : nat) (l : fl) (asked : bool)     (* _internal_tell_candidate / _not_asked called *)
| EArchive (c : nat) (l : fl).                   (* _update_archive_and_bests called *)

Section Optimizer.
  Variables ALG ARC HV : Type.

  (** base.py:85-144 [__init__]: the instance state.  [o_suggestions] has the last
      suggested first.  [o_loss] is the attribute [loss] of the candidates,
      [o_trace] records the interactions (it is not in the code). *)
  Record ost : Type := OSt {
    o_num_ask : nat; o_num_tell : nat; o_num_tna : nat;
    o_asked : list nat; o_suggestions : list nat;
    o_num_obj : nat; o_hv : option HV; o_arc : ARC;
    o_curve : list (nat * fl); o_loss : list (nat * fl); o_frozen : list nat;
    o_skip : bool; o_alg : ALG; o_trace : list event }.

  Definition o_init (arc : ARC) (alg : ALG) : ost :=
    OSt 0 0 0 [] [] 0 None arc [] [] [] false alg [].

  (** state updates *)
  Definition set_alg (s : ost) (a : ALG) : ost :=
    OSt (o_num_ask s) (o_num_tell s) (o_num_tna s) (o_asked s) (o_suggestions s) (o_num_obj s)
      (o_hv s) (o_arc s) (o_curve s) (o_loss s) (o_frozen s) (o_skip s) a (o_trace s).
  Definition log (s : ost) (e : event) : ost :=
    OSt (o_num_ask s) (o_num_tell s) (o_num_tna s) (o_asked s) (o_suggestions s) (o_num_obj s)
      (o_hv s) (o_arc s) (o_curve s) (o_loss s) (o_frozen s) (o_skip s) (o_alg s) (o_trace s ++ [e]).
  Definition set_num_ask (s : ost) (n : nat) : ost :=
    OSt n (o_num_tell s) (o_num_tna s) (o_asked s) (o_suggestions s) (o_num_obj s)
      (o_hv s) (o_arc s) (o_curve s) (o_loss s) (o_frozen s) (o_skip s) (o_alg s) (o_trace s).
  Definition set_suggestions (s : ost) (l : list nat) : ost :=
    OSt (o_num_ask s) (o_num_tell s) (o_num_tna s) (o_asked s) l (o_num_obj s)
      (o_hv s) (o_arc s) (o_curve s) (o_loss s) (o_frozen s) (o_skip s) (o_alg s) (o_trace s).
  Definition set_skip (s : ost) (b : bool) : ost :=
    OSt (o_num_ask s) (o_num_tell s) (o_num_tna s) (o_asked s) (o_suggestions s) (o_num_obj s)
      (o_hv s) (o_arc s) (o_curve s) (o_loss s) (o_frozen s) b (o_alg s) (o_trace s).
  Definition set_asked (s : ost) (l : list nat) : ost :=
    OSt (o_num_ask s) (o_num_tell s) (o_num_tna s) l (o_suggestions s) (o_num_obj s)
      (o_hv s) (o_arc s) (o_curve s) (o_loss s) (o_frozen s) (o_skip s) (o_alg s) (o_trace s).
  Definition set_frozen (s : ost) (l : list nat) : ost :=
    OSt (o_num_ask s) (o_num_tell s) (o_num_tna s) (o_asked s) (o_suggestions s) (o_num_obj s)
      (o_hv s) (o_arc s) (o_curve s) (o_loss s) l (o_skip s) (o_alg s) (o_trace s).
  Definition set_curve (s : ost) (l : list (nat * fl)) : ost :=
    OSt (o_num_ask s) (o_num_tell s) (o_num_tna s) (o_asked s) (o_suggestions s) (o_num_obj s)
      (o_hv s) (o_arc s) l (o_loss s) (o_frozen s) (o_skip s) (o_alg s) (o_trace s).
  Definition set_num_obj (s : ost) (n : nat) : ost :=
    OSt (o_num_ask s) (o_num_tell s) (o_num_tna s) (o_asked s) (o_suggestions s) n
      (o_hv s) (o_arc s) (o_curve s) (o_loss s) (o_frozen s) (o_skip s) (o_alg s) (o_trace s).
  Definition set_hv (s : ost) (h : option HV) : ost :=
    OSt (o_num_ask s) (o_num_tell s) (o_num_tna s) (o_asked s) (o_suggestions s) (o_num_obj s)
      h (o_arc s) (o_curve s) (o_loss s) (o_frozen s) (o_skip s) (o_alg s) (o_trace s).
  Definition set_loss (s : ost) (l : list (nat * fl)) : ost :=
    OSt (o_num_ask s) (o_num_tell s) (o_num_tna s) (o_asked s) (o_suggestions s) (o_num_obj s)
      (o_hv s) (o_arc s) (o_curve s) l (o_frozen s) (o_skip s) (o_alg s) (o_trace s).
  Definition set_arc (s : ost) (a : ARC) : ost :=
    OSt (o_num_ask s) (o_num_tell s) (o_num_tna s) (o_asked s) (o_suggestions s) (o_num_obj s)
      (o_hv s) a (o_curve s) (o_loss s) (o_frozen s) (o_skip s) (o_alg s) (o_trace s).
  Definition set_tells (s : ost) (n t : nat) : ost :=
    OSt (o_num_ask s) n t (o_asked s) (o_suggestions s) (o_num_obj s)
      (o_hv s) (o_arc s) (o_curve s) (o_loss s) (o_frozen s) (o_skip s) (o_alg s) (o_trace s).

  (** The parts that depend on the algorithm, the problem and the user. *)
  Record env : Type := Env {
    e_callbacks_ask : ost -> ALG * result unit;                 (* base.py:492-493 *)
    e_callbacks_tell : ost -> nat -> fl -> ALG * result unit;   (* base.py:391-394 *)
    e_ask : ost -> ALG * result nat;                            (* _internal_ask_candidate *)
    e_tell : ost -> nat -> fl -> ALG * result unit;             (* _internal_tell_candidate *)
    e_tell_not_asked : ost -> nat -> fl -> ALG * result unit;   (* _internal_tell_not_asked *)
    e_spawn : ost -> ALG * nat;                                 (* parametrization.spawn_child() *)
    e_satisfies : ost -> nat -> ALG * bool;                     (* satisfies_constraints(ref) *)
    e_satisfies_no_tabu : ost -> nat -> ALG * bool;
    e_can_skip : ost -> nat -> bool;                            (* can_skip_constraints *)
    e_solver : ost -> nat -> ALG * nat;                         (* _constraint_solver, base.py:862-882 *)
    e_penalty : ost -> nat -> Q;                                (* ConstraintManager.penalty *)
    e_update : ARC -> nat -> fl -> ARC * result unit;           (* _update_archive_and_bests *)
    e_hv_ref : list fl -> HV;                                   (* HypervolumePareto(upper_bounds=loss) *)
    e_hv_auto : HV;                                             (* HypervolumePareto(auto_bound=...) *)
    e_hv_add : HV -> nat -> list fl -> HV * result fl;          (* HypervolumePareto.add *)
    e_hv_num_obj : HV -> nat;                                   (* its num_objectives *)
    e_has_checkers : bool;        (* the parametrization has registered constraints *)
    e_tabu_length : nat;
    e_max_trials : nat;           (* ConstraintManager.max_trials *)
    e_budget : option nat;
    e_penalize : bool;            (* _penalize_cheap_violations or no_parallelization *)
    e_no_hypervolume : bool;
    e_pow : Q -> Q -> Q           (* the power function *)
  }.
  Variable E : env.

  (** Constraint check with its effect on the tabu list. *)
  Definition satisfies (s : ost) (c : nat) : ost * bool :=
    let '(a, b) := e_satisfies E s c in (set_alg s a, b).

  (** base.py:517-523: the algorithm is asked for a candidate; an AssertionError is
      replaced by a fresh candidate if there are registered constraints. *)
  Definition ask_algorithm (s : ost) : ost * result nat :=
    let s := log s EAlgAsk in
    let '(a, r) := e_ask E s in
    let s := set_alg s a in
    match r with
    | Ok c => (s, Ok c)
    | Err AssertionError =>
        if e_has_checkers E then
          let '(a, c) := e_spawn E s in (set_alg s a, Ok c)
        else (s, Err AssertionError)
    | Err e => (s, Err e)
    end.

  (** base.py:511-533: the loop over the trials; the candidate kept is the last
      one, with the flag telling whether it was suggested. *)
  Fixpoint ask_loop (trials : nat) (s : ost) (last : option (nat * bool))
    : ost * result (option (nat * bool)) :=
    match trials with
    | 0%nat => (s, Ok last)
    | S trials' =>
        let '(s, r, sugg) :=
          match o_suggestions s with
          | c :: l => (set_suggestions s l, Ok c, true)
          | [] => let '(s, r) := ask_algorithm s in (s, r, false)
          end in
        match r with
        | Err e => (s, Err e)
        | Ok c =>
            let '(s, ok) := satisfies s c in
            if ok then
              let s := if ((o_num_ask s mod 10 =? 0)%nat && e_can_skip E s c)
                       then set_skip s true else s in
              (s, Ok (Some (c, sugg)))
            else
              let '(s, r) :=
                if e_penalize E then
                  let s := log s (EAlgTell c PosInf true) in
                  let '(a, r) := e_tell E s c PosInf in (set_alg s a, r)
                else (s, Ok tt) in
              match r with
              | Err e => (s, Err e)
              | Ok _ => ask_loop trials' (set_num_ask s (o_num_ask s + 1)) (Some (c, sugg))
              end
        end
    end.

  (** base.py:507-511: the choice of the candidate. With [skip_constraints] and no
      suggestion the algorithm is called directly (no AssertionError handling). *)
  Definition ask_candidate (s : ost) : ost * result (option (nat * bool)) :=
    if o_skip s && match o_suggestions s with [] => true | _ => false end then
      let s := log s EAlgAsk in
      let '(a, r) := e_ask E s in
      (set_alg s a, match r with Ok c => Ok (Some (c, false)) | Err e => Err e end)
    else ask_loop (Nat.max 1 (e_max_trials E / 2)) s None.

  Definition mem (c : nat) (l : list nat) : bool := existsb (Nat.eqb c) l.

  (** base.py:481-557 [ask].  The result carries a flag telling whether the
      candidate comes from a suggestion.  [candidate is None] (lines 552-554) is left out. *)
  Definition ask (s : ost) : ost * result (nat * bool) :=
    let '(a, r) := e_callbacks_ask E s in
    let s := set_alg s a in
    match r with
    | Err e => (s, Err e)
    | Ok _ =>
        let current := o_num_ask s in
        let '(s, r) := ask_candidate s in
        match r with
        | Err e => (s, Err e)
        | Ok None => (s, Err OutOfFuel)   (* impossible: at least one trial *)
        | Ok (Some (c, sugg)) =>
            let '(s, ok) := satisfies s c in
            let '(s, c) :=
              if negb ok && (e_tabu_length E =? 0)%nat
              then let '(a, c') := e_solver E s c in (set_alg s a, c')
              else (s, c) in
            let s := if ok then s else set_alg s (fst (e_satisfies_no_tabu E s c)) in
            if negb sugg && mem c (o_asked s) then (s, Err RuntimeError)
            else
              let s := if sugg then s else set_asked s (o_asked s ++ [c]) in
              let s := set_num_ask s (current + 1) in
              (set_frozen s (c :: o_frozen s), Ok (c, sugg))
        end
    end.

  (** base.py:273-297 [suggest]: the new candidate, or the error raised when the
      value does not fit the parametrization. *)
  Definition suggest (s : ost) (r : result nat) : ost * result unit :=
    match r with
    | Ok c => (set_suggestions s (c :: o_suggestions s), Ok tt)
    | Err e => (s, Err e)
    end.

  (** base.py:176-185 setter of [num_objectives]. *)
  Definition assign_num_obj (s : ost) (n : nat) : ost * result unit :=
    if (n =? 0)%nat then (s, Err ValueError)
    else if (o_num_obj s =? 0)%nat then (set_num_obj s n, Ok tt)
    else if (n =? o_num_obj s)%nat then (s, Ok tt)
    else (s, Err ValueError).

  (** base.py:164-174 getter of [num_objectives]. *)
  Definition read_num_obj (s : ost) : result nat :=
    match o_hv s with
    | Some h => if (o_num_obj s =? e_hv_num_obj E h)%nat then Ok (o_num_obj s) else Err RuntimeError
    | None => Ok (o_num_obj s)
    end.

  (** base.py:354-357: learning curve.  [num_tell > last * 1.1] (the float product
      is exact up to rounding). *)
  Definition update_curve (s : ost) (l : loss_v) : ost :=
    match l with
    | VFloat f =>
        let add := match rev (o_curve s) with
                   | [] => true
                   | (n, _) :: _ => (n * 11 <? o_num_tell s * 10)%nat
                   end in
        if add then set_curve s (o_curve s ++ [(o_num_tell s, f)]) else s
    | _ => s
    end.

  (** base.py:372-382: a MultiobjectiveReference; [Ok None] means stopping there. *)
  Definition tell_reference (s : ost) (c : cand_in) (l : loss_v) : ost * result (option nat) :=
    match c with
    | CBad => (s, Err TypeError)  (* excluded before *)
    | CParam c => (s, Ok (Some c))
    | CRef v =>
        match o_hv s, l with
        | Some _, _ => (s, Err RuntimeError)
        | None, VArray b => (set_hv s (Some (e_hv_ref E b)), Ok v)
        | None, _ => (s, Err RuntimeError)
        end
    end.

  (** base.py:384-387 and 433-438: the single loss. *)
  Definition scalar_loss (s : ost) (c : nat) (l : loss_v) : ost * result fl :=
    match l with
    | VFloat f => (s, Ok f)
    | VOtherItem => (s, Err AttributeError)  (* excluded before *)
    | VArray b =>
        let h := match o_hv s with Some h => h | None => e_hv_auto E end in
        let '(h, r) := e_hv_add E h c b in
        (set_hv s (Some h), r)
    end.

  (** base.py:402-416: penalty for a constraint violation given by the user, with
      the default penalty style (1e5, 1, 0.5, 1, 0.5, 1). *)
  Definition violation_amount (s : ost) (l : fl) (cv : list Q) : fl :=
    let half := match e_budget E with Some b => (b <? 2 * o_num_tell s)%nat | None => false end in
    let ratio := if half then 1%Q else 0%Q in
    let total := fold_right (fun v r => (e_pow E (qmax v 0) (1 # 2) + r)%Q) 0%Q cv in
    fl_mulq (fl_mulq (fl_add (Fin (100000 * ratio)) (fl_pos l)) (e_pow E (1 + qnat (o_num_tell s)) (1 # 2)))
            (1 * e_pow E total 1).
  Definition violated (cv : list Q) : bool :=
    qlt 0 (fold_right (fun v r => (qmax v 0 + r)%Q) 0%Q cv).

  (** base.py:418-431: archive, algorithm, counters. *)
  Definition tell_finish (s : ost) (c : nat) (l : fl) (no_update : bool) : ost * result unit :=
    let '(s, r) :=
      match read_num_obj s with
      | Err e => (s, Err e)
      | Ok n =>
          if ((n =? 1)%nat || ((1 <? n)%nat && negb (e_no_hypervolume E))) && negb no_update then
            let s := log s (EArchive c l) in
            let '(a, r) := e_update E (o_arc s) c l in (set_arc s a, r)
          else (s, Ok tt)
      end in
    match r with
    | Err e => (s, Err e)
    | Ok _ =>
        if mem c (o_asked s) then
          let s := log s (EAlgTell c l true) in
          let '(a, r) := e_tell E s c l in
          let s := set_alg s a in
          match r with
          | Err e => (s, Err e)
          | Ok _ =>
              let s := set_asked s (filter (fun x => negb (x =? c)%nat) (o_asked s)) in
              (set_tells s (o_num_tell s + 1) (o_num_tna s), Ok tt)
          end
        else
          let s := log s (EAlgTell c l false) in
          let '(a, r) := e_tell_not_asked E s c l in
          let s := set_alg s a in
          match r with
          | Err e => (s, Err e)
          | Ok _ => (set_tells s (o_num_tell s + 1) (o_num_tna s + 1), Ok tt)
          end
    end.

  (** base.py:389-416: callbacks and constraints. *)
  Definition tell_process (s : ost) (c : nat) (l : fl) (cv : option (list Q)) : ost * result unit :=
    let s := set_loss s (dset c l (o_loss s)) in
    let '(a, r) := e_callbacks_tell E s c l in
    let s := set_alg s a in
    match r with
    | Err e => (s, Err e)
    | Ok _ =>
        let '(s, ok) := satisfies s c in
        let bad := negb ok && match e_budget E with Some _ => true | None => false end in
        let l := if bad then fl_add l (Fin (e_penalty E s c)) else l in
        match cv with
        | None => tell_finish s c l bad
        | Some cv =>
            tell_finish s c (fl_add l (violation_amount s l cv)) (bad || violated cv)
        end
    end.

  (** base.py:300-431 [tell].  The outcome [Ok false] is the early return of line
      380-381 (reference without value). *)
  Definition tell (s : ost) (c : cand_in) (l : loss_in) (cv : option (list Q)) : ost * result bool :=
    match check_loss l with
    | Err e => (s, Err e)
    | Ok lv =>
        let s := update_curve s lv in
        match c with
        | CBad => (s, Err TypeError)
        | _ =>
            match loss_size lv with
            | Err e => (s, Err e)
            | Ok n =>
                let '(s, r) := assign_num_obj s n in
                match r with
                | Err e => (s, Err e)
                | Ok _ =>
                    let s := match c with
                             | CParam c => set_frozen s (c :: o_frozen s)
                             | _ => s
                             end in
                    let '(s, r) := tell_reference s c lv in
                    match r with
                    | Err e => (s, Err e)
                    | Ok None => (s, Ok false)
                    | Ok (Some c) =>
                        let '(s, r) := scalar_loss s c lv in
                        match r with
                        | Err e => (s, Err e)
                        | Ok f =>
                            let '(s, r) := tell_process s c f cv in
                            (s, match r with Ok _ => Ok true | Err e => Err e end)
                        end
                    end
                end
            end
        end
    end.

  (** Histories. *)
  Inductive op : Type :=
  | OAsk
  | OSuggest (r : result nat)
  | OTell (c : cand_in) (l : loss_in) (cv : option (list Q)).
  Inductive outcome : Type :=
  | RCand (c : nat) (suggested : bool)
  | RDone                (* suggest returned, or a tell was completed *)
  | RRefOnly             (* tell of a reference without value *)
  | RErr (e : exn).

  Definition step (s : ost) (o : op) : ost * outcome :=
    match o with
    | OAsk => let '(s, r) := ask s in
              (s, match r with Ok (c, b) => RCand c b | Err e => RErr e end)
    | OSuggest r => let '(s, r) := suggest s r in
              (s, match r with Ok _ => RDone | Err e => RErr e end)
    | OTell c l cv => let '(s, r) := tell s c l cv in
              (s, match r with Ok true => RDone | Ok false => RRefOnly | Err e => RErr e end)
    end.
End Optimizer.

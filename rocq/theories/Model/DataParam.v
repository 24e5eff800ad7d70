(** How bounds and exponents are given to the array-like parameters:
    nevergrad/parametrization/data.py (Array, Scalar, Log, set_bounds, set_mutation) and the layers
    Bound, BoundLayer and Exponent of _datalayers.py. One coordinate (all the operations are
    elementwise), over exact reals. Where numpy goes on with an infinite number or NaN the model stops
    with [NotFinite]. The casting of scalars, the method "gaussian" and the warnings are left out. *)
From Coq Require Import Reals Bool List.
From Verif.Model Require Import Prelude RTransforms.
Import ListNotations.
Open Scope R_scope.

(** not an exception of the code: the number is not finite, what follows is not modelled *)
Definition NotFinite : exn := UserError 7.
Definition finite (x : num) : result R := match x with Fin x => Ok x | _ => Err NotFinite end.
Definition rle (x y : R) : bool := if Rle_dec x y then true else false.
Definition rlt (x y : R) : bool := if Rlt_dec x y then true else false.

(** data.py:184-197: the methods; [Constraint] only registers a test *)
Inductive method : Type := Clipping | Bouncing | Arctan | Tanh | Constraint.
(** _datalayers.py:37-77 [BoundLayer], :241-268 [Bound]: [legacy] is [_LEGACY] *)
Record bound : Type := { b_method : method; b_lower : option R; b_upper : option R; b_uniform : bool; b_legacy : bool }.
Inductive layer : Type := Bound (b : bound) | Exponent (base : R) (legacy : bool).
(** The parameter: the number at the root, its layers (outermost first), the standard deviation and the
    bounds registered as cheap constraints. *)
Record data : Type := { d_raw : R; d_layers : list layer; d_sigma : R; d_checks : list (option R * option R) }.
Definition with_raw (d : data) (r : R) : data := {| d_raw := r; d_layers := d_layers d; d_sigma := d_sigma d; d_checks := d_checks d |}.
Definition with_layers (d : data) (l : list layer) : data := {| d_raw := d_raw d; d_layers := l; d_sigma := d_sigma d; d_checks := d_checks d |}.
Definition with_sigma (d : data) (s : R) : data := {| d_raw := d_raw d; d_layers := d_layers d; d_sigma := s; d_checks := d_checks d |}.
Definition with_check (d : data) (c : option R * option R) : data := {| d_raw := d_raw d; d_layers := d_layers d; d_sigma := d_sigma d; d_checks := d_checks d ++ [c] |}.
Definition legacy (l : layer) : bool := match l with Bound b => b_legacy b | Exponent _ g => g end.

(** parametrization/utils.py:33-52 [BoundChecker] *)
Definition checker (lo hi : option R) (v : R) : bool :=
  negb (match lo with Some l => rlt v l | None => false end) && negb (match hi with Some h => rlt h v | None => false end).
(** [np.clip] with optional bounds *)
Definition oclip (lo hi : option R) (x : R) : R :=
  let y := match lo with Some l => Rmax x l | None => x end in match hi with Some h => Rmin y h | None => y end.
(** transforms.py:204-211 [Clipping.forward], out of bounds *)
Definition outside_forward (m : method) (lo hi : option R) (x : R) : R :=
  let out := oclip lo hi x in match m with Bouncing => oclip lo hi (2 * out - x) | _ => out end.

(** transforms.py:213-219, :173-180, :248-252 [backward] *)
Definition bound_backward (b : bound) (v : R) : result R :=
  match b_method b, b_lower b, b_upper b with
  | Constraint, _, _ => Ok v
  | (Clipping | Bouncing), lo, hi => if checker lo hi v then Ok v else Err ValueError
  | Arctan, Some lo, Some hi => if in_range false (TArctan lo hi) v then finite (apply true (TArctan lo hi) v) else Err ValueError
  | Tanh, Some lo, Some hi => if in_range false (TTanh lo hi) v then finite (apply true (TTanh lo hi) v) else Err ValueError
  | _, _, _ => Err ValueError
  end.
(** _layering.py [_layered_set_value] through _datalayers.py:278-279 and :194-195: from the outermost
    layer to the root *)
Fixpoint set_layers (ls : list layer) (v : R) : result R :=
  match ls with
  | [] => Ok v
  | Exponent base _ :: ls' => bind (finite (op_backward (OExponent base) v)) (set_layers ls')
  | Bound b :: ls' => bind (bound_backward b v) (set_layers ls')
  end.
(** _datalayers.py:270-276 [Bound._layered_get_value], :191-192 [Exponent.forward]: the value, and the
    number at the root (clipping and bouncing write back) *)
Fixpoint get_layers (ls : list layer) (raw : R) : result (R * R) :=
  match ls with
  | [] => Ok (raw, raw)
  | Exponent base _ :: ls' =>
      bind (get_layers ls' raw) (fun p => bind (finite (op_forward (OExponent base) (fst p))) (fun v => Ok (v, snd p)))
  | Bound b :: ls' =>
      bind (get_layers ls' raw) (fun p =>
        match b_method b, b_lower b, b_upper b with
        | Constraint, _, _ => Ok p
        | (Clipping | Bouncing) as m, lo, hi =>
            if checker lo hi (fst p) then Ok p
            else let v := outside_forward m lo hi (fst p) in bind (set_layers ls' v) (fun r => Ok (v, r))
        | Arctan, Some lo, Some hi => bind (finite (apply false (TArctan lo hi) (fst p))) (fun v => Ok (v, snd p))
        | Tanh, Some lo, Some hi => bind (finite (apply false (TTanh lo hi) (fst p))) (fun v => Ok (v, snd p))
        | _, _, _ => Err ValueError
        end)
  end.
Definition get_value (d : data) : result (R * data) :=
  bind (get_layers (d_layers d) (d_raw d)) (fun p => Ok (fst p, with_raw d (snd p))).
Definition set_value (d : data) (v : R) : result data :=
  bind (set_layers (d_layers d) v) (fun r => Ok (with_raw d r)).

(** _datalayers.py:63-77 [BoundLayer.__init__], :253-268 [Bound.__init__], transforms.py:130-142
    [BoundTransform.__init__], :154-155, :238-239 *)
Definition new_bound (m : method) (lo hi : option R) (uniform : option bool) : result bound :=
  let both := match lo, hi with Some _, Some _ => true | _, _ => false end in
  let uni := match uniform with None => both | Some u => u end in
  if uni && negb both then Err ValueError
  else if match lo, hi with Some l, Some h => rle h l | _, _ => false end then Err ValueError
  else match m, lo, hi with
       | (Clipping | Bouncing), None, None => Err ValueError
       | (Arctan | Tanh), None, _ | (Arctan | Tanh), _, None => Err ValueError
       | _, _, _ => Ok {| b_method := m; b_lower := lo; b_upper := hi; b_uniform := uni; b_legacy := false |}
       end.

(** The parameter after a call, and the exception. *)
Definition outcome : Type := (data * option exn)%type.
(** _datalayers.py:84-112 [BoundLayer.__call__] with [inplace=True]. Setting the bounds on copies, for
    the warning, can only fail with [ValueError] here: other numbers are ignored. *)
Definition call_bound (b : bound) (d : data) : outcome :=
  match get_value d with
  | Err e => (d, Some e)
  | Ok (v, d) =>
      let d := with_layers d (Bound b :: d_layers d) in
      match set_value d v with
      | Err e => (d, Some e)
      | Ok d =>
          let fails x := match set_value d x with Err ValueError => true | _ => false end in
          match b_lower b, b_upper b with
          | Some l, Some h => if fails l || fails h then (d, Some ValueError) else (d, None)
          | _, _ => (d, None)
          end
      end
  end.
(** data.py:402-404: the two layers are neighbours *)
Fixpoint legacy_together (ls : list layer) : bool :=
  match ls with
  | [] => true
  | a :: ls' => if legacy a then match ls' with [] => true | b :: _ => legacy b end else legacy_together ls'
  end.
(** data.py:411-421 *)
Definition in_log_space (base : R) (b : bound) : result bound :=
  let back x := match x with None => Ok None | Some x => bind (finite (op_backward (OExponent base) x)) (fun y => Ok (Some y)) end in
  bind (back (b_lower b)) (fun lo => bind (back (b_upper b)) (fun hi =>
    match b_method b with
    | Constraint => Ok {| b_method := Constraint; b_lower := lo; b_upper := hi; b_uniform := b_uniform b; b_legacy := b_legacy b |}
    | m => new_bound m lo hi (Some (b_uniform b))
    end)).
(** data.py:385-426 [_fix_legacy] *)
Definition fix_legacy (d : data) : outcome :=
  match filter legacy (d_layers d) with
  | [] | [_] => (d, None)
  | [x; y] =>
      match get_value d with
      | Err e => (d, Some e)
      | Ok (v, d) =>
          if legacy_together (d_layers d) then
            let d := with_layers d (filter (fun l => negb (legacy l)) (d_layers d)) in
            match set_value d v with
            | Err e => (d, Some e)
            | Ok d =>
                match x, y with
                | Bound b, Exponent base g | Exponent base g, Bound b =>
                    match in_log_space base b with
                    | Ok b' => (with_layers d (Exponent base g :: Bound b' :: d_layers d), None)
                    | Err e => (d, Some e)
                    end
                | _, _ => (d, Some AttributeError)
                end
            end
          else (d, Some RuntimeError)
      end
  | _ => (d, Some RuntimeError)
  end.
(** data.py:168-231 [set_bounds] *)
Definition set_bounds (d : data) (lo hi : option R) (m : method) (full_range_sampling : option bool) : outcome :=
  match get_value d with
  | Err e => (d, Some e)
  | Ok (v, d) =>
      match new_bound m lo hi full_range_sampling with
      | Err e => (d, Some e)
      | Ok b =>
          let d := match m with Constraint => with_check d (lo, hi) | _ => d end in
          let b := {| b_method := b_method b; b_lower := b_lower b; b_upper := b_upper b; b_uniform := b_uniform b; b_legacy := true |} in
          match call_bound b d with
          | (d, Some e) => (d, Some e)
          | (d, None) =>
              match fix_legacy d with
              | (d, Some e) => (d, Some e)
              | (d, None) => match set_value d v with Err e => (d, Some e) | Ok d => (d, None) end
              end
          end
      end
  end.
(** data.py:262-277 [set_mutation(exponent=...)]; :254-261 [set_mutation(sigma=...)] is [with_sigma] *)
Definition set_exponent (d : data) (base : R) : outcome :=
  if rle base 0 then (d, Some ValueError)
  else match get_value d with
       | Err e => (d, Some e)
       | Ok (v, d) =>
           let d := with_layers d (Exponent base true :: d_layers d) in
           match fix_legacy d with
           | (d, Some e) => (d, Some e)
           | (d, None) => match set_value d v with Err e => (d, Some e) | Ok d => (d, None) end
           end
       end.
Definition finish (o : outcome) : result data := match o with (d, None) => Ok d | (_, Some e) => Err e end.

(** data.py:58-115 [Data.__init__], with the default [sigma] and without bounds *)
Definition plain (v : R) : data := {| d_raw := v; d_layers := []; d_sigma := 1; d_checks := [] |}.
(** data.py:58-115 [Data.__init__] of an [Array] given [init] or a shape; [init] is never [None] at
    :94, since it was replaced at :77 or :82 *)
Definition new_array (init lo hi : option R) : result data :=
  let v := match init with
           | Some v => v
           | None => match lo, hi with Some l, Some h => (l + h) / 2 | _, _ => 0 end
           end in
  match lo, hi with
  | None, None => Ok (plain v)
  | _, _ =>
      bind (new_bound Bouncing lo hi (Some false)) (fun b =>
        let d := match lo, hi with Some l, Some h => with_sigma (plain v) ((h - l) / 6) | _, _ => plain v end in
        finish (call_bound b d))
  end.
(** data.py:459-479 [Scalar.__init__] *)
Definition new_scalar (init lo hi : option R) : result data :=
  let v := match init with
           | Some v => v
           | None => match lo, hi with Some l, Some h => (l + h) / 2 | _, _ => 0 end
           end in
  let no_init := match init with None => true | _ => false end in
  match lo, hi with
  | None, None => Ok (plain v)
  | Some l, Some h => finish (set_bounds (with_sigma (plain v) ((h - l) / 6)) lo hi Bouncing (Some no_init))
  | _, _ => finish (set_bounds (plain v) lo hi Bouncing (Some false))
  end.
(** data.py:505-538 [Log.__init__] *)
Definition new_log (init exponent lo hi : option R) : result data :=
  let no_init := match init with None => true | _ => false end in
  bind (match init, lo, hi with
        | Some v, _, _ => Ok v
        | None, Some l, Some h => if rlt (l * h) 0 then Err NotFinite else Ok (sqrt (l * h))
        | None, _, _ => Err ValueError
        end) (fun v =>
  bind (match exponent, lo, hi with
        | Some e, _, _ => Ok e
        | None, Some l, Some h => bind (finite (np_log h)) (fun a => bind (finite (np_log l)) (fun b => Ok (exp ((a - b) / 6))))
        | None, _, _ => Ok 2
        end) (fun e =>
  bind (new_exponent e) (fun _ =>
  let back x := match x with None => Ok None | Some x => bind (finite (op_backward (OExponent e) x)) (fun y => Ok (Some y)) end in
  bind (back lo) (fun lo' => bind (back hi) (fun hi' => bind (finite (op_backward (OExponent e) v)) (fun v' =>
  bind (match lo', hi' with
        | None, None => Ok (plain v')
        | _, _ =>
            let both := match lo, hi with Some _, Some _ => true | _, _ => false end in
            bind (new_bound Bouncing lo' hi' (Some (both && no_init))) (fun b => finish (call_bound b (plain v')))
        end) (fun d => Ok (with_layers d (Exponent e false :: d_layers d))))))))).

(** _datalayers.py:114-131 [BoundLayer._layered_sample], [set_normalized_value] and :79-82 [_normalizer]: the
    outermost layer with uniform sampling; [u] is the draw in [0, 1) *)
Fixpoint sample_layers (ls : list layer) (u : R) : option (result R) :=
  match ls with
  | [] => None
  | Bound b :: ls' =>
      match b_uniform b, b_lower b, b_upper b with
      | true, Some l, Some h => Some (set_layers ls ((h - l) * u + l))
      | _, _, _ => sample_layers ls' u
      end
  | Exponent _ _ :: ls' => sample_layers ls' u
  end.
(** [Parameter.sample]: without such a layer, a mutation of the parameter with the Gaussian draw [g] *)
Definition sample (d : data) (u g : R) : result data :=
  match sample_layers (d_layers d) u with
  | Some (Ok r) => Ok (with_raw d r)
  | Some (Err e) => Err e
  | None => Ok (with_raw d (d_raw d + d_sigma d * g))
  end.

(** The helpers of nevergrad/parametrization/helpers.py: [Normalizer], [deterministic_sampling] and
    [analyze], on the list of arrays of a parameter ([list_data]). Numbers are exact reals. *)
From Coq Require Import Reals ZArith List Bool Arith.
From Verif.Model Require Import Prelude RTransforms DataParam.
Import ListNotations.
Open Scope R_scope.

(** * Normalizer *)
(** An array of the parameter: its shape and its coordinates (Model/DataParam.v: raw number, layers,
    standard deviation), which share the structure of their layers. *)
Record leaf : Type := { l_shape : list nat; l_coords : list data }.
(** helpers.py:147-153 [_fully_bounded_layers], :225-231: the last (outermost) layer with both bounds, also with uniform
    sampling if [only_sampling]; its bounds and the layers from it down to the root *)
Fixpoint pick (only_sampling : bool) (ls : list layer) : option (R * R * list layer) :=
  match ls with
  | [] => None
  | Bound b :: ls' =>
      match b_lower b, b_upper b with
      | Some l, Some h => if negb only_sampling || b_uniform b then Some (l, h, ls) else pick only_sampling ls'
      | _, _ => pick only_sampling ls'
      end
  | Exponent _ _ :: ls' => pick only_sampling ls'
  end.
Definition has_bounds (only_sampling : bool) (lf : leaf) : bool :=
  match l_coords lf with d :: _ => match pick only_sampling (d_layers d) with Some _ => true | None => false end | [] => false end.
Fixpoint each2 {A B C} (f : A -> B -> result C) (a : list A) (b : list B) : result (list C) :=
  match a, b with
  | x :: a', y :: b' => bind (f x y) (fun z => bind (each2 f a' b') (fun zs => Ok (z :: zs)))
  | [], [] => Ok []
  | _, _ => Err ValueError
  end.
(** helpers.py:238-240 with _datalayers.py:133-136 [set_normalized_value] and data.py:308-309: one coordinate *)
Definition back_coord (only_sampling : bool) (d : data) (u : R) : result R :=
  match pick only_sampling (d_layers d) with
  | None => Err IndexError
  | Some (l, h, ls) => bind (set_layers ls ((h - l) * u + l)) (fun r => Ok ((r - d_raw d) / d_sigma d))
  end.
(** data.py:300-306 [_internal_set_standardized_data], which also reads the value: one coordinate *)
Definition set_std (d : data) (x : R) : result (R * data) := get_value (with_raw d (d_sigma d * (x + d_raw d / d_sigma d))).
(** helpers.py:234-235 with _datalayers.py:138-141 [get_normalized_value]: one coordinate *)
Definition forw_coord (only_sampling : bool) (d : data) (x : R) : result R :=
  match pick only_sampling (d_layers d) with
  | None => Err IndexError
  | Some (l, h, ls) =>
      bind (set_std d x) (fun p => bind (get_layers ls (d_raw (snd p))) (fun q => Ok ((fst q - l) / (h - l))))
  end.
(** whether numpy can write an array of this shape in a vector ([x[start:end] = ...]): only leading dimensions of
    size 1 can be dropped *)
Fixpoint writable (shape : list nat) : bool :=
  match shape with [] => true | [_] => true | n :: s' => (n =? 1)%nat && writable s' end.
(** [unbounded_transform] on a vector: the same transform for all coordinates *)
Definition utrans (t : transform) (fwd : bool) (x : list R) : result (list R) :=
  if forallb (in_range fwd t) x then each2 (fun t x => finite (apply (negb fwd) t x)) (repeat t (length x)) x else Err ValueError.
(** helpers.py:224-240: one array *)
Definition conv_leaf (t : transform) (only_sampling fwd : bool) (lf : leaf) (x : list R) : result (list R) :=
  if has_bounds only_sampling lf then
    if fwd then bind (each2 (forw_coord only_sampling) (l_coords lf) x) (fun y => if writable (l_shape lf) then Ok y else Err ValueError)
    else each2 (back_coord only_sampling) (l_coords lf) x
  else utrans t fwd x.
(** helpers.py:219-241 [_apply_unsafe]: the vector, modified in place up to the array that fails *)
Fixpoint apply_unsafe (conv : leaf -> list R -> result (list R)) (leaves : list leaf) (x : list R) : list R * option exn :=
  match leaves with
  | [] => (x, None)
  | lf :: leaves' =>
      let n := length (l_coords lf) in
      match conv lf (firstn n x) with
      | Err e => (x, Some e)
      | Ok y => let (z, e) := apply_unsafe conv leaves' (skipn n x) in (y ++ z, e)
      end
  end.
(** helpers.py:166-191 [Normalizer.__init__]; [n_working] is the outcome of its test *)
Record normalizer : Type := { n_leaves : list leaf; n_trans : transform; n_only : bool; n_working : bool }.
Definition default_trans : transform := TArctan 0 1.
(** helpers.py:207-217 [_apply], :199-205 [forward] and [backward]. [NotFinite] is not an exception of the code. *)
Definition norm_apply (n : normalizer) (fwd : bool) (x : list R) : result (list R) :=
  if n_working n then
    match apply_unsafe (conv_leaf (n_trans n) (n_only n) fwd) (n_leaves n) x with
    | (y, None) => Ok y
    | (y, Some (UserError e)) => Err (UserError e)
    | (y, Some _) => utrans (n_trans n) fwd y
    end
  else utrans (n_trans n) fwd x.
(** helpers.py:191 [fully_bounded] *)
Definition fully_bounded (n : normalizer) : bool := forallb (has_bounds false) (n_leaves n).

(** * deterministic_sampling *)
Section Sampling.
(** The raw data of an array and its value. [cast flags draw raw] is the value computed by the layers, where [flags] are the
    attributes [deterministic] of the integer layers. *)
Context {Raw V Draw : Type}.
Variable cast : list bool -> Draw -> Raw -> V.
(** [cache] is the value kept by the layers (_layering.py:265-285, _datalayers.py:289-299) *)
Record cell : Type := { raw : Raw; flags : list bool; cache : option V }.
(** reading the value *)
Definition read (draw : Draw) (c : cell) : V * cell :=
  match cache c with
  | Some v => (v, c)
  | None => let v := cast (flags c) draw (raw c) in (v, {| raw := raw c; flags := flags c; cache := Some v |})
  end.
(** what can be done in the body of the [with]: set the data of an array (core.py:197-232 clears the cache and reads the
    value), read its value, or raise *)
Inductive act : Type := Set_raw (i : nat) (r : Raw) (draw : Draw) | Read (i : nat) (draw : Draw) | Throw (e : exn).
Definition on_cell (i : nat) (f : cell -> cell) (cs : list cell) : list cell :=
  match nth_error cs i with Some c => firstn i cs ++ f c :: skipn (S i) cs | None => cs end.
Definition write_cell (r : Raw) (draw : Draw) (c : cell) : cell := snd (read draw {| raw := r; flags := flags c; cache := None |}).
Fixpoint run_body (body : list act) (cs : list cell) : list cell * option exn :=
  match body with
  | [] => (cs, None)
  | Throw e :: _ => (cs, Some e)
  | Set_raw i r draw :: body' => run_body body' (on_cell i (write_cell r draw) cs)
  | Read i draw :: body' => run_body body' (on_cell i (fun c => snd (read draw c)) cs)
  end.
(** helpers.py:123-144 [deterministic_sampling]; [final] are the draws when the value is read at the end *)
Definition set_flags (fl : list bool) (c : cell) : cell := {| raw := raw c; flags := fl; cache := cache c |}.
Definition in_context (body : list act) (final : Draw) (cs : list cell) : list cell * option exn :=
  let saved := map flags cs in
  let cs1 := map (fun c => set_flags (map (fun _ => true) (flags c)) c) cs in
  let (cs2, e) := run_body body cs1 in
  let cs3 := map (fun c => snd (read final c)) cs2 in
  (map (fun p => set_flags (snd p) (fst p)) (combine cs3 saved), e).
End Sampling.

(** * analyze *)
(** _layering.py:236-262 [Int], _datalayers.py:281-286 [SoftmaxSampling] *)
Record int_layer : Type := { i_deterministic : bool; i_ordered : bool; i_arity : option Z }.
Definition Int (deterministic : bool) : int_layer := {| i_deterministic := deterministic; i_ordered := true; i_arity := None |}.
Definition Softmax (arity : Z) (deterministic : bool) : int_layer := {| i_deterministic := deterministic; i_ordered := false; i_arity := Some arity |}.
Record info : Type := { deterministic : bool; continuous : bool; ordered : bool; arity : Z }.
(** helpers.py:109-120 [analyze], on the integer layers of each array *)
Definition analyze (arrays : list (list int_layer)) : info :=
  let layers := concat arrays in
  {| deterministic := forallb i_deterministic layers;
     continuous := negb (existsb i_deterministic layers);
     ordered := forallb i_ordered layers;
     arity := match flat_map (fun l => match i_arity l with Some a => [a] | None => [] end) layers with
              | [] => (-1)%Z
              | a :: l => fold_left Z.max l a
              end |}.

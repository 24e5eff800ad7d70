(** Model of artificial functions: nevergrad/functions/functionlib.py and the transforms of
    nevergrad/functions/utils.py. Numbers are exact reals; calls which raise are [Err]. *)
From Coq Require Import Reals Arith ZArith Bool List.
From Verif.Model Require Import Prelude CoreFuncs.
From Verif.Model Require Nsga2 Tools Mutation.
Import ListNotations.
Open Scope R_scope.

(** ** Transforms, utils.py:10-38. [normals] and [q] are the draws: a normal vector, and the orthogonal
    factor of a normal matrix. Exponents are non-negative integers (others may give NaN translations: not modelled). *)
Record transform := { t_indices : list nat; t_translation : list R; t_rotation : option (list (list R)) }.
(** utils.py:15-33 *)
Definition make_transform (indices : list nat) (factor : R) (rotation : bool) (expo : nat) (normals : list R) (q : list (list R)) : result transform :=
  match indices with
  | [] => Err AssertionError
  | _ => Ok {| t_indices := indices; t_translation := map (fun z => z ^ expo * factor) normals;
               t_rotation := if rotation then Some q else None |}
  end.
(** [x[indices]] of numpy *)
Definition select (x : list R) (indices : list nat) : result (list R) :=
  Mutation.map_result (fun i => match nth_error x i with Some a => Ok a | None => Err IndexError end) indices.
Definition dot (u v : list R) : R := rsum (map (fun p => fst p * snd p) (combine u v)).
Definition mat_vec (m : list (list R)) (v : list R) : list R := map (fun row => dot row v) m.
(** utils.py:34-38 *)
Definition apply_transform (t : transform) (x : list R) : result (list R) :=
  bind (select x (t_indices t)) (fun y =>
  let y := minus y (t_translation t) in
  Ok (match t_rotation t with None => y | Some m => mat_vec m y end)).

(** ** functionlib.py:19-80 *)
Record variable := { v_dimension : nat; v_num_blocks : nat; v_block_dimension : nat; v_factor : R; v_rotated : bool;
                     v_hashing : bool; v_only_index : bool; v_expo : nat }.
(** functionlib.py:47-67 [_initialize]: [drawn] are the indices [random_state.choice] returns, [rnd k] the draws of block [k] *)
Definition initialize (v : variable) (drawn : list nat) (rnd : nat -> list R * list (list R)) : result (list transform) :=
  let indices := Nsga2.stable_sort Nat.leb drawn in
  bind (Tools.grouper indices (v_block_dimension v) 0%nat) (fun groups =>
  Mutation.map_result (fun ig => make_transform (snd ig) (v_factor v) (v_rotated v) (v_expo v) (fst (rnd (fst ig))) (snd (rnd (fst ig)))) (indexed groups)).
(** functionlib.py:69-85 [process]. [hash] is the normal number drawn from a generator seeded by the digest of the value. *)
Definition process (v : variable) (hash : R -> R) (ts : list transform) (data : list R) : result (list (list R)) :=
  let data := if v_hashing v then map hash data else data in
  Mutation.map_result (fun t => if v_only_index v then select data (t_indices t) else apply_transform t data) ts.

(** ** functionlib.py:143-330 *)
Inductive aggregator := AMax | AMean | ASum.
(** functionlib.py:219-223, numpy's functions; a function of no value raises *)
Definition aggregate (a : aggregator) (l : list R) : result R :=
  match l with
  | [] => Err ValueError
  | r :: rs =>
      Ok (match a with
          | AMax => fold_left Rmax rs r
          | AMean => rsum l / INR (length l)
          | ASum => rsum l
          end)
  end.
(** functionlib.py:244-260. Overflow is not modelled. *)
Definition norm (x : list R) : R := sqrt (sphere x).
Definition penalty (factor : R) (x : list R) : R := 1000 * Rmax (factor / (/ 10000000 + factor + norm x) - 75 / 100) 0.
Definition from_transform (f : list R -> result R) (a : aggregator) (zero_pen : bool) (factor : R) (x : list (list R)) : result R :=
  bind (Mutation.map_result f x) (fun results =>
  bind (aggregate a results) (fun val =>
  Ok (if zero_pen then val + penalty factor (concat x) else val))).

Record settings := { s_block_dimension : Z; s_num_blocks : Z; s_useless : Z; s_noise : R; s_dissymmetry : bool; s_rotation : bool;
                     s_factor : R; s_hashing : bool; s_aggregator : aggregator; s_split : bool; s_expo : nat; s_zero_pen : bool;
                     s_no_transform : bool (* registered with the core function *) }.
(** functionlib.py:160-212: the checks. The types, the name of the core function and of the aggregator are right. *)
Definition check (s : settings) : result unit :=
  if Rlt_dec (s_noise s) 0 then Err AssertionError
  else if (s_block_dimension s <? 1)%Z then Err ValueError
  else if (s_num_blocks s <? 1)%Z then Err ValueError
  else if (s_useless s <? 0)%Z then Err ValueError
  else if s_split s && (s_hashing s || negb (s_useless s =? 0)%Z) then Err AssertionError
  else Ok tt.
(** functionlib.py:185, 206-217 *)
Definition variable_of (s : settings) : variable :=
  {| v_dimension := Z.to_nat (s_block_dimension s * s_num_blocks s + s_useless s); v_num_blocks := Z.to_nat (s_num_blocks s);
     v_block_dimension := Z.to_nat (s_block_dimension s); v_factor := s_factor s; v_rotated := s_rotation s;
     v_hashing := s_hashing s; v_only_index := s_no_transform s; v_expo := s_expo s |}.

Section Calls.
  Variable f : list R -> result R.       (* the core function *)
  Variable s : settings.
  Variable hash : R -> R.
  Variable ts : list transform.
  (** functionlib.py:240-242, 262-271 [evaluation_function]: arrays are concatenated *)
  Definition transformed (x : list R) : result (list (list R)) := process (variable_of s) hash ts x.
  Definition value_of (y : list (list R)) : result R := from_transform f (s_aggregator s) (s_zero_pen s) (s_factor s) y.
  Definition evaluation (args : list (list R)) : result R := bind (transformed (concat args)) value_of.
  Definition plus (x y : list R) : list R := map (fun p => fst p + snd p) (combine x y).
  (** functionlib.py:273-283, 299-318 [noisy_function] and [_noisy_call]. [side] and [g] are the draws. [ravel()[0]] of nothing raises. *)
  Definition noisy_function (side : list R) (g : R) (args : list (list R)) : result R :=
    let x := concat args in
    bind (transformed x) (fun xt =>
    bind (value_of xt) (fun fx =>
    if Req_EM_T (s_noise s) 0 then Ok fx else
    if negb (s_dissymmetry s) then
      bind (transformed (plus x side)) (fun yt => bind (value_of yt) (fun fy => Ok (fx + s_noise s * g * (fy - fx))))
    else
      match concat xt with
      | [] => Err IndexError
      | x0 :: _ =>
          if Rle_dec x0 0 then
            bind (transformed (plus x side)) (fun yt => bind (value_of yt) (fun fy =>
            Ok (fx + s_noise s * (1 + x0 * 100) * g * (fy - fx))))
          else Ok fx
      end)).
End Calls.

(** functionlib.py:321-351 [FarOptimumFunction] *)
Definition far_multi (optimum x : list R) : list R := map (fun p => Rabs (fst p - snd p)) (combine x optimum).
Definition far_mono (optimum x : list R) : R := rsum (far_multi optimum x).

(** Real functions: the transforms of nevergrad/parametrization/transforms.py, the operations
    [Exponent] and [Power] of _datalayers.py, and angles. Numbers are exact reals, with the values
    numpy gives where a function is not defined. *)
From Coq Require Import Reals ZArith Bool List.
From Verif.Model Require Import Prelude.
Import ListNotations.
Open Scope R_scope.

(** The results of numpy functions. *)
Inductive num : Type := Fin (x : R) | PInf | MInf | NaN.

(** [np.log] *)
Definition np_log (x : R) : num := if Rlt_dec 0 x then Fin (ln x) else if Req_EM_T x 0 then MInf else NaN.
(** [x / y] on arrays *)
Definition np_div (x y : R) : num :=
  if Req_EM_T y 0 then (if Req_EM_T x 0 then NaN else if Rlt_dec 0 x then PInf else MInf) else Fin (x / y).
(** a result that is not finite divided by a number *)
Definition div_num (x : num) (y : R) : num :=
  match x with
  | Fin x => np_div x y
  | PInf => if Rle_dec 0 y then PInf else MInf
  | MInf => if Rle_dec 0 y then MInf else PInf
  | NaN => NaN
  end.
(** [x ** p] *)
Definition np_power (x p : R) : num :=
  if Rlt_dec 0 x then Fin (Rpower x p)
  else if Req_EM_T x 0 then (if Req_EM_T p 0 then Fin 1 else if Rlt_dec 0 p then Fin 0 else PInf)
  else if Req_EM_T p (IZR (Int_part p)) then Fin (powerRZ x (Int_part p)) else NaN.
(** [np.arctanh] *)
Definition np_arctanh (x : R) : num :=
  if Req_EM_T x 1 then PInf else if Req_EM_T x (-1) then MInf
  else if Rlt_dec (-1) x then (if Rlt_dec x 1 then Fin (ln ((1 + x) / (1 - x)) / 2) else NaN) else NaN.
(** [np.tan] on [-pi/2, pi/2]; at the ends numpy gives a very large number (pi/2 is not a float) *)
Definition np_tan (x : R) : num :=
  if Req_EM_T x (PI / 2) then PInf else if Req_EM_T x (- (PI / 2)) then MInf else Fin (tan x).

(** One coordinate of a transform (numpy broadcasts the parameters). The cumulative density functions
    of scipy and their inverses are given. *)
Inductive transform : Type :=
| TAffine (a b : R)
| TExponentiate (base coeff : R)
| TTanh (lower upper : R)
| TArctan (lower upper : R)
| TCdf (cdf ppf : R -> R) (lower upper eps scale : R)
| TReverted (t : transform).

Definition rclip (x lo hi : R) : R := Rmin (Rmax x lo) hi.
(** the test made before transforming back: any coordinate out of bounds *)
Fixpoint in_range (reverted : bool) (t : transform) (y : R) : bool :=
  match t with
  | TReverted t => in_range (negb reverted) t y
  | TTanh lo hi | TArctan lo hi | TCdf _ _ lo hi _ _ =>
      if reverted then true
      else if Rlt_dec hi y then false else if Rlt_dec y lo then false else true
  | _ => true
  end.
(** transforms.py:83-84 [Affine.forward], :86-87 [Affine.backward]; :106-107, :109-110 [Exponentiate];
    :169-171, :173-180 [TanhBound]; :244-246, :248-252 [ArctanBound]; :296-297, :299-305
    [CumulativeDensity]; :59-63 [Reverted]. [back] tells the direction. *)
Fixpoint apply (back : bool) (t : transform) (x : R) : num :=
  match t with
  | TReverted t => apply (negb back) t x
  | TAffine a b => if back then np_div (x - b) a else Fin (a * x + b)
  | TExponentiate base coeff =>
      if back then match np_log x, np_log base with
                   | l, Fin lb => div_num l (coeff * lb)
                   | _, _ => NaN
                   end
      else np_power base (coeff * x)
  | TTanh lo hi =>
      let b := (hi + lo) / 2 in let a := (hi - lo) / 2 in
      if back then np_arctanh ((x - b) / a) else Fin (b + a * tanh x)
  | TArctan lo hi =>
      let b := (hi + lo) / 2 in let a := (hi - lo) / PI in
      if back then np_tan ((x - b) / a) else Fin (b + a * atan x)
  | TCdf cdf ppf lo hi eps scale =>
      if back then Fin (scale * ppf (rclip ((x - lo) / (hi - lo)) eps (1 - eps)))
      else Fin ((hi - lo) * cdf (x / scale) + lo)
  end.
Fixpoint map2 {A B C} (f : A -> B -> C) (a : list A) (b : list B) : list C :=
  match a, b with x :: a', y :: b' => f x y :: map2 f a' b' | _, _ => [] end.
(** on arrays: one transform for each coordinate *)
Definition forward (ts : list transform) (x : list R) : result (list num) :=
  if forallb (fun p => in_range true (fst p) (snd p)) (combine ts x) then Ok (map2 (apply false) ts x) else Err ValueError.
Definition backward (ts : list transform) (y : list R) : result (list num) :=
  if forallb (fun p => in_range false (fst p) (snd p)) (combine ts y) then Ok (map2 (apply true) ts y) else Err ValueError.

(** transforms.py:75-81 [Affine.__init__] *)
Definition new_affine (a b : list R) : result (list transform) :=
  if existsb (fun x => if Req_EM_T x 0 then false else true) a then Ok (map2 TAffine a b) else Err ValueError.
(** transforms.py:130-142 [BoundTransform.__init__]: [make] is one of the bounding transforms *)
Definition new_bound (make : R -> R -> transform) (lower upper : list R) : result (list transform) :=
  if existsb (fun p => if Rle_dec (snd p) (fst p) then true else false) (combine lower upper) then Err ValueError
  else Ok (map2 make lower upper).
(** scipy's [stats.cauchy.cdf] and [ppf] *)
Definition cauchy_cdf (x : R) : R := 1 / 2 + atan x / PI.
Definition cauchy_ppf (q : R) : R := tan (PI * (q - 1 / 2)).

(** Operations on a parameter: _datalayers.py:181-195 [Exponent], :198-209 [Power], :212-223 [Add],
    :226-238 [Multiply]. *)
Inductive operation : Type := OAdd (offset : R) | OMultiply (mult : R) | OExponent (base : R) | OPower (power : R).
Definition op_forward (o : operation) (x : R) : num :=
  match o with
  | OAdd c => Fin (c + x)
  | OMultiply m => Fin (m * x)
  | OExponent base => np_power base x
  | OPower p => np_power x p
  end.
Definition op_backward (o : operation) (y : R) : num :=
  match o with
  | OAdd c => Fin (y - c)
  | OMultiply m => np_div y m
  | OExponent base => match np_log base with Fin lb => div_num (np_log y) lb | _ => NaN end
  | OPower p => np_power y (1 / p)
  end.
(** _datalayers.py:184-189 [Exponent.__init__] *)
Definition new_exponent (base : R) : result operation := if Rle_dec base 0 then Err ValueError else Ok (OExponent base).
(** what is done with a number that is not finite is not modelled further *)
Definition bindn (x : num) (f : R -> num) : num := match x with Fin x => f x | _ => x end.
(** a stack of operations over the raw number: the first of the list is the outermost *)
Fixpoint stack_get (ops : list operation) (raw : R) : num :=
  match ops with [] => Fin raw | o :: ops' => bindn (stack_get ops' raw) (op_forward o) end.
Fixpoint stack_set (ops : list operation) (v : R) : num :=
  match ops with [] => Fin v | o :: ops' => bindn (op_backward o v) (stack_set ops') end.

(** [np.angle(x + 1j * y)], for a complex number without signed zeros *)
Definition np_angle (x y : R) : R :=
  if Rlt_dec 0 x then atan (y / x)
  else if Rlt_dec x 0 then (if Rle_dec 0 y then atan (y / x) + PI else atan (y / x) - PI)
  else if Rlt_dec 0 y then PI / 2 else if Rlt_dec y 0 then - (PI / 2) else 0.
(** _datalayers.py:322-324, :316-320 [AngleOp] *)
Definition angle_set (v : R) : R * R := (cos v, sin v).
Definition angle_get (p : R * R) : R := np_angle (fst p) (snd p).

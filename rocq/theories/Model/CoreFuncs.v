(** Model of the test functions: nevergrad/functions/corefuncs.py. Numbers are exact reals,
    vectors are lists; calls which raise are [Err]. *)
From Coq Require Import Reals Arith ZArith QArith Bool List.
From Verif.Model Require Import Prelude.
From Verif.Model Require RTransforms Layers.
Import ListNotations.
Open Scope R_scope.

Fixpoint rsum (l : list R) : R := match l with [] => 0 | x :: l' => x + rsum l' end.
Fixpoint rprod (l : list R) : R := match l with [] => 1 | x :: l' => x * rprod l' end.
Definition indexed {A} (l : list A) : list (nat * A) := combine (seq 0 (length l)) l.
(** [f i x] for each coordinate *)
Definition mapi {A B} (f : nat -> A -> B) (l : list A) : list B := map (fun ix => f (fst ix) (snd ix)) (indexed l).

(** corefuncs.py:100-106 *)
Definition sphere (x : list R) : R := rsum (map (fun a => a * a) x).
(** corefuncs.py:109-124 [sphere1], [sphere2], [sphere4] *)
Definition sphere_from (c : R) (x : list R) : R := sphere (map (fun a => a - c) x).
(** corefuncs.py:139-144 *)
Definition altcigar (x : list R) : result R :=
  match rev x with [] => Err IndexError | a :: l => Ok (a * a + 1000000 * sphere (rev l)) end.
(** corefuncs.py:147-150 *)
Definition discus (x : list R) : result R :=
  match x with [] => Err IndexError | a :: l => Ok (sphere l + 1000000 * (a * a)) end.
(** corefuncs.py:153-159 *)
Definition cigar (x : list R) : result R :=
  match x with [] => Err IndexError | a :: l => Ok (a * a + 1000000 * sphere l) end.
(** corefuncs.py:162-171, for at least two coordinates (in dimension 1 the exponent is not finite). *)
Definition bent (d i : nat) (a : R) : R :=
  if Rlt_dec 0 a then Rpower a (1 + 1 / 2 * sqrt a * (INR i - 1) / (INR d - 1)) else a.
Definition bentcigar (x : list R) : result R :=
  match x with
  | [] | [_] => Err ZeroDivisionError
  | _ => cigar (mapi (bent (length x)) x)
  end.
(** corefuncs.py:174-182 *)
Definition peak (a d : nat) : list R := map (fun i => cos (INR a + sqrt (INR i))) (seq 0 d).
Definition minus (x y : list R) : list R := map (fun p => fst p - snd p) (combine x y).
Definition multipeak (x : list R) : R :=
  fold_left (fun v a => Rmin v (INR a / 101 + exp (Rmin 100 (sphere (minus x (peak a (length x))))))) (seq 0 101) 10000.
(** corefuncs.py:211-219; [np.linspace(0, 6, dim)] *)
Definition weight (d i : nat) : R := if (d =? 1)%nat then 1 else Rpower 10 (6 * INR i / (INR d - 1)).
Definition ellipsoid (x : list R) : R := rsum (mapi (fun i a => weight (length x) i * (a * a)) x).
(** corefuncs.py:185-190 *)
Definition altellipsoid (y : list R) : R := ellipsoid (rev y).
(** corefuncs.py:193-196; [np.nextafter(0, 1)] is 2^-1074; [int] truncates. *)
Definition tiny : R := Rpower 2 (- 1074).
Definition trunc (r : R) : Z := if Rle_dec 0 r then Int_part r else (- Int_part (- r))%Z.
Definition step (s : R) : R :=
  let s := if Req_EM_T s 0 then tiny else s in exp (IZR (trunc (ln s))).
(** corefuncs.py:199-208 *)
Definition stepellipsoid (x : list R) : R := step (ellipsoid x).
(** corefuncs.py:222-226 *)
Definition rastrigin (x : list R) : R :=
  10 * (INR (length x) - rsum (map (fun a => cos (2 * PI * a)) x)) + sphere x.
(** corefuncs.py:229-239: the exponent divides by the dimension minus one *)
Definition bucher (d i : nat) (a : R) : R :=
  a * (if Rlt_dec 0 a then if Nat.odd i then 10 else 1 else 1) * Rpower 10 ((INR i - 1) / (2 * (INR d - 1))).
Definition bucherastrigin (x : list R) : result R :=
  if (length x =? 1)%nat then Err ZeroDivisionError
  else Ok (rastrigin (mapi (bucher (length x)) x)).
(** corefuncs.py:242-251 *)
Definition doublelinearslope (x : list R) : R := Rabs (rsum x).
Definition stepdoublelinearslope (x : list R) : R := step (doublelinearslope x).
(** corefuncs.py:254-257: the cosine of an infinite number is NaN *)
Definition hm (x : list R) : RTransforms.num :=
  if existsb (fun a => if Req_EM_T a 0 then true else false) x then RTransforms.NaN
  else RTransforms.Fin (rsum (map (fun a => a * a * (11 / 10 + cos (1 / a))) x)).
(** corefuncs.py:260-264 *)
Fixpoint rosenbrock (x : list R) : R :=
  match x with
  | a :: (b :: _) as l => 100 * ((a * a - b) * (a * a - b)) + (a - 1) * (a - 1) + rosenbrock l
  | _ => 0
  end.
(** corefuncs.py:267-271 *)
Definition ackley (x : list R) : result R :=
  match x with
  | [] => Err ZeroDivisionError
  | _ => let dim := INR (length x) in
         Ok (- 20 * exp (- (2 / 10) * sqrt (sphere x / dim)) - exp (rsum (map (fun a => cos (2 * PI * a)) x) / dim) + 20 + exp 1)
  end.
(** corefuncs.py:274-277 *)
Fixpoint cumsum (acc : R) (x : list R) : list R := match x with [] => [] | a :: l => (acc + a) :: cumsum (acc + a) l end.
Definition schwefel_1_2 (x : list R) : R := sphere (cumsum 0 x).
(** corefuncs.py:280-285 *)
Definition griewank (x : list R) : R :=
  1 + sphere x / 4000 - rprod (mapi (fun i a => cos (a / sqrt (1 + INR i))) x).
(** corefuncs.py:288-298 *)
Definition deceptiveillcond (x : list R) : result RTransforms.num :=
  match x with
  | x0 :: x1 :: _ =>
      if Req_EM_T x0 0 then Ok RTransforms.PInf
      else Ok (RTransforms.Fin (Rmax (Rmax (Rabs (atan (x1 / x0))) (sqrt (x0 * x0 + x1 * x1))) (if Rlt_dec 0 x0 then 1 else 0)))
  | _ => Err AssertionError
  end.
(** corefuncs.py:301-328 [deceptivepath], and [deceptivemultimodal] where the inverse of the distance is truncated *)
Definition deceptive (whole : bool) (x : list R) : result R :=
  match x with
  | x0 :: x1 :: _ =>
      let distance := sqrt (x0 * x0 + x1 * x1) in
      if Req_EM_T distance 0 then Ok 0
      else
        let angle := if Req_EM_T x1 0 then PI / 2 else atan (x0 / x1) in
        let inv := if whole then IZR (trunc (1 / distance)) else 1 / distance in
        if Rlt_dec (1 / 10) (Rabs (cos inv - angle)) then Ok 1 else Ok distance
  | _ => Err AssertionError
  end.
(** corefuncs.py:331-347 *)
Definition lunacek (x : list R) : R :=
  let d := INR (length x) in
  let s := 1 - 1 / (2 * sqrt (d + 20) - 82 / 10) in
  let mu1 := 25 / 10 in
  let mu2 := - sqrt (Rabs ((mu1 * mu1 - 1) / s)) in
  let first := rsum (map (fun a => (a - mu1) * (a - mu1)) x) in
  let second := rsum (map (fun a => (a - mu2) * (a - mu2)) x) in
  let third := rsum (map (fun a => 1 - cos (2 * PI * (a - mu1))) x) in
  Rmin first (1 * d + second) + 10 * third.
(** corefuncs.py:350-358; the mean of an empty vector is NaN: not modelled *)
Definition genzcornerpeak (y : list R) : result R :=
  match y with
  | [] => Err ZeroDivisionError
  | _ => let value := 1 + rsum (map tanh y) / INR (length y) in
         Ok (/ value ^ (length y + 1))
  end.
(** corefuncs.py:369-382 *)
Definition genzgaussianpeakintegral (x : list R) : R := exp (- sphere x / 4).
Definition minusgenzgaussianpeakintegral (x : list R) : R := - genzgaussianpeakintegral x.
(** corefuncs.py:385-392 *)
Definition slope (x : list R) : R := rsum x.
Definition linear (x : list R) : result R := match x with [] => Err IndexError | a :: _ => Ok (tanh a) end.
(** corefuncs.py:78-83, 395-398: [_styblinksitang] without noise *)
Definition st0 (x : list R) : R :=
  3916599 / 100000 * INR (length x) + 1 / 2 * rsum (map (fun a => a * a * (a * a) + (5 * a - 16 * (a * a))) x).

(** ** Discrete functions, corefuncs.py:28-75. [np.round] rounds to the nearest integer, ties to even. *)
Definition wrong (arity : nat) (x : list Q) : list bool :=
  map (fun ia => negb (Z.eqb (Layers.round_half_even (snd ia)) (Z.of_nat (fst ia mod arity)))) (indexed x).
(** corefuncs.py:60-62 *)
Definition onemax (arity : nat) (x : list Q) : Z := Z.of_nat (length (filter (fun b => b) (wrong arity x))).
(** corefuncs.py:64-67 *)
Fixpoint first_wrong (l : list bool) : option nat :=
  match l with [] => None | true :: _ => Some 0%nat | false :: l' => option_map S (first_wrong l') end.
Definition leadingones (arity : nat) (x : list Q) : Z :=
  match first_wrong (wrong arity x) with None => 0%Z | Some k => (Z.of_nat (length x) - Z.of_nat k)%Z end.
(** corefuncs.py:69-75 *)
Definition jump (arity : nat) (x : list Q) : Z :=
  let n := Z.of_nat (length x) in
  let m := (n / 4)%Z in
  let o := (n - onemax arity x)%Z in
  if (Z.eqb o n || Z.leb o (n - m))%bool then (n - m - o)%Z else o.

(** nevergrad/parametrization/discretization.py: softmax sampling and discretization by thresholds.
    Numbers are exact reals with the special values of floats. *)
From Coq Require Import Reals ZArith Bool List.
From Verif.Model Require Import Prelude.
Import ListNotations.
Open Scope R_scope.

(** weights: floats *)
Inductive weight : Type := WFin (x : R) | WPInf | WMInf | WNan.
(** discretization.py:93-96 [Encoder.__init__] on a row *)
Definition clean (w : weight) : weight := match w with WNan => WMInf | _ => w end.
Definition wlt (a b : weight) : bool :=
  match a, b with
  | WFin x, WFin y => if Rlt_dec x y then true else false
  | WMInf, (WFin _ | WPInf) => true
  | WFin _, WPInf => true
  | _, _ => false
  end.
(** [np.max], [np.argmax] (first largest) of a non-empty row *)
Fixpoint argmax_from (best : weight) (ibest i : nat) (ws : list weight) : nat :=
  match ws with
  | [] => ibest
  | w :: ws' => if wlt best w then argmax_from w i (S i) ws' else argmax_from best ibest (S i) ws'
  end.
Definition argmax (ws : list weight) : result nat :=
  match ws with [] => Err ValueError | w :: ws' => Ok (argmax_from w 0 1 ws') end.
Fixpoint max_from (best : weight) (ws : list weight) : weight :=
  match ws with [] => best | w :: ws' => max_from (if wlt best w then w else best) ws' end.
Fixpoint rsum (l : list R) : R := match l with [] => 0 | x :: l' => x + rsum l' end.

(** discretization.py:98-116 [Encoder.probabilities] on a row (after [clean]); [m] is the largest weight *)
Definition exp_of (m w : weight) : R :=
  let hasposinf := match m with WPInf => true | _ => false end in
  let m0 := match m with WFin x => x | _ => 0 end in
  match w with
  | WPInf => 1
  | WFin x => if hasposinf then 0 else exp (x - m0)
  | _ => 0
  end.
Definition exps (ws : list weight) : list R :=
  match ws with [] => [] | w :: ws' => map (exp_of (max_from w ws')) ws end.
Definition probabilities (ws : list weight) : list R :=
  let e := exps ws in
  let e := if Req_EM_T (rsum e) 0 then map (fun _ => 1) e else e in
  map (fun x => x / rsum e) e.
(** [np.cumsum] *)
Fixpoint cumsum (acc : R) (l : list R) : list R := match l with [] => [] | x :: l' => (acc + x) :: cumsum (acc + x) l' end.
(** [np.argmin] of booleans: the first False, or 0 *)
Fixpoint first_false (i : nat) (l : list bool) : option nat :=
  match l with [] => None | b :: l' => if b then first_false (S i) l' else Some i end.
Definition argmin_bool (l : list bool) : nat := match first_false 0 l with Some i => i | None => 0%nat end.
(** discretization.py:118-132 [Encoder.encode] on a row; [rand] is the uniform draw of the row *)
Definition encode (row : list weight) (deterministic : bool) (rand : R) : result nat :=
  let ws := map clean row in
  if deterministic then argmax ws
  else match ws with
       | [] => Err ValueError
       | _ => Ok (argmin_bool (map (fun c => if Rlt_dec c rand then true else false) (cumsum 0 (probabilities ws))))
       end.
(** discretization.py:65-69 [weight_for_reset]; for arity 1 the logarithm is that of (minus) zero *)
Definition weight_for_reset (arity : nat) : weight :=
  let p := 1 / INR arity * (3 / 2) in
  let q := p * (INR arity - 1) / (1 - p) in
  if Rlt_dec 0 q then WFin (ln q) else if Req_EM_T q 0 then WMInf else WNan.
(** _datalayers.py:301-310 [SoftmaxSampling._layered_set_value]: the row written for an index *)
Definition reset_row (arity index : nat) : list weight :=
  map (fun i => if Nat.eqb i index then weight_for_reset arity else WFin 0) (seq 0 arity).

(** Discretization by thresholds. [cdf], [ppf]: scipy's functions for the normal distribution *)
Section Thresholds.
Variables cdf ppf : R -> R.
(** floor of a non-negative number: [astype(int)] *)
Definition floor (x : R) : Z := Int_part x.
(** discretization.py:17-39 [threshold_discretization] on one number *)
Definition threshold (arity : nat) (x : weight) : Z :=
  match arity, x with
  | 2%nat, (WNan | WMInf) => 0%Z
  | 2%nat, WPInf => 1%Z
  | 2%nat, WFin x => if Rlt_dec 0 x then 1%Z else 0%Z
  | _, _ =>
      let c := match x with WNan | WMInf => 0 | WPInf => 1 | WFin x => cdf x end in
      floor (Rmin (Rmax (INR arity * c) 0) (INR arity - 1))
  end.
(** discretization.py:43-51 [inverse_threshold_discretization] on one index: the ppf of scipy is nan out of
    [0, 1] (indices out of range, then replaced by the largest float with a sign: not modelled), infinite at the ends *)
Definition inverse_threshold (arity : nat) (index : Z) : weight :=
  let b := 1 / INR arity in
  let q := IZR index * b + b / 2 in
  if Rlt_dec 0 q then (if Rlt_dec q 1 then WFin (ppf q) else if Req_EM_T q 1 then WPInf else WNan)
  else if Req_EM_T q 0 then WMInf else WNan.
(** discretization.py:56-62 [noisy_inverse_threshold_discretization]; [rand] is the uniform draw *)
Definition noisy_inverse (arity : nat) (index : Z) (rand : R) : weight :=
  let b := 1 / INR arity in
  let q := IZR index * b + rand * b in
  if Rlt_dec 0 q then (if Rlt_dec q 1 then WFin (ppf q) else if Req_EM_T q 1 then WPInf else WNan)
  else if Req_EM_T q 0 then WMInf else WNan.
End Thresholds.

(** Mutation rates of the (1+1) optimizers which need the exponential or the logarithm
    (nevergrad/optimization/optimizerlib.py), over the reals. *)
From Coq Require Import Reals ZArith.
Open Scope R_scope.

(** optimizerlib.py:329-333: the rate of a candidate of the log-normal mutations, from the common rate and a normal draw *)
Definition lognormal_rate (dimension : nat) (global_mr z : R) : R :=
  let rate := Rmax (0.1 / INR dimension) global_mr in
  1 / (1 + (1 - rate) / rate * exp (0.22 * z)).
(** optimizerlib.py:364-402: the number of coordinates aimed at by the lengler mutations ([alpha]: 1.54468, 3, 9, 0.4
    or 0.8) at the [num_ask]-th ask (one at least) *)
Definition lengler_intensity (dimension : nat) (alpha : R) (num_ask : nat) : Z :=
  Int_part (Rmax 1 (INR dimension * (alpha * ln (INR num_ask) / INR num_ask))).

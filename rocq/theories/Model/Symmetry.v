(** Model of the symmetries of test functions: nevergrad/functions/base.py:295-362
    [ArrayExperimentFunction]. *)
From Coq Require Import Arith ZArith QArith Bool Lia List.
From Verif.Model Require Import Prelude.
Import ListNotations.
Open Scope Z_scope.

Definition prime : Z := 11111111111111111111111.
(** functions/base.py:335-348, the loop on the coordinates: (threshold, slope) of each *)
Fixpoint coefficients (d : nat) (symmetry : Z) (middle : Q) : list (Q * Q) :=
  match d with
  | O => []
  | S d => (if symmetry mod 2 =? 1 then ((2 * middle)%Q, (-1)%Q) else (0%Q, 1%Q)) :: coefficients d (symmetry / 2) middle
  end.
(** functions/base.py:311-352 [__init__]; [bounds]: the bounds of the first coordinate, if any *)
Definition symmetry_coefficients (d : nat) (symmetry : Z) (bounds : option (Q * Q)) : result (list (Q * Q)) :=
  if (0 <=? symmetry) && (symmetry <? 2 ^ Z.of_nat d) then
    let s := (symmetry * prime) mod (2 ^ Z.of_nat d) in
    Ok (if s =? 0 then repeat (0%Q, 1%Q) d
        else coefficients d s (match bounds with Some (lo, hi) => ((lo + hi) / 2)%Q | None => 0%Q end))
  else Err AssertionError.
(** functions/base.py:354-357 [symmetrized_function]: the point given to the inner function *)
Definition symmetrized (coefs : list (Q * Q)) (x : list Q) : list Q :=
  map (fun cx : (Q * Q) * Q => (fst (fst cx) + snd (fst cx) * snd cx)%Q) (combine coefs x).

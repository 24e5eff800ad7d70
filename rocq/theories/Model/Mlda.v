(** Model of problems of nevergrad/functions/mlda/problems.py and of the travelling salesman of nevergrad/functions/stsp/core.py.
    Numbers are exact rationals; the Euclidean distance between two cities or two mapped points, the square root of a number of
    cities and the order of numpy between equal keys are given. *)
From Coq Require Import List Arith ZArith QArith Bool.
From Verif.Model Require Import Prelude MultiValue Layers Planning.
Import ListNotations.
Open Scope nat_scope.

(** ** stsp/core.py *)
Section Stsp.
  Variable argsort : list Q -> list nat.
  Variable dist : nat -> nat -> Q.  (* between the cities [self.x], [self.y] *)
  Variable root : Q.                (* np.sqrt(self.dimension + 1.0) *)
  (** core.py:31-33: the steps from one city to the next *)
  Fixpoint steps (order : list nat) : list Q :=
    match order with
    | a :: (b :: _) as rest => dist a b :: steps rest
    | _ => []
    end.
  (** [np.sum(np.diff(order) ** 2)] *)
  Fixpoint diffs (order : list nat) : list Z :=
    match order with
    | a :: (b :: _) as rest => ((Z.of_nat b - Z.of_nat a) * (Z.of_nat b - Z.of_nat a))%Z :: diffs rest
    | _ => []
    end.
  (** core.py:26-36 [_simulate_stsp]; without a city [x[0]] fails *)
  Definition simulate_stsp (complex : bool) (x : list Q) : result Q :=
    let order := argsort x in
    match order with
    | [] => Err IndexError
    | first :: _ =>
        let output := (dist first (last order first) + qsum (steps order))%Q in
        Ok (if complex then (output + inject_Z (fold_right Z.add 0%Z (diffs order)) / root)%Q else output)
    end.
End Stsp.

(** ** mlda/problems.py:20-27 [_kmeans_distance], with as many coordinates in a center as in a point; without a center
    [np.min] fails *)
Definition square (x : Q) : Q := (x * x)%Q.
Definition sqdist (a b : list Q) : Q := qsum (map (fun c => square (fst c - snd c)) (combine a b)).
Definition row_min (l : list Q) : result Q := match l with [] => Err ValueError | x :: r => Ok (fold_left qmin r x) end.
Fixpoint kmeans_rows (points centers : list (list Q)) : result (list Q) :=
  match points with
  | [] => Ok []
  | pt :: rest => bind (row_min (map (sqdist pt) centers)) (fun m => bind (kmeans_rows rest centers) (fun l => Ok (m :: l)))
  end.
Definition kmeans_distance (points centers : list (list Q)) : result Q :=
  bind (kmeans_rows points centers) (fun l => Ok (qsum l)).

(** ** mlda/problems.py:146-151 and 202-206: the Sammon loss from the matrix of proximities and the distances of the images *)
Definition sammon_cell (prox d : Q) : Q :=
  let p2 := square prox in (square (d - prox) / (if Qeq_bool p2 0 then 1 else p2))%Q.
Definition sammon_loss (prox dists : list (list Q)) : Q :=
  qsum (map (fun rows => qsum (map (fun c => sammon_cell (fst c) (snd c)) (combine (fst rows) (snd rows)))) (combine prox dists)).

(** ** mlda/problems.py:246-252: the greatest pixel, and [_get_pixel_value]; [None] is [+inf] *)
Definition image_max (image : list (list Q)) : Q :=
  match concat image with [] => 0%Q | x :: l => fold_left qmax l x end.
Definition pixel_value (image : list (list Q)) (columns : nat) (x y : Q) : option Q :=
  let zx := round_half_even x in
  let zy := round_half_even y in
  if ((Z.min zx zy <? 0) || (Z.of_nat (length image) <=? zx) || (Z.of_nat columns <=? zy))%Z%bool then None
  else Some (image_max image - nth (Z.to_nat zy) (nth (Z.to_nat zx) image []) 0)%Q.

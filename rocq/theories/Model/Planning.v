(** Model of two planning problems: [UnitCommitmentProblem] (nevergrad/functions/unitcommitment/core.py) and [OptimizeFish]
    (nevergrad/functions/fishing/core.py). Numbers are exact rationals; the random demands and costs are given. *)
From Coq Require Import List Arith ZArith QArith Bool.
From Verif.Model Require Import Prelude MultiValue.
Import ListNotations.
Open Scope nat_scope.

Definition qsum (l : list Q) : Q := fold_right Qplus 0%Q l.
Definition qabs (x : Q) : Q := qmax x (- x).

(** unitcommitment/core.py:43-44 *)
Definition max_demand (demands : list Q) : Q := match demands with [] => 0%Q | d :: l => fold_left qmax l d end.
Definition p_max (num_generators : nat) (demands : list Q) : Q := (2 * max_demand demands / qnat num_generators)%Q.
Definition p_min (num_generators : nat) (demands : list Q) : Q := ((3 # 5) * p_max num_generators demands)%Q.

(** [np.array(states).reshape(rows, cols)] *)
Fixpoint cut (rows cols : nat) (l : list nat) : list (list nat) :=
  match rows with O => [] | S r => firstn cols l :: cut r cols (skipn cols l) end.
Definition reshape (rows cols : nat) (l : list nat) : result (list (list nat)) :=
  if length l =? rows * cols then Ok (cut rows cols l) else Err ValueError.
(** column [t] of an array given by its rows *)
Definition column (t : nat) (m : list (list Q)) : list Q := map (fun row => nth t row 0%Q) m.
(** the sum over all the cells of two arrays *)
Definition sum_cells (f : Q -> nat -> Q) (out : list (list Q)) (st : list (list nat)) : Q :=
  qsum (map (fun rows => qsum (map (fun c => f (fst c) (snd c)) (combine (fst rows) (snd rows)))) (combine out st)).

Section Units.
  Variable num_timepoints num_generators : nat.
  Variable demands : list Q.
  Variable cost_a cost_b : list Q.
  Variable penalty_weight : Q.
  (** core.py:67 *)
  Definition demand_penalty (out : list (list Q)) : Q :=
    qsum (map (fun td => qabs (qsum (column (fst td) out) - snd td)) (combine (seq 0 num_timepoints) demands)).
  (** core.py:69-72 and 73-76 *)
  Definition lb_cell (o : Q) (s : nat) : Q := qmax (p_min num_generators demands * qnat s - o) 0.
  Definition ub_cell (o : Q) (s : nat) : Q := qmax (o - p_max num_generators demands * qnat s) 0.
  (** core.py:78-81 *)
  Definition running_cost (out : list (list Q)) (st : list (list nat)) : Q :=
    qsum (map (fun x => let '(o, s, (a, b)) := x in (qsum o * a + qnat (list_sum s) * b)%Q)
            (combine (combine out st) (combine cost_a cost_b))).
  (** core.py:63-83 [unit_commitment_obj_with_penalization] *)
  Definition commitment_loss (out : list (list Q)) (states : list nat) : result Q :=
    bind (reshape num_generators num_timepoints states) (fun st =>
      Ok (running_cost out st
          + (demand_penalty out + sum_cells lb_cell out st + sum_cells ub_cell out st) * penalty_weight)%Q).
End Units.

(** fishing/core.py:38-40 and 42-58: dogfishes, haddocks and the total, one day; [AssertionError] at 55 *)
Record sea : Type := mkSea { dogfishes : Q; haddocks : Q; fished : Q }.
Definition sea_start : sea := mkSea (1 # 5) (4 # 5) 0.
Definition day (fishermen : Q) (s : sea) : result sea :=
  let f := qmax 0 fishermen in
  let eaten := (dogfishes s * haddocks s * 4 / 30)%Q in
  let h := (haddocks s + haddocks s * 2 / 30)%Q in
  let h := (h - eaten)%Q in
  let d := (dogfishes s - (1 / 30) * dogfishes s)%Q in
  let d := (d + (5 / 2) * eaten)%Q in
  let capture := qmin ((1 / 10) * f) d in
  let d := (d - capture)%Q in
  if qle 0 d then Ok (mkSea (qmin 1 d) (qmin 1 h) (fished s + capture)%Q) else Err AssertionError.
Fixpoint days (l : list Q) (s : sea) : result sea :=
  match l with [] => Ok s | f :: l' => bind (day f s) (days l') end.
(** fishing/core.py:32-59 [_compute_total_fishing] *)
Definition total_fishing (l : list Q) : result Q := bind (days l sea_start) (fun s => Ok (- fished s)%Q).

(** Model of nevergrad/functions/powersystems/core.py: the agents' weights and the simulation of
    the power system. Numbers are exact rationals; what the agents answer, the rain and the noise
    of the consumption are given. Simplified: vectors of plants and dams are functions of the
    index. *)
From Coq Require Import List Arith ZArith QArith Bool.
From Verif.Model Require Import Prelude MultiValue Planning.
Import ListNotations.
Open Scope nat_scope.

(** ** Agents *)
(** core.py:24-32 [Agent.__init__]: the shapes of the layers *)
Definition agent_layers (input_size output_size layers layer_width : nat) : result (list (nat * nat)) :=
  if 2 <=? layers
  then Ok ((layer_width, input_size) :: repeat (layer_width, layer_width) (layers - 2) ++ [(output_size, layer_width)])
  else Err AssertionError.
Definition layer_size (s : nat * nat) : nat := fst s * snd s.
(** core.py:34-36 [dimension] *)
Definition agent_dimension (shapes : list (nat * nat)) : nat := list_sum (map layer_size shapes).
(** core.py:38-47 [set_parameters]: the weights of each layer, one after the other *)
Fixpoint distribute (shapes : list (nat * nat)) (weights : list Q) : list (list Q) :=
  match shapes with
  | [] => []
  | s :: shapes' => firstn (layer_size s) weights :: distribute shapes' (skipn (layer_size s) weights)
  end.
Definition set_parameters (shapes : list (nat * nat)) (weights : list Q) : result (list (list Q)) :=
  if length weights =? agent_dimension shapes then Ok (distribute shapes weights) else Err ValueError.
(** core.py:114-116: the agents of a power system; the layer width is the default of [Agent] *)
Definition dam_agent (num_dams num_thermal_plants depth width : nat) : result (list (nat * nat)) :=
  agent_layers (10 + num_dams + 2 * num_thermal_plants) depth width 14.

(** ** One time step *)
(** core.py:198 [sorted(range(len(price)), key=...)]: stable *)
Fixpoint insert_by (price : nat -> Q) (i : nat) (l : list nat) : list nat :=
  match l with
  | [] => [i]
  | j :: l' => if qle (price i) (price j) then i :: l else j :: insert_by price i l'
  end.
Definition merit_order (price : nat -> Q) (n : nat) : list nat := fold_right (insert_by price) [] (seq 0 n).

Record day := mkday {
  stocks : nat -> Q;
  hydro : nat -> Q;      (* the production of each dam *)
  cost : Q;
  marginal : Q;
  needed : Q }.
Definition add_at (f : nat -> Q) (i : nat) (x : Q) : nat -> Q := fun j => if j =? i then (f j + x)%Q else f j.
Definition tiny : Q := 1 # 10000000.
(** core.py:203-220: the plants are used in the order of their prices; those below [num_dams]
    are dams *)
Fixpoint dispatch (num_dams : nat) (price capacity : nat -> Q) (order : list nat) (s : day) : result day :=
  match order with
  | [] => Ok s
  | i :: order' =>
      if qle (needed s) 0 then Ok s
      else
        let production := qmin (capacity i) (needed s) in
        if i <? num_dams then
          let stocks' := add_at (stocks s) i (- production)%Q in
          if qle (- tiny) (stocks' i)
          then dispatch num_dams price capacity order'
                 (mkday stocks' (add_at (hydro s) i production) (cost s) (marginal s) (needed s - production)%Q)
          else Err AssertionError
        else
          dispatch num_dams price capacity order'
            (mkday (stocks s) (hydro s) (cost s + production * price i)%Q
                   (if qlt tiny production then price i else marginal s) (needed s - production)%Q)
  end.

Section Year.
Variables num_dams num_thermal_plants : nat.
(** core.py:111-112 *)
Variables thermal_capacity thermal_price : nat -> Q.
Variable failure_cost : Q.

(** core.py:189-191: dams first, then thermal plants *)
Definition plant (dam thermal : nat -> Q) (i : nat) : Q := if i <? num_dams then dam i else thermal (i - num_dams).
(** core.py:149-228: one time step, given the rain, the consumption and the prices the agents
    give to the water of the dams *)
Record weather := mkweather { w_rain : nat -> Q; w_consumption : Q; w_dam_price : nat -> Q }.
Record year := mkyear { y_stocks : nat -> Q; y_cost : Q; y_marginal_costs : list Q; y_hydro : list (nat -> Q) }.
Definition time_step (y : year) (w : weather) : result year :=
  let st := fun i => (y_stocks y i + w_rain w i)%Q in
  let price := plant (w_dam_price w) thermal_price in
  let capacity := plant st thermal_capacity in
  let order := merit_order price (num_dams + num_thermal_plants) in
  bind (dispatch num_dams price capacity order (mkday st (fun _ => 0%Q) (y_cost y) 0 (w_consumption w)))
       (fun d => Ok (mkyear (stocks d) (cost d + failure_cost * needed d)%Q
                            (y_marginal_costs y ++ [if qlt tiny (needed d) then failure_cost else marginal d])
                            (y_hydro y ++ [hydro d]))).
(** core.py:134-146: empty stocks *)
Definition year_start : year := mkyear (fun _ => 0%Q) 0 [] [].
Fixpoint simulate (y : year) (ws : list weather) : result year :=
  match ws with [] => Ok y | w :: ws' => bind (time_step y w) (fun y' => simulate y' ws') end.

(** core.py:151-167: the consumption, given the base consumption and the noise of each step *)
Fixpoint consumptions (back_to_normal : Q) (previous : option Q) (l : list (Q * Q)) : list Q :=
  match l with
  | [] => []
  | (base, noise) :: l' =>
      let c := match previous with
               | None => base
               | Some c => qmax 0 (c + noise + back_to_normal * (base - c))
               end in
      c :: consumptions back_to_normal (Some c) l'
  end.
End Year.

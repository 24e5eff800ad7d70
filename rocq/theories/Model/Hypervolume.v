(** nevergrad/optimization/multiobjective/hypervolume.py. Numbers are exact rationals. Nodes are numbered by the position of their point. The doubly linked
    list of each dimension is modelled by the list of the nodes met by following it; nodes are put back (as the code requires) next to the
    neighbours they had when they were removed, hence at their place in the sorted list. *)
From Coq Require Import QArith Bool List.
From Verif.Model Require Import Prelude MultiValue Nsga2.
Import ListNotations.
Open Scope nat_scope.

(** hypervolume.py:32-41, 76-78, 187-191: the chains, the bounds ([None] is minus infinity), and for each node its area, volume and flag *)
Record hstate : Type := HS { h_chains : list (list nat); h_bounds : list (option Q); h_area : nat -> nat -> Q; h_volume : nat -> nat -> Q; h_flag : nat -> nat }.
Definition set2 {A} (f : nat -> nat -> A) (x i : nat) (v : A) : nat -> nat -> A := fun y j => if Nat.eqb y x && Nat.eqb j i then v else f y j.
Definition set1 {A} (f : nat -> A) (x : nat) (v : A) : nat -> A := fun y => if Nat.eqb y x then v else f y.
Definition with_chains c st := HS c (h_bounds st) (h_area st) (h_volume st) (h_flag st).
Definition with_bounds b st := HS (h_chains st) b (h_area st) (h_volume st) (h_flag st).
Definition with_area a st := HS (h_chains st) (h_bounds st) a (h_volume st) (h_flag st).
Definition with_volume v st := HS (h_chains st) (h_bounds st) (h_area st) v (h_flag st).
Definition with_flag f st := HS (h_chains st) (h_bounds st) (h_area st) (h_volume st) f.
Definition chain (st : hstate) (i : nat) : list nat := at_ (h_chains st) i [].
Definition chain_length (st : hstate) (i : nat) : nat := length (chain st i).

(** comparisons with a bound *)
Definition above (b : option Q) (q : Q) : bool := match b with None => true | Some b => qlt b q end.
Definition at_least (b : option Q) (q : Q) : bool := match b with None => true | Some b => qle b q end.
Definition bound_above (b : option Q) (q : Q) : bool := match b with None => false | Some b => qlt q b end.

Section Points.
(** the points, relative to the reference *)
Variable points : list (list Q).
Definition coord (i x : nat) : Q := at_ (at_ points x []) i 0%Q.
(** hypervolume.py:81-96 [sort_by_index], [create_sorted] *)
Definition sorted_by (i : nat) : list nat := stable_sort (fun x y => qle (coord i x) (coord i y)) (seq 0 (length points)).
(** hypervolume.py:62-70, 131-137 *)
Definition unlink (x : nat) (l : list nat) : list nat := filter (fun y => negb (Nat.eqb y x)) l.
Definition pop (x index : nat) (st : hstate) : hstate :=
  with_chains (map (fun i => if Nat.ltb i index then unlink x (chain st i) else chain st i) (seq 0 (length (h_chains st)))) st.
(** hypervolume.py:139-148 *)
Definition relink (i x : nat) (l : list nat) : list nat := filter (fun y => Nat.eqb y x || existsb (Nat.eqb y) l) (sorted_by i).
Definition reinsert (x index : nat) (st : hstate) : hstate :=
  with_chains (map (fun i => if Nat.ltb i index then relink i x (chain st i) else chain st i) (seq 0 (length (h_chains st)))) st.
(** hypervolume.py:125-129 *)
Definition update_bounds (x index : nat) (st : hstate) : hstate :=
  with_bounds (map (fun i => let b := at_ (h_bounds st) i None in if Nat.ltb i index && bound_above b (coord i x) then Some (coord i x) else b) (seq 0 (length (h_bounds st)))) st.
(** hypervolume.py:50-52: area[0] = 1, area[i + 1] = - area[i] * coordinate i for i < dimension (the list is built from the values before the assignment) *)
Definition configure_area (x dimension : nat) (st : hstate) : hstate :=
  let area := set2 (h_area st) x 0 1%Q in
  with_area (fun y j => if Nat.eqb y x && Nat.ltb 0 j && Nat.leb j dimension then (- area x (pred j) * coord (pred j) x)%Q else area y j) st.

(** hypervolume.py:206-220; [l] is the chain of dimension 1 from [x] on *)
Fixpoint plane_loop (h hypervolume : Q) (x : nat) (l : list nat) : Q :=
  match l with
  | [] => (hypervolume + h * coord 1 x)%Q
  | y :: l' => plane_loop (qmin h (coord 0 y)) (hypervolume + h * (coord 1 x - coord 1 y))%Q y l'
  end.
Definition plane (st : hstate) : result Q := match chain st 1 with [] => Err IndexError | x :: l => Ok (plane_loop (coord 0 x) 0 x l) end.

(** the area, of the sentinel for [None] *)
Definition area_of (st : hstate) (x : option nat) (i : nat) : Q := match x with Some x => h_area st x i | None => 0%Q end.
(** hypervolume.py:239-256: the nodes from the last; returns the current node and the one before *)
Fixpoint pop_loop (dimension : nat) (nodes : list nat) (st : hstate) : result (option (nat * option nat) * hstate) :=
  match nodes with
  | [] => Ok (None, st)
  | x :: rest =>
      let previous := hd_error rest in
      bind (if Nat.ltb 1 (chain_length st (dimension - 1)) then
              if above (at_ (h_bounds st) dimension None) (coord dimension x) then Ok true
              else match previous with Some y => Ok (at_least (at_ (h_bounds st) dimension None) (coord dimension y)) | None => Err IndexError end
            else Ok false) (fun removed =>
      if removed : bool then
        bind (pop_loop dimension rest (pop x dimension (update_bounds x dimension st))) (fun r =>
        Ok (match fst r with None => Some (x, previous) | Some c => Some c end, snd r))
      else Ok (Some (x, previous), st))
  end.
(** hypervolume.py:304-311; [rec] is the computation of the dimension below *)
Definition skip_dominated (rec : hstate -> result (Q * hstate)) (dimension x : nat) (previous : option nat) (st : hstate) : result hstate :=
  if Nat.leb dimension (h_flag st x) then Ok (with_area (set2 (h_area st) x dimension (area_of st previous dimension)) st)
  else
    bind (rec st) (fun r =>
    let st := with_area (set2 (h_area (snd r)) x dimension (fst r)) (snd r) in
    Ok (if qle (h_area st x dimension) (area_of st previous dimension) then with_flag (set1 (h_flag st) x dimension) st else st)).
(** hypervolume.py:276-297 *)
Fixpoint sweep (rec : hstate -> result (Q * hstate)) (dimension : nat) (hypervolume : Q) (previous : nat) (nodes : list nat) (st : hstate) : result (Q * hstate) :=
  match nodes with
  | [] => Ok (hypervolume, st)
  | x :: rest =>
      let hypervolume := (hypervolume + h_area st previous dimension * (coord dimension x - coord dimension previous))%Q in
      let st := with_bounds (update dimension (fun _ => Some (coord dimension x)) (h_bounds st)) st in
      let st := reinsert x dimension (update_bounds x dimension st) in
      let st := with_volume (set2 (h_volume st) x dimension hypervolume) st in
      bind (skip_dominated rec dimension x (Some previous) st) (fun st => sweep rec dimension hypervolume x rest st)
  end.
Fixpoint after (x : nat) (l : list nat) : list nat := match l with [] => [] | y :: l' => if Nat.eqb y x then l' else after x l' end.
(** hypervolume.py:233-302 *)
Definition level (rec : hstate -> result (Q * hstate)) (dimension : nat) (st : hstate) : result (Q * hstate) :=
  let nodes := chain st dimension in
  let st := with_flag (fun x => if existsb (Nat.eqb x) nodes && Nat.ltb (h_flag st x) dimension then 0 else h_flag st x) st in
  bind (pop_loop dimension (rev nodes) st) (fun r =>
  match r with
  | (None, _) => Err AttributeError
  | (Some (current, previous), st) =>
      bind (if Nat.ltb 1 (chain_length st (dimension - 1)) then
              match previous with
              | Some y => Ok ((h_volume st y dimension + h_area st y dimension * (coord dimension current - coord dimension y))%Q, st)
              | None => Err IndexError
              end
            else Ok (0%Q, configure_area current dimension st)) (fun hs =>
      let hypervolume := fst hs in let st := snd hs in
      let st := with_volume (set2 (h_volume st) current dimension hypervolume) st in
      bind (skip_dominated rec dimension current previous st) (fun st =>
      bind (sweep rec dimension hypervolume current (after current nodes) st) (fun r =>
      let last_node := last nodes current in
      Ok (fst r - h_area (snd r) last_node dimension * coord dimension last_node, snd r)%Q)))
  end).
(** hypervolume.py:222-302. Dimension 0 is only reached with one coordinate, where the chain at index -1 is the only one. *)
Fixpoint recursive (dimension : nat) (st : hstate) : result (Q * hstate) :=
  if Nat.eqb (chain_length st (dimension - 1)) 0 then Ok (0%Q, st)
  else
    match dimension with
    | O => match chain st 0 with x :: _ => Ok (- coord 0 x, st)%Q | [] => Err IndexError end
    | S lower =>
        match lower with
        | O => bind (plane st) (fun q => Ok (q, st))
        | S _ => level (recursive lower) dimension st
        end
    end.
Definition initial (d : nat) : hstate := HS (map sorted_by (seq 0 d)) (repeat None d) (fun _ _ => 0%Q) (fun _ _ => 0%Q) (fun _ => 0).
End Points.

(** hypervolume.py:198-204 [compute] on a list of points with as many coordinates as the reference. An empty list minus an array is an error, unless the array has
    one element. *)
Definition minus (a b : list Q) : list Q := map (fun xy => (fst xy - snd xy)%Q) (combine a b).
Definition compute (reference : list Q) (points : list (list Q)) : result Q :=
  match length reference, points with
  | O, _ => Err IndexError
  | S (S _), [] => Err ValueError
  | S top, _ =>
      let shifted := map (fun p => minus p reference) points in
      bind (recursive shifted top (initial shifted (S top))) (fun r => Ok (fst r))
  end.

(** The volume of a union of boxes with a common corner. *)
From Coq Require Import QArith List Qminmax.
Import ListNotations.
Open Scope Q_scope.

(** the volume of the box between a point and the reference (with as many coordinates) *)
Fixpoint box (reference p : list Q) : Q :=
  match reference, p with r :: reference', x :: p' => (r - x) * box reference' p' | _, _ => 1 end.
(** the box of [join p q] is the intersection of those of [p] and [q] *)
Definition join (p q : list Q) : list Q := map (fun xy => Qmax (fst xy) (snd xy)) (combine p q).
(** the volume of the part of the box of [m] in the union of the boxes of the points, by inclusion and exclusion *)
Fixpoint covered (reference m : list Q) (points : list (list Q)) : Q :=
  match points with
  | [] => 0
  | p :: rest => box reference (join m p) + covered reference m rest - covered reference (join m p) rest
  end.
(** the volume of the union of the boxes of the points *)
Fixpoint union_volume (reference : list Q) (points : list (list Q)) : Q :=
  match points with
  | [] => 0
  | p :: rest => box reference p + union_volume reference rest - covered reference p rest
  end.

(** Each coordinate of the points is at most that of the reference. *)
Definition below (reference : list Q) (points : list (list Q)) : Prop := forall p, In p points -> Forall2 Qle p reference.

(** A grid: for each coordinate a list of places in increasing order, the last before the reference. Its cells, by lower corner and volume: *)
Fixpoint steps (places : list Q) (stop : Q) : list (Q * Q) :=
  match places with [] => [] | a :: rest => (a, (match rest with [] => stop | b :: _ => b end) - a) :: steps rest stop end.
Fixpoint cells (grid : list (list Q)) (reference : list Q) : list (list Q * Q) :=
  match grid, reference with
  | places :: grid', r :: reference' => flat_map (fun s => map (fun c => (fst s :: fst c, snd s * snd c)) (cells grid' reference')) (steps places r)
  | _, _ => [([], 1)]
  end.
(** the volume of the cells that are in the box of one of the points *)
Definition dominatedb (points : list (list Q)) (corner : list Q) : bool :=
  existsb (fun p => forallb (fun xy => Qle_bool (fst xy) (snd xy)) (combine p corner)) points.
Definition cell_volume (grid : list (list Q)) (reference : list Q) (points : list (list Q)) : Q :=
  fold_right (fun c s => snd c + s) 0 (filter (fun c => dominatedb points (fst c)) (cells grid reference)).
(** With four objectives or more: every objective but the last is better than in the reference, and no two points agree in the third objective, ..., or the last but one. *)
Definition no_tie (reference : list Q) (points : list (list Q)) : Prop :=
  (forall p i, In p points -> (S i < length reference)%nat -> nth i p 0 < nth i reference 0) /\
  (forall x y p q i, nth_error points x = Some p -> nth_error points y = Some q -> x <> y -> (2 <= i)%nat -> (S i < length reference)%nat -> ~ nth i p 0 == nth i q 0).

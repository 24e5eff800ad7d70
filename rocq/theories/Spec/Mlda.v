(** Vocabulary for tours, clusters and landscapes. *)
From Coq Require Import List Arith ZArith QArith Permutation Sorted.
From Verif.Model Require Import MultiValue Planning Mlda.
Import ListNotations.
Open Scope nat_scope.

(** what [np.argsort] promises: the indices, along which the keys do not decrease *)
Definition key (x : list Q) (i : nat) : Q := nth i x 0%Q.
Definition sorts (x : list Q) (order : list nat) : Prop :=
  Permutation order (seq 0 (length x)) /\ StronglySorted (fun i j => (key x i <= key x j)%Q) order.
(** the length of a closed tour: from each city to the one after it, the first one following the last one *)
Definition tour_length (dist : nat -> nat -> Q) (tour : list nat) : Q :=
  qsum (map (fun i => dist (nth i tour 0) (nth (S i mod length tour) tour 0)) (seq 0 (length tour))).
Definition distinct (x : list Q) : Prop :=
  forall i j, i < length x -> j < length x -> (key x i == key x j)%Q -> i = j.
(** the cost of assigning each point to one of the centers *)
Definition assignment (points centers : list (list Q)) (f : list nat) : Prop :=
  length f = length points /\ Forall (fun c => c < length centers) f.
Definition assigned_cost (points centers : list (list Q)) (f : list nat) : Q :=
  qsum (map (fun pc => sqdist (fst pc) (nth (snd pc) centers [])) (combine points f)).
(** points with the same coordinates *)
Definition same_point (a b : list Q) : Prop := Forall2 Qeq a b.
(** an image of the given size *)
Definition sized (image : list (list Q)) (rows columns : nat) : Prop :=
  length image = rows /\ Forall (fun r => length r = columns) image.
(** the pixel of a coordinate: the nearest, the even one in the middle *)
Definition nearest (x : Q) (i : nat) : Prop :=
  (qnat i - (1 # 2) < x < qnat i + (1 # 2))%Q
  \/ (Nat.even i = true /\ (x == qnat i - (1 # 2) \/ x == qnat i + (1 # 2))%Q).

(** Vocabulary for non-dominated ranking. *)
From Coq Require Import QArith List Arith Sorting.
From Verif.Model Require Import Nsga2.
Import ListNotations.
Open Scope nat_scope.

(** The fronts of candidates 0 .. n-1 for the relation [beats]: those beaten by none, those beaten only by these, and so on. Candidates
    in no front are all beaten by another such. *)
Record fronts_of (n : nat) (beats : nat -> nat -> Prop) (fronts : list (list nat)) : Prop := {
  once : NoDup (concat fronts);
  not_empty : Forall (fun f => f <> []) fronts;
  candidates_only : forall i, In i (concat fronts) -> i < n;
  beaten_by_earlier : forall f i j, In i (nth f fronts []) -> j < n -> beats j i -> exists g, g < f /\ In j (nth g fronts []);
  beaten_by_previous : forall f i, In i (nth (S f) fronts []) -> exists j, In j (nth f fronts []) /\ beats j i;
  remaining_beaten : forall i, i < n -> ~ In i (concat fronts) -> exists j, j < n /\ ~ In j (concat fronts) /\ beats j i }.

Definition losses_at (pop : list (list Q)) (i : nat) : list Q := nth i pop [].
(** [s] has the candidates of the front by increasing i-th loss *)
Definition ordered (pop : list (list Q)) (front s : list nat) (i : nat) : Prop :=
  Permutation.Permutation s front /\ StronglySorted (fun c c' => (nth i (losses_at pop c) 0 <= nth i (losses_at pop c') 0)%Q) s.
(** [c] is first or last *)
Definition extreme (s : list nat) (c : nat) : Prop := exists r, s = c :: r \/ s = r ++ [c].
(** the difference of the i-th losses of the neighbours of [c], relative to that of the last and first *)
Definition gap (pop : list (list Q)) (s : list nat) (i c : nat) (g : Q) : Prop :=
  exists pre x y post a z, s = pre ++ x :: c :: y :: post /\ hd_error s = Some a /\ hd_error (rev s) = Some z /\
    (g * (nth i (losses_at pop z) 0 - nth i (losses_at pop a) 0) == nth i (losses_at pop y) 0 - nth i (losses_at pop x) 0)%Q /\
    (nth i (losses_at pop z) 0 == nth i (losses_at pop a) 0 -> g == 0)%Q.
Definition qsum (l : list Q) : Q := fold_right Qplus 0%Q l.
(** Crowding distances: for some orders of the front by each of the [d] losses, infinite for the candidates at an end of one of them,
    otherwise the sum of the gaps. *)
Definition crowding (pop : list (list Q)) (d : nat) (front : list nat) (D : nat -> dist) : Prop :=
  exists orders : nat -> list nat, (forall i, i < d -> ordered pop front (orders i) i) /\
    forall c, In c front ->
      (D c = Inf <-> exists i, i < d /\ extreme (orders i) c) /\
      (forall q, D c = Fin q -> exists gaps, length gaps = d /\ (q == qsum gaps)%Q /\ forall i, i < d -> gap pop (orders i) i c (nth i gaps 0%Q)).
(** the candidates, ranks, fronts and distances of the result of rank *)
Definition e_cand (e : entry) : nat := fst e.
Definition e_rank (e : entry) : nat := fst (fst (snd e)).
Definition e_front (e : entry) : nat := snd (fst (snd e)).
Definition e_dist (e : entry) : dist := snd (snd e).
Definition dle (a b : dist) : Prop := match a, b with _, Inf => True | Inf, Fin _ => False | Fin x, Fin y => (x <= y)%Q end.

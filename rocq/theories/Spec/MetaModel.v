(** Vocabulary for the proposals of a metamodel *)
From Coq Require Import List Arith QArith Permutation Sorted.
From Verif.Model Require Import Prelude MultiValue MetaModel.
From Verif.Spec Require Import Spsa Cma.
Import ListNotations.
Open Scope nat_scope.

(** square of the Euclidean distance *)
Fixpoint dist2 (a b : list Q) : Q :=
  match a, b with x :: a, y :: b => ((x - y) * (x - y) + dist2 a b)%Q | _, _ => 0%Q end.
(** [rank] lists the positions of [y] by increasing values *)
Definition sorting (argsort : list Q -> list nat) : Prop :=
  forall y, Permutation (argsort y) (seq 0 (length y)) /\
    StronglySorted (fun i j => (nth i y 0 <= nth j y 0)%Q) (argsort y).
(** a point seen from [middle] at the scale [nrm] *)
Definition seen (middle : list Q) (nrm : Q) (x z : list Q) : Prop :=
  length z = length x /\ forall i u m w, nth_error x i = Some u -> nth_error middle i = Some m -> nth_error z i = Some w ->
    (w * nrm == u - m)%Q.
(** the best of the [k] best, and the worst of them *)
Definition extremes (best : list item) (first worst : item) : Prop :=
  In first best /\ In worst best /\ forall b, In b best -> (i_average first <= i_average b /\ i_average b <= i_average worst)%Q.

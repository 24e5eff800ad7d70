(** Vocabulary for the adaptation of the (1+1) optimizers. *)
From Coq Require Import Arith ZArith QArith Bool List.
From Verif.Model Require Import Prelude MultiValue OnePlusOne.
Import ListNotations.
Open Scope nat_scope.

(** number of losses smaller than all the earlier ones, and of losses larger than an earlier one *)
Definition records (ls : list Q) : nat :=
  length (filter (fun i => forallb (fun y => qlt (nth i ls 0%Q) y) (firstn i ls)) (seq 0 (length ls))).
Definition setbacks (ls : list Q) : nat :=
  length (filter (fun i => existsb (fun y => qlt y (nth i ls 0%Q)) (firstn i ls)) (seq 0 (length ls))).
(** [m] is the smallest number of [l] *)
Definition is_min (m : Q) (l : list Q) : Prop := (exists y, In y l /\ y == m)%Q /\ forall y, In y l -> (m <= y)%Q.
(** the best mean reported at each tell is the smallest loss told so far: no noise, no point told twice *)
Definition noise_free (ts : list told) : Prop :=
  forall i t, nth_error ts i = Some t -> is_min (t_best t) (map t_loss (firstn (S i) ts)).
(** [r]: the mutation rate of the first of the best tells of [w] *)
Definition rate_of_best (w : list told) (r : Q) : Prop :=
  exists i t, nth_error w i = Some t /\ t_rate t = r /\
    forall j t', nth_error w j = Some t' -> (t_loss t <= t_loss t')%Q /\ (j < i -> (t_loss t < t_loss t')%Q).

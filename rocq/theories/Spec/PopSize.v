(** Vocabulary about the population sizes of TBPSA and EDA. *)
From Coq Require Import List Arith ZArith QArith Reals Qreals Permutation.
From Verif.Model Require Import Prelude MultiValue PopSize Tbpsa.
Import ListNotations.
Open Scope nat_scope.

(** The sizes are coherent: there are at most a quarter of parents, at least as many children
    as workers, at least the minimal number of parents, and the record of losses is too short
    for a new test. *)
Definition sizes_ok (mu0 dimension workers : nat) (s : popsize) : Prop :=
  4 * ps_mu s <= ps_lambda s /\ workers <= ps_lambda s /\
  Nat.min mu0 dimension <= ps_mu s /\ length (ps_record s) < 5 * ps_lambda s.

(** The statistic of the test: the decrease of the mean loss between two samples of [n]
    losses, divided by its standard error. *)
Definition std_error (n : nat) (l : list Q) : R := (sqrt (Q2R (qvar l)) / sqrt (INR n - 1))%R.
Definition z_value (n : nat) (first last : list Q) : R :=
  ((Q2R (qmean first) - Q2R (qmean last)) /
   sqrt (std_error n first * std_error n first + std_error n last * std_error n last))%R.

(** [best] are [mu] of the [children], none being worse than those left *)
Definition mu_best (mu : nat) (children best : list child) : Prop :=
  length best = mu /\
  exists rest, Permutation children (best ++ rest) /\
    forall b r, In b best -> In r rest -> (ch_loss b <= ch_loss r)%Q.

(** [c] is, coordinate by coordinate, the mean of the data of these children *)
Definition is_mean (l : list child) (c : vec) : Prop :=
  forall i, (INR (length l) * c i = rsum (map (fun x => cd_data (ch_cand x) i) l))%R.

(** The user only tells candidates which were asked, and none came from the constraint solver *)
Definition plain_op (o : tb_op) : Prop :=
  match o with TAsk _ _ | TTell _ _ _ => True | _ => False end.

(** The operations which cannot bring the step size to zero: no candidate comes from the
    constraint solver, and a point told without having been asked is not the current centre *)
Definition moving_op (dimension : nat) (s : tbpsa) (o : tb_op) : Prop :=
  match o with
  | TAsk _ _ | TTell _ _ _ => True
  | TAskSolved _ => False
  | TInject d _ _ => exists i, i < dimension /\ d i <> tb_center s i
  end.
Inductive moving_reach (dimension : nat) (s0 : tbpsa) : tbpsa -> Prop :=
| moving_start : moving_reach dimension s0 s0
| moving_step s o : moving_reach dimension s0 s -> moving_op dimension s o ->
    moving_reach dimension s0 (fst (tb_step dimension s o)).

(** A symmetric matrix whose quadratic form is never negative (on the first [n] coordinates) *)
Definition symmetric (m : mat) : Prop := forall i j, m i j = m j i.
Definition psd (n : nat) (m : mat) : Prop :=
  forall v : vec, (0 <= vsum n (fun i => vsum n (fun j => v i * m i j * v j)))%R.

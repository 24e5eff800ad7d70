(** Vocabulary for the choice of an optimizer *)
From Coq Require Import List Arith ZArith Bool.
From Verif.Model Require Import Prelude Select.
Import ListNotations.
Open Scope nat_scope.

(** A problem with a budget, at least one variable and one worker *)
Definition usable (i : info) : Prop :=
  (exists b, i_budget i = Some b /\ 1 <= b) /\ 1 <= i_dim i /\ 1 <= i_workers i.

(** Optimizers which can only be used one point at a time *)
Definition one_at_a_time (a : algo) : Prop := In a [ACobyla; ASQP; APowell; ACmaFmin2; ADSproba; ARBFGS; ASbplx].

(** The optimizers whose iterations are done by the package cma, or by the package fcmaes in dimension 1 *)
Definition cma_es (a : algo) : Prop :=
  In a [AOldCMA; ACMAbounded; ACMAtuning; ACMAsmall; ACMApara; ACMAstd; ADiagonalCMA; AElitistCMA;
        AVLPCMA; ALPCMA; ACMAinit].

(** [l]: the optimizers at work, with their numbers of workers, for a problem with [nw] workers *)
Definition sound (nw : nat) (l : list (algo * nat)) : Prop :=
  l <> [] /\ forall a w, In (a, w) l -> 1 <= w <= nw /\ (one_at_a_time a -> w = 1).

(** Optimizers which evaluate points again before trusting them *)
Definition reevaluates (a : algo) : Prop :=
  In a [AOptimisticNoisy; AOptimisticDiscrete; AOptimistic true; AOptimistic false].

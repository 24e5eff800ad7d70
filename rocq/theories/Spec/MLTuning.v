(** What is expected of the tuning of a learner: candidates, learners which forget, errors of folds. *)
From Coq Require Import Bool Arith List String ZArith QArith.
From Verif Require Import Model.Prelude Model.Planning Model.MLTuning.
Import ListNotations.
Open Scope nat_scope.
Open Scope list_scope.

(** keywords given by a candidate: exactly the keys of the parametrization, with its constant regressor *)
Definition candidate (regressor : string) (keys : list string) (kw : dict) : Prop :=
  (forall k, get kw k <> None <-> In k keys) /\
  (forall v, get kw "regressor" = Some v -> regressor <> "any"%string -> v = VStr regressor).

(** states of a learner after any number of fits *)
Inductive fitted {St : Type} (create : learner -> St) (fit : St -> list row -> list Q -> result St) (l : learner)
  : St -> Prop :=
| fitted_new : fitted create fit l (create l)
| fitted_fit s x y s' : fitted create fit l s -> fit s x y = Ok s' -> fitted create fit l s'.
(** fitting forgets what was learnt before *)
Definition forgets {St : Type} (create : learner -> St) (fit : St -> list row -> list Q -> result St) : Prop :=
  forall l s x y, fitted create fit l s -> fit s x y = fit (create l) x y.

(** the error on a fold of a learner created for this fold: what mean_squared_error gives, 5e20 if it raises ValueError *)
Definition fold_error {St : Type} (create : learner -> St) (fit : St -> list row -> list Q -> result St)
  (predict : St -> list row -> result (list Q)) (mse : list Q -> list Q -> result Q) (l : learner) (fo : fold) (e : Q) : Prop :=
  exists s pr, fit (create l) (f_x fo) (f_y fo) = Ok s /\ predict s (f_vx fo) = Ok pr /\
    (mse (f_vy fo) pr = Ok e \/ mse (f_vy fo) pr = Err ValueError /\ e = inject_Z 500000000000000000000).

(** the sum of a function on the coordinates of each point *)
Definition sums (f : Q -> Q) (x : list (list Q)) (y : list Q) : Prop :=
  Forall2 (fun r s => s = fold_right Qplus 0%Q (map f r)) x y.

(** Model of the optimizers which run a minimization function of a library in a thread, and run it again while there is some
    budget left: [_NonObjectMinimizeBase._optimization_function] (nevergrad/optimization/recastlib.py:88-482). The library is
    any function; the exchanges with its thread are in Model/Recast.v. Losses are finite and exact. *)
From Coq Require Import List Arith QArith Bool.
From Verif.Model Require Import Prelude MultiValue.
Import ListNotations.
Open Scope nat_scope.

Section Restarts.
  (** points of the standardized space *)
  Context {X : Type}.
  (** How the methods differ:
      - [KeepBest]: the ones of scipy, and BOBYQA (recastlib.py:111-117, 465-479);
      - [DirectSearch]: DS and PDS (:118-144), without normalizer (:67-79);
      - [UnitCube]: NLOPT, AX and SMAC3 (:145-196, 249-327), which work in the unit cube (after its
        first run SMAC3 declares its budget as spent, :327: it has no other run);
      - [Pysot] (:197-247; its variant which negates the losses is left out), in the unit cube too;
      - [Fmin bounded]: CmaFmin2 in dimension at least 2 (:425-464), in the unit cube if the parameter is fully bounded. *)
  Inductive family : Type := KeepBest | DirectSearch | UnitCube | Pysot | Fmin (bounded : bool).
  (** One run of the library: the points it evaluates, in its own space, and the point and value it returns. *)
  Record run : Type := { points : list X; found : X; value : Q }.
  (** [self._normalizer.backward] *)
  Variable back : X -> X.
  (** The [k]-th run; most methods start at [best_x], the others at a fixed or random point. *)
  Variable lib : nat -> X -> run.
  Variable meth : family.
  (** the point which is asked when the library evaluates [x]: recastlib.py:102-106, 171-173, 209-214, 302, 428-432 *)
  Definition asked (x : X) : X :=
    match meth with
    | KeepBest | DirectSearch => x
    | UnitCube | Pysot => back x
    | Fmin bounded => if bounded then back x else x
    end.
  (** [best_res] ([None] is inf) and [best_x] after a run: recastlib.py:115-117, 128-130, 136-144, 155-156, 190-196, 246-247, 323-324, 459-463, 477-479 *)
  Definition after (r : run) (b : option Q * X) : option Q * X :=
    let better := match fst b with None => true | Some y => qlt (value r) y end in
    match meth with
    | KeepBest => if better then (Some (value r), found r) else b
    | DirectSearch => (fst b, found r)
    | UnitCube => (fst b, back (found r))
    | Pysot => (Some (value r), found r)
    | Fmin _ => if better then (Some (value r), back (found r)) else b
    end.
  (** The thread returned a point, or waits for the loss of a point; with all the points asked so far. *)
  Inductive outcome : Type := Finished (x : X) (evaluated : list X) | Waiting (evaluated : list X) | Endless.
  (** [budget]: recastlib.py:94, [None] is inf. [others]: candidates which were asked without the library (suggestions).
      [user]: how many losses are told for the points of the library. [num_ask] is the number of asked candidates when
      a run ends (:480), since the library waits for the losses; CmaFmin2 counts the evaluations of its runs instead (:441-464),
      which is the same when there are no [others]. *)
  Variables (budget : option nat) (others user : nat).
  Definition remains (evaluations : nat) : bool := match budget with None => true | Some b => others + evaluations <? b end.
  Fixpoint restarts (fuel k : nat) (b : option Q * X) (evaluated : list X) : outcome :=
    if remains (length evaluated) then
      match fuel with
      | O => Endless
      | S fuel => let r := lib k (snd b) in
                  let evaluated := evaluated ++ map asked (points r) in
                  if user <? length evaluated then Waiting (firstn (S user) evaluated) else restarts fuel (S k) (after r b) evaluated
      end
    else Finished (snd b) evaluated.
  (** recaster.py:191-198 [_internal_provide_recommendation]: the output of the thread; [None] is the default rule of
      base.py:585-587 (the best candidate so far). [start]: recastlib.py:96-98 *)
  Definition recommended (fuel : nat) (start : X) : option X :=
    match restarts fuel 0 (None, start) [] with Finished x _ => Some x | _ => None end.
End Restarts.
Arguments run X : clear implicits.
Arguments outcome X : clear implicits.

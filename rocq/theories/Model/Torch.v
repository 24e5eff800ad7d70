(** Model of [TorchOptimizer] (nevergrad/optimization/helpers.py:25-82). Numbers are exact rationals; the optimizer is any
    machine which asks and is told, and the rounding to 32 bits is given. An array is the list of its values. Simplified:
    the candidates have the shapes of the parameters, as those of [ng.p.Tuple] of arrays. *)
From Coq Require Import Arith QArith Bool List.
From Verif.Model Require Import Prelude MultiValue.
Import ListNotations.
Open Scope nat_scope.

(** the arrays of a module *)
Definition weights : Type := list (list Q).

Section Torch.
(** the optimizer: its states, what it asks (the raw data of the candidate, before the bounds), what it does when it is told *)
Context {S : Type} (ask : S -> S * weights) (tell : S -> weights -> Q -> S).
Variable f32 : Q -> Q.  (* data.astype(np.float32) *)
Variable bound : Q.

(** set_bounds(-bound, bound, method="clipping") *)
Definition clip (x : Q) : Q := qmin (qmax x (- bound)) bound.
Definition value (c : weights) : weights := map (map clip) c.
Definition inside (x : Q) : bool := qle (- bound) x && qle x bound.

Record torch := mktorch { t_module : weights; t_optimizer : S; t_candidate : weights }.
(** helpers.py:54-71: the bounds must be in order and the parameters within them; a first candidate is asked *)
Definition torch_init (parameters : weights) (optimizer : S) : result torch :=
  if qle bound (- bound) then Err ValueError
  else if forallb (forallb inside) parameters
  then let (s, c) := ask optimizer in Ok (mktorch parameters s c)
  else Err ValueError.
(** helpers.py:73-76: [zip] stops at the shortest *)
Fixpoint set_candidate (module candidate : weights) : weights :=
  match module, candidate with
  | _ :: m, data :: c => map f32 data :: set_candidate m c
  | m, _ => m
  end.
(** helpers.py:78-81 *)
Definition torch_step (loss : Q) (t : torch) : torch :=
  let s := tell (t_optimizer t) (t_candidate t) loss in
  let (s, c) := ask s in
  mktorch (set_candidate (t_module t) (value c)) s c.
(** The loop of the documentation (helpers.py:43-49): each batch gives a loss of the module. Second, what the optimizer is
    told, in order. *)
Fixpoint train (batches : list (weights -> Q)) (t : torch) : torch * list (weights * Q) :=
  match batches with
  | [] => (t, [])
  | b :: batches' =>
      let loss := b (t_module t) in
      let (t', told) := train batches' (torch_step loss t) in
      (t', (t_candidate t, loss) :: told)
  end.
End Torch.
Arguments torch : clear implicits.

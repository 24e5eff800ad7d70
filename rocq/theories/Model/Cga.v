(** Model of [cGA] (nevergrad/optimization/optimizerlib.py:3572-3631), with exact arithmetic.  A candidate is told by the
    values of its variables, [threshold_discretization(data, arity)] (Model/Discretization.v), between 0 and arity - 1. *)
From Coq Require Import List Arith QArith Bool.
From Verif.Model Require Import Prelude MultiValue.
Import ListNotations.
Open Scope nat_scope.

Fixpoint qtotal (l : list Q) : Q := match l with [] => 0%Q | x :: l => (x + qtotal l)%Q end.
Fixpoint upd (i : nat) (f : Q -> Q) (l : list Q) : list Q :=
  match l, i with
  | [], _ => []
  | x :: l, 0 => f x :: l
  | x :: l, S i => x :: upd i f l
  end.

(** [cg_prev]: [_previous_value_candidate], the loss and the values *)
Record cga : Type := Cga { cg_p : list (list Q); cg_prev : option (Q * list nat) }.

(** optimizerlib.py:3596-3600: uniform probabilities; the increments are 1 / llambda *)
Definition cga_init (dimension arity : nat) : cga := Cga (repeat (repeat (1 / qnat arity)%Q arity) dimension) None.
Definition llambda (num_workers : nat) : nat := Nat.max num_workers 40.

(** optimizerlib.py:3624-3629, one variable *)
Definition row_update (lam w l : nat) (row : list Q) : list Q :=
  if w =? l then row else
  let row := upd w (fun x => x + 1 / qnat lam)%Q row in
  let row := upd l (fun x => x - 1 / qnat lam)%Q row in
  let row := map (fun x => qmax x (1 / qnat lam)) row in
  map (fun x => x / qtotal row)%Q row.
Fixpoint rows_update (lam : nat) (ws ls : list nat) (p : list (list Q)) : list (list Q) :=
  match ws, ls, p with
  | w :: ws, l :: ls, row :: p => row_update lam w l row :: rows_update lam ws ls p
  | _, _, _ => p
  end.

(** optimizerlib.py:3613-3630 [_internal_tell_candidate] *)
Definition cga_tell (lam : nat) (loss : Q) (vals : list nat) (s : cga) : cga :=
  match cg_prev s with
  | None => Cga (cg_p s) (Some (loss, vals))
  | Some (prev_loss, prev) =>
      let (winner, loser) := if qlt loss prev_loss then (vals, prev) else (prev, vals) in
      Cga (rows_update lam winner loser (cg_p s)) None
  end.
Definition cga_run (lam : nat) (tells : list (Q * list nat)) (s : cga) : cga :=
  fold_left (fun s t => cga_tell lam (fst t) (snd t) s) tells s.

(** optimizerlib.py:3607-3609: [np.cumsum(row)], and the number of sums below the draw *)
Fixpoint cumsum (acc : Q) (row : list Q) : list Q :=
  match row with [] => [] | x :: row => (acc + x)%Q :: cumsum (acc + x)%Q row end.
Definition draw_value (u : Q) (row : list Q) : nat := length (filter (fun c => qlt c u) (cumsum 0 row)).
Definition cga_ask (us : list Q) (s : cga) : list nat := map (fun ur => draw_value (fst ur) (snd ur)) (combine us (cg_p s)).

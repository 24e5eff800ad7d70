(** Vocabulary for the search of a point satisfying constraints *)
From Coq Require Import List QArith.
From Verif.Model Require Import Solver.
Import ListNotations.

(** a constraint is satisfied by a true answer, or by a margin which is not negative *)
Definition accepts (a : answer) : Prop := match a with Holds b => b = true | Margin q => (0 <= q)%Q end.
Definition feasible (checkers : list (nat -> answer)) (key : nat) : Prop := forall f, In f checkers -> accepts (f key).
(** how much an answer violates the constraint *)
Definition violation (a : answer) (v : Q) : Prop :=
  match a with Holds true => v == 0 | Holds false => v == 1 | Margin q => (0 <= q /\ v == 0) \/ (q < 0 /\ v == - q) end%Q.
Definition violations (checkers : list (nat -> answer)) (key : nat) (vs : list Q) : Prop := Forall2 (fun f v => violation (f key) v) checkers vs.
Definition sum (vs : list Q) : Q := fold_right Qplus 0%Q vs.

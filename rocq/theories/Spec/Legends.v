(** Vocabulary for the placement of the legends *)
From Coq Require Import List QArith.
Import ListNotations.
Open Scope Q_scope.

(** Each number is at least [d] above the one before *)
Fixpoint apart (d : Q) (l : list Q) : Prop :=
  match l with
  | x :: (y :: _) as l' => x + d <= y /\ apart d l'
  | _ => True
  end.
(** The sum of the squares of the moves *)
Fixpoint moves (l m : list Q) : Q :=
  match l, m with
  | x :: l, y :: m => (x - y) * (x - y) + moves l m
  | _, _ => 0
  end.

(** Vocabulary for the compact genetic algorithm *)
From Coq Require Import List Arith QArith.
From Verif.Model Require Import Prelude MultiValue.
Import ListNotations.
Open Scope nat_scope.

Definition total (l : list Q) : Q := fold_right Qplus 0%Q l.
(** Probabilities of [n] values, none below [low] *)
Definition distribution (n : nat) (low : Q) (row : list Q) : Prop :=
  length row = n /\ (total row == 1)%Q /\ forall x, In x row -> (low <= x)%Q.
(** A tell of a candidate of [d] variables with [n] values each *)
Definition valid_tell (d n : nat) (t : Q * list nat) : Prop := length (snd t) = d /\ forall v, In v (snd t) -> v < n.

(** The first [2 k] tells are compared two by two, in order; a last one waits. *)
Fixpoint pairs {A} (l : list A) : list (A * A) :=
  match l with a :: b :: l => (a, b) :: pairs l | _ => [] end.
(** The better of two, the first one if they are equal, and the other *)
Definition better (t1 t2 : Q * list nat) : (Q * list nat) * (Q * list nat) :=
  if Qlt_le_dec (fst t2) (fst t1) then (t2, t1) else (t1, t2).

(** What a comparison does to the probabilities of one variable: nothing if the two candidates have the same value;
    otherwise the winner's probability gains [step], the loser's loses it, none is left below [step], and the
    probabilities are divided by their sum. *)
Definition compared (step : Q) (w l : nat) (row row' : list Q) : Prop :=
  if Nat.eq_dec w l then row' = row else
  length row' = length row /\ (total row' == 1)%Q /\
  exists s, (1 <= s)%Q /\ forall j x, nth_error row j = Some x -> exists x', nth_error row' j = Some x' /\
    let moved := if Nat.eq_dec j w then (x + step)%Q else if Nat.eq_dec j l then (x - step)%Q else x in
    ((step <= moved -> x' * s == moved) /\ (moved <= step -> x' * s == step))%Q.

(** Between [before] and [after], the rows of all the variables have changed according to one comparison. *)
Definition all_compared (step : Q) (t1 t2 : Q * list nat) (before after : list (list Q)) : Prop :=
  length after = length before /\
  forall i w l row row', nth_error (snd (fst (better t1 t2))) i = Some w -> nth_error (snd (snd (better t1 t2))) i = Some l ->
    nth_error before i = Some row -> nth_error after i = Some row' -> compared step w l row row'.
(** [ps]: the successive probabilities, one list more than comparisons *)
Fixpoint follows (step : Q) (cs : list ((Q * list nat) * (Q * list nat))) (before : list (list Q)) (after : list (list Q)) : Prop :=
  match cs with
  | [] => after = before
  | (t1, t2) :: cs => exists middle, all_compared step t1 t2 before middle /\ follows step cs middle after
  end.

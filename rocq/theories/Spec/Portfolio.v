(** Vocabulary about portfolios. *)
From Coq Require Import List Arith QArith Bool.
From Verif.Model Require Import Prelude Chain Portfolio.
Import ListNotations.
Open Scope nat_scope.

(** the candidates an optimizer proposed *)
Definition pasks (l : list pcall) : list nat := flat_map (fun c => match c with PAsk u _ => [u] | _ => [] end) l.
(** the candidates taken from the portfolio *)
Definition pasked (ops : list pfop) : list nat := flat_map (fun o => match o with FAsk _ u => [u] | _ => [] end) ops.

(** among the candidates [us], taken at turns n, n+1, ..., those of optimizer [i] *)
Fixpoint in_turn (turns : list nat) (n : nat) (us : list nat) (i : nat) : list nat :=
  match us with
  | [] => []
  | u :: us =>
      match nth_error turns (n mod length turns) with
      | Some j => if j =? i then u :: in_turn turns (n + 1) us i else in_turn turns (n + 1) us i
      | None => in_turn turns (n + 1) us i
      end
  end.

(** a / b rounded up *)
Definition rounded_up (a b x : nat) : Prop := a <= b * x < a + b.

(** asks and tells alternate *)
Definition sequential (l : list (option nat * nat * Q)) : list pfop :=
  flat_map (fun x => [FAsk (fst (fst x)) (snd (fst x)); FTell (snd (fst x)) (snd x)]) l.

(** the sub-optimizers only label their own candidates *)
Definition labels_own_p {S : Type} (sub_ask : nat -> bool -> meta -> S -> meta * S) : Prop :=
  forall u b m s c, c <> u -> dget c (fst (sub_ask u b m s)) = dget c m.
(** the only error of a sub-optimizer's tell is the refusal of a candidate it did not ask *)
Definition only_refuses {S : Type} (sub_tell : nat -> Q -> S -> S * result unit) : Prop :=
  forall c l s, snd (sub_tell c l s) = Ok tt \/ snd (sub_tell c l s) = Err NotImplementedError.

(** Vocabulary for the exchanges with the packages of Bayesian optimization *)
From Coq Require Import List Arith QArith Bool.
From Verif.Model Require Import Prelude MultiValue Bayes.
Import ListNotations.
Open Scope nat_scope.

(** * BayesOptim *)
Section Calls.
  Context {P : Type}.
  (** The batches which the package proposed, and what it was told, in order *)
  Definition batches (cs : list (call P)) : list (list P) := flat_map (fun c => match c with CAsk b => [b] | _ => [] end) cs.
  Definition sent (cs : list (call P)) : list (P * Q) := flat_map (fun c => match c with CTell xs ls => combine xs ls | _ => [] end) cs.
  (** The points which the user got from the optimizer (suggestions excepted), in order *)
  Definition got (os : list (seen P)) : list P := flat_map (fun o => match o with Given _ (Some x) => [x] | _ => [] end) os.
  (** The point of a candidate; the points whose loss was accepted, with it, in order *)
  Definition point_of (os : list (seen P)) (c : nat) : list P :=
    flat_map (fun o => match o with Given c' (Some x) => if c' =? c then [x] else [] | _ => [] end) os.
  Definition accepted (os : list (seen P)) : list (P * Q) :=
    flat_map (fun o => match o with Done c l => map (fun x => (x, l)) (point_of os c) | _ => [] end) os.
  (** Each batch, once complete, is told as a whole before the next one is asked for *)
  Inductive by_batches : list (call P) -> Prop :=
  | bb_nil : by_batches []
  | bb_pending b : by_batches [CAsk b]
  | bb_next b ls cs : length ls = length b -> by_batches cs -> by_batches (CAsk b :: CTell (rev b) ls :: cs).
End Calls.
(** The user asks, evaluates and tells, one point at a time *)
Fixpoint one_by_one (c : nat) (losses : list Q) : list event :=
  match losses with [] => [] | l :: losses => Ask :: Tell c l :: one_by_one (S c) losses end.

(** * BO *)
(** The order of strings *)
Inductive before : str -> str -> Prop :=
| before_nil y b : before [] (y :: b)
| before_head x y a b : x < y -> before (x :: a) (y :: b)
| before_tail x a b : before a b -> before (x :: a) (x :: b).
(** What was told, how many asks *)
Definition tells (es : list bevent) : list (point * Q) := flat_map (fun e => match e with BTell y l => [(y, l)] | BAsk => [] end) es.
Definition asks (es : list bevent) : nat := length (filter (fun e => match e with BAsk => true | _ => false end) es).
(** The first loss told for each point *)
Fixpoint first_losses (l : list (point * Q)) : list (point * Q) :=
  match l with [] => [] | p :: l => p :: filter (fun q => negb (same_point (fst p) (fst q))) (first_losses l) end.
(** what the package knows: it maximizes *)
Definition known (es : list bevent) : list (point * Q) := map (fun p => (fst p, (- snd p)%Q)) (first_losses (tells es)).
(** [y] has the smallest first loss, and is the first such point *)
Definition best_first (told : list (point * Q)) (y : point) : Prop :=
  exists l1 l2 loss, first_losses told = l1 ++ (y, loss) :: l2 /\
    (forall p, In p l1 -> (loss < snd p)%Q) /\ (forall p, In p l2 -> (loss <= snd p)%Q).

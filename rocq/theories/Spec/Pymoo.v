(** Vocabulary for the wrappers of Pymoo. *)
From Coq Require Import Bool Arith List QArith.
From Verif Require Import Model.Prelude Model.Recast Model.Pymoo.
Import ListNotations.
Open Scope nat_scope.
Open Scope list_scope.

(** the same calls on an optimizer without the wrapper, and the same results *)
Definition unwrapped (c : pbcall) : bcall (L := list Q) :=
  match c with PAsk g => BAsk g | PTell u ls g => BTell u ls g end.
Inductive same_result {P} : pbout (P := P) -> boutput (P := P) (L := list Q) -> Prop :=
| same_ask r : same_result (POAsk r) (BOAsk r)
| same_tell r u l : same_result (POTell r) (BOTell u l r).
(** every tell gives k losses *)
Definition with_k_losses (k : nat) (c : pbcall) : Prop :=
  match c with PAsk _ => True | PTell _ ls _ => List.length ls = k end.
(** an optimizer which has done nothing but number [n] candidates *)
Definition fresh_from {P} (n : nat) : bopt (P := P) (L := list Q) := mkbopt None [] [] 0 0 [] [] 0 n.

(** one candidate at a time: ask, then tell it, from the candidate of number [i] *)
Fixpoint one_by_one (i : nat) (ts : list (list Q * Q)) (g : bool) : list pscall :=
  match ts with
  | [] => []
  | (ls, penalty) :: ts' => SAsk g :: STell i ls penalty g :: one_by_one (S i) ts' g
  end.
(** what pymoo has been given by its objective function *)
Definition given {P} (s : ps (P := P)) : list (list Q) :=
  match o_thread (ps_opt s) with Some t => received t | None => [] end.
(** the results when the points are those of [pt] *)
Fixpoint answers {P} (pt : list (list Q) -> P) (i : nat) (seen : list (list Q)) (ts : list (list Q * Q)) : list (psout (P := P)) :=
  match ts with
  | [] => []
  | (ls, _) :: ts' => SOAsk (Returned (i, pt seen)) :: SOTell (Returned tt) :: answers pt (S i) (seen ++ [ls]) ts'
  end.

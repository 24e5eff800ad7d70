(** Vocabulary for the leaderboard. *)
From Coq Require Import List QArith String.
From Verif.Model Require Import Float.
Import ListNotations.

(** What was submitted for an identifier, in order. *)
Definition for_id (l : list (string * fl * string)) (identifier : string) : list (fl * string) :=
  map (fun s => (snd (fst s), snd s)) (filter (fun s => String.eqb (fst (fst s)) identifier) l).
(** The last of the smallest entries of [l], losses being compared after [round]. *)
Definition last_smallest (round : fl -> fl) (l : list (fl * string)) (loss : fl) (text : string) : Prop :=
  exists l1 x l2, l = l1 ++ (x, text) :: l2 /\ loss = round x /\
    (forall y t, In (y, t) l1 -> fl_le loss (round y) = true) /\
    (forall y t, In (y, t) l2 -> fl_lt loss (round y) = true).

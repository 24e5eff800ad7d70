(** Vocabulary for the archive and the recommendation. A history is the list of
    told (candidate uid, point, loss). *)
From Coq Require Import List Arith QArith.
From Verif.Model Require Import Prelude MultiValue.
From Verif.Spec Require Import MultiValue Pruning.
Import ListNotations.

Definition told := (nat * nat * Q)%type.
Definition t_cand (t : told) : nat := fst (fst t).
Definition t_key (t : told) : nat := snd (fst t).
Definition t_loss (t : told) : Q := snd t.

(** all candidate objects told are different *)
Definition distinct_candidates (h : list told) : Prop := NoDup (map t_cand h).
(** all told losses are within +-1e10 *)
Definition losses_in_range (h : list told) : Prop := Forall (fun t => in_range (t_loss t)) h.

(** [t] is a told triple with the smallest loss *)
Definition best_told (t : told) (h : list told) : Prop :=
  In t h /\ forall t', In t' h -> (t_loss t <= t_loss t')%Q.

(** losses told for point [k], in order *)
Definition losses_of (k : nat) (h : list told) : list Q :=
  map t_loss (filter (fun t => (t_key t =? k)%nat) h).

(** distinct elements in order of first occurrence *)
Fixpoint first_occurrences (l : list nat) : list nat :=
  match l with
  | [] => []
  | x :: l' => x :: filter (fun y => negb (y =? x)%nat) (first_occurrences l')
  end.

(** a pruning callable that, when it returns, returns a sub-archive *)
Definition sub_pruning (p : list mv -> list (nat * nat) -> result (list (nat * nat))) : Prop :=
  forall h a a', p h a = Ok a' -> sublist a' a.

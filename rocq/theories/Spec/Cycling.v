(** Vocabulary for the team pursuit. *)
From Coq Require Import Bool Arith List ZArith QArith Sorting.Permutation.
From Verif Require Import Model.Prelude Model.Cycling.
Import ListNotations.
Open Scope nat_scope.
Open Scope list_scope.

(** the riders in the race (a position other than 0) hold the positions 1, 2, ..., k, one each *)
Definition formation (k : nat) (ps : list nat) : Prop := Permutation (filter (fun p => 0 <? p) ps) (seq 1 k).

(** the distance of the i-th of n segments *)
Definition length_of (n i : nat) : Q := if (i =? 0) then 187.5 else if (i =? n - 1) then 187.5 else 125.
(** the time of a race whose segments (from the i-th) are ridden at these velocities *)
Fixpoint riding_time (n i : nat) (vs : list Q) : Q :=
  match vs with [] => 0 | v :: vs' => length_of n i / v + riding_time n (S i) vs' end.
(** the distance of the segments whose velocity is known *)
Fixpoint ridden (n i : nat) (vs : list (option Q)) : Q :=
  match vs with [] => 0 | v :: vs' => (match v with Some _ => length_of n i | None => 0 end) + ridden n (S i) vs' end.
Definition transitions (tr : list bool) : nat := count_occ bool_dec tr true.

(** the fatigue after a segment started with these position and fatigue: two more for the leader, one less for those behind, not below 0;
    the same for a rider out of the race *)
Definition fatigue_after (p f : nat) : nat := match p with 0 => f | 1 => f + 2 | _ => f - 1 end.
Definition total (l : list Q) : Q := fold_right Qplus 0%Q l.

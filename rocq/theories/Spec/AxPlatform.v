(** Vocabulary for the wrapper of Ax. *)
From Coq Require Import Arith List Reals.
From Verif Require Import Model.Prelude Model.AxPlatform.
Import ListNotations.
Open Scope nat_scope.

(** the trial from which the data of the candidate [c] was made *)
Definition made_from {L} (s : axp L) (c t : nat) : Prop := exists meta, nth_error (x_cands s) c = Some (Some (t, meta)).
(** no suggestion, no candidate refused *)
Definition simple {L} (e : event L) : Prop :=
  match e with EAsk _ more => more = [] | ESuggestion => False | ETell _ _ => True end.
(** the data Ax has *)
Definition data {L} (s : axp L) : list (nat * L) := ax_done (x_client s).

Open Scope R_scope.
Definition sigmoid (x : R) : R := / (1 + exp (- x)).

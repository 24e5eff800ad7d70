(** Vocabulary for C129. *)
From Coq Require Import List Reals Sorting.Sorted.
Import ListNotations.
Open Scope R_scope.

(** The impulse of thrusts held during the given times *)
Fixpoint impulse (thrusts times : list R) : R :=
  match thrusts, times with t :: ts, d :: ds => t * d + impulse ts ds | _, _ => 0 end.
(** Never increasing *)
Definition never_increasing (l : list R) : Prop := StronglySorted (fun a b => b <= a) l.

(** Vocabulary for coatings. *)
From Coq Require Import Reals.
Open Scope R_scope.

(** The reflection, in percent, of a bare boundary between two media of these permittivities. *)
Definition bare_reflection (ep0 epf : R) : R :=
  100 * ((sqrt epf - sqrt ep0) / (sqrt epf + sqrt ep0)) * ((sqrt epf - sqrt ep0) / (sqrt epf + sqrt ep0)).

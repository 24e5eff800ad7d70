(** Vocabulary for folder functions. *)
From Coq Require Import Ascii String Bool Arith List.
Import ListNotations.

(** Python's whitespace, in ASCII *)
Definition blank (c : ascii) : Prop := let n := nat_of_ascii c in 9 <= n <= 13 \/ 28 <= n <= 32.
Definition all_blank (l : list ascii) : Prop := Forall blank l.
(** [t] is the line [l] without the whitespace around it *)
Definition trimmed (l t : list ascii) : Prop :=
  exists a b, l = a ++ t ++ b /\ all_blank a /\ all_blank b /\
    (forall c t', t = c :: t' -> ~ blank c) /\ (forall t' c, t = t' ++ [c] -> ~ blank c).
(** no line boundary: "\n", "\v", "\f", "\r", and the separators 28 to 30 *)
Definition one_line (t : list ascii) : Prop :=
  forall c, In c t -> let n := nat_of_ascii c in ~ (10 <= n <= 13) /\ ~ (28 <= n <= 30).

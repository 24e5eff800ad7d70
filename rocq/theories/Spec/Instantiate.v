(** Vocabulary for C57: the language of placeholders, and reading a text as plain characters and
    placeholders from left to right. *)
From Coq Require Import Ascii String Bool Arith List.
Import ListNotations.

Definition word_char (c : ascii) : Prop :=
  let n := nat_of_ascii c in 48 <= n <= 57 \/ 65 <= n <= 90 \/ n = 95 \/ 97 <= n <= 122.

(** [NG_ARG{name}] or [NG_ARG{name|comment}] *)
Definition placeholder (s name : list ascii) (comment : option (list ascii)) : Prop :=
  name <> [] /\ Forall word_char name /\
  match comment with
  | None => s = list_ascii_of_string "NG_ARG{" ++ name ++ ["}"%char]
  | Some c => c <> [] /\ ~ In "010"%char c /\
      s = list_ascii_of_string "NG_ARG{" ++ name ++ "|"%char :: c ++ ["}"%char]
  end.
Definition starts (s p : list ascii) : Prop := exists rest, s = p ++ rest.

Inductive piece := Char (c : ascii) | Slot (name : list ascii).
(** [reads s ps]: no placeholder starts at the plain characters, and the shortest one is taken *)
Inductive reads : list ascii -> list piece -> Prop :=
| reads_nil : reads [] []
| reads_char c s ps :
    (forall p n k, placeholder p n k -> ~ starts (c :: s) p) ->
    reads s ps -> reads (c :: s) (Char c :: ps)
| reads_slot p n k rest ps :
    placeholder p n k ->
    (forall p' n' k', placeholder p' n' k' -> starts (p ++ rest) p' -> length p <= length p') ->
    reads rest ps -> reads (p ++ rest) (Slot n :: ps).

Definition slots (ps : list piece) : list (list ascii) :=
  flat_map (fun p => match p with Slot n => [n] | Char _ => [] end) ps.
(** the text once the slots are filled *)
Definition fill (value : list ascii -> list ascii) (ps : list piece) : list ascii :=
  flat_map (fun p => match p with Slot n => value n | Char c => [c] end) ps.

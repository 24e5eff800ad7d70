(** Reading a latex table: lines, cells, and the text without its escapes. *)
From Coq Require Import Bool Arith List String Ascii.
Import ListNotations.
Open Scope nat_scope.
Open Scope list_scope.

(** the pieces between separators: one more than there are separators *)
Fixpoint split (x : ascii) (l : list ascii) : list (list ascii) :=
  match l with
  | [] => [[]]
  | c :: l' =>
      if Ascii.eqb c x then [] :: split x l'
      else match split x l' with
           | p :: ps => (c :: p) :: ps
           | [] => [[c]]
           end
  end.

(** the text is followed by a backslash at its last position *)
Definition ends_with_backslash (l : list ascii) : Prop := exists p, l = p ++ ["\"%char].
(** percents are all preceded by a backslash *)
Definition percents_escaped (l : list ascii) : Prop :=
  forall p q, l = p ++ "%"%char :: q -> ends_with_backslash p.

(** what is read once the backslashes before percents are dropped *)
Fixpoint unescaped (l : list ascii) : list ascii :=
  match l with
  | [] => []
  | c :: l' =>
      match l' with
      | d :: _ => if Ascii.eqb c "\" && Ascii.eqb d "%" then unescaped l' else c :: unescaped l'
      | [] => [c]
      end
  end.

(** in latex a percent starts a comment unless an odd number of backslashes comes before *)
Fixpoint comment_after (odd : bool) (l : list ascii) : bool :=
  match l with
  | [] => false
  | c :: l' =>
      if Ascii.eqb c "\" then comment_after (negb odd) l'
      else if Ascii.eqb c "%" then negb odd || comment_after false l'
      else comment_after false l'
  end.
Definition has_comment (l : list ascii) : bool := comment_after false l.

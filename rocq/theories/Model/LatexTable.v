(** Tables exported in latex: /repo/nevergrad/benchmark/exporttable.py. *)
From Coq Require Import Bool Arith List String Ascii.
From Verif Require Import Model.Prelude.
Import ListNotations.
Open Scope nat_scope.
Open Scope list_scope.

(** a python string.  Simplification: characters of 8 bits *)
Definition text : Type := list ascii.
Definition t (s : string) : text := list_ascii_of_string s.
Definition nl : ascii := ascii_of_nat 10.

(** exporttable.py:29 d.replace("%", r"\%") *)
Fixpoint escape (d : text) : text :=
  match d with
  | [] => []
  | c :: d' => if Ascii.eqb c "%" then "\"%char :: "%"%char :: escape d' else c :: escape d'
  end.
(** exporttable.py:29 .replace("_", "") *)
Fixpoint unscore (d : text) : text :=
  match d with
  | [] => []
  | c :: d' => if Ascii.eqb c "_" then unscore d' else c :: unscore d'
  end.
(** exporttable.py:11-13 remove_parens: the part before the first parenthesis, or everything *)
Fixpoint index_of (x : ascii) (d : text) : option nat :=
  match d with
  | [] => None
  | c :: d' => if Ascii.eqb c x then Some 0 else option_map S (index_of x d')
  end.
Definition remove_paren (d : text) : text :=
  match index_of "(" d with Some i => firstn i d | None => d end.
(** exporttable.py:29-30 *)
Definition cell_text (d : text) : text := remove_paren (unscore (escape d)).

(** "&".join *)
Fixpoint join (x : ascii) (l : list text) : text :=
  match l with
  | [] => []
  | [a] => a
  | a :: l' => a ++ x :: join x l'
  end.

(** exporttable.py:65-69 *)
Definition row_text (row : text) (cells : list text) : text :=
  row ++ t "&" ++ join "&" cells ++ t "\\" ++ [nl].

(** exporttable.py:36-54: each call of f.write *)
Definition preamble : list text :=
  [ t "\documentclass{article}" ++ [nl];
    t "\usepackage{lscape}" ++ [nl];
    t "\usepackage{array}" ++ [nl];
    t "\lccode`0=`0" ++ [nl]; t "\lccode`1=`1" ++ [nl]; t "\lccode`2=`2" ++ [nl]; t "\lccode`3=`3" ++ [nl];
    t "\lccode`4=`4" ++ [nl]; t "\lccode`5=`5" ++ [nl]; t "\lccode`6=`6" ++ [nl]; t "\lccode`7=`7" ++ [nl];
    t "\lccode`8=`8" ++ [nl]; t "\lccode`9=`9" ++ [nl];
    t "\newcolumntype{P}[1]{>{\hspace{0pt}}p{#1}}"; [nl];
    t "\begin{document}" ++ [nl];
    t "\scriptsize" ++ [nl];
    t "\renewcommand{\arraystretch}{1.5}" ++ [nl];
    t "\sloppy" ++ [nl] ].

(** exporttable.py:55-62; [width n] is the text of 1 / (2 + n) *)
Definition header (width : nat -> text) (cols : list text) : list text :=
  let p := width (List.length cols) in
  [ t "\begin{tabular}{|P{" ++ p ++ t "\textwidth}|"
      ++ List.concat (repeat (t "P{" ++ p ++ t "\textwidth}|") (List.length cols)) ++ t "}" ++ [nl];
    t "\hline" ++ [nl];
    t " & " ++ join "&" cols ++ t "\\" ++ [nl];
    t "\hline" ++ [nl] ].

(** exporttable.py:63-70: data[i] raises IndexError; what is written stays in the file (closed by the with) *)
Fixpoint write_rows (i : nat) (rows : list text) (data : list (list text)) : list text * result unit :=
  match rows with
  | [] => ([], Ok tt)
  | r :: rows' =>
      match nth_error data i with
      | None => ([], Err IndexError)
      | Some cells =>
          let '(w, res) := write_rows (S i) rows' data in (row_text r cells :: w, res)
      end
  end.

(** exporttable.py:71-74 *)
Definition closing : list text :=
  [ t "\hline" ++ [nl]; t "\end{tabular}" ++ [nl]; t "\end{document}" ++ [nl] ].

(** exporttable.py:16-74: the content of the file and the outcome.  [rows] and [cols] are the texts given by str;
    what is printed on the console is left out *)
Definition export_table (width : nat -> text) (rows cols : list text) (data : list (list text)) : text * result unit :=
  let data' := map (map cell_text) data in
  let '(w, res) := write_rows 0 rows data' in
  (List.concat (preamble ++ header width cols ++ w ++ match res with Ok _ => closing | Err _ => [] end), res).

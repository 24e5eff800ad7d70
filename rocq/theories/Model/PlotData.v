(** Model of what is done to the table of results before it is plotted (nevergrad/benchmark/plotting.py:136-225,
    nevergrad/benchmark/utils.py:25-97).  A table has named columns; the cells of the descriptors are texts or missing; the
    losses are floats (without rounding); each row has a label (its entry in the index of the table). *)
From Coq Require Import String List Arith QArith Bool Ascii.
From Verif.Model Require Import Prelude MultiValue Float.
From Coq Require Import List.
Import ListNotations.
Open Scope string_scope.
Open Scope list_scope.
Open Scope nat_scope.

Record row : Type := Row { r_label : nat; r_cells : list (string * option string); r_error : option string; r_loss : fl }.
Record table : Type := Table { t_columns : list string; t_rows : list row }.
Fixpoint look {B} (c : string) (l : list (string * B)) : option B :=
  match l with [] => None | (c', v) :: l => if String.eqb c c' then Some v else look c l end.
(** a missing cell is None *)
Definition cell (r : row) (c : string) : option string := match look c (r_cells r) with Some v => v | None => None end.
Definition has (t : table) (c : string) : bool := existsb (String.eqb c) (t_columns t).
Definition is_nan (x : fl) : bool := match x with NaN => true | _ => false end.

(** * Removal of the errors: plotting.py:136-163 (without the warnings, and without what it does to the table it is given)
    A selection by a list of labels gives, for each label of the list, all the rows with this label. *)
Definition relabel (rows : list row) : list row :=
  map (fun kr => Row (fst kr) (r_cells (snd kr)) (r_error (snd kr)) (r_loss (snd kr))) (combine (seq 0 (length rows)) rows).
Definition loc (labels : list nat) (rows : list row) : list row := flat_map (fun i => filter (fun r => r_label r =? i) rows) labels.
Definition remove_errors (t : table) : result table :=
  if negb (has t "error") then Ok t else
  let err := map r_label (filter (fun r => is_nan (r_loss r)) (t_rows t)) in
  let kept := filter (fun i => negb (existsb (Nat.eqb i) err)) (map r_label (t_rows t)) in
  let output := map (fun r => Row (r_label r) (r_cells r) None (r_loss r)) (loc kept (t_rows t)) in
  if existsb (fun r => is_nan (r_loss r)) output then Err AssertionError else
  Ok (Table (filter (fun c => negb (String.eqb c "error")) (t_columns t)) (relabel output)).

(** * Normalized losses: plotting.py:212-225
    [order]: the order in which the set of cases is visited. *)
Definition fl_neg (x : fl) : fl := match x with NaN => NaN | NegInf => PosInf | PosInf => NegInf | Fin q => Fin (- q) end.
Definition fl_sub (x y : fl) : fl := fl_add x (fl_neg y).
(** x / y, for y positive *)
Definition fl_over (x y : fl) : fl :=
  match y with
  | Fin q => fl_mulq x (/ q)
  | PosInf => match x with Fin _ => Fin 0 | _ => NaN end
  | _ => NaN
  end.
Definition fl_eqb (x y : fl) : bool :=
  match x, y with NegInf, NegInf | PosInf, PosInf => true | Fin p, Fin q => Qeq_bool p q | _, _ => false end.
(** Python's min and max *)
Definition py_min (l : list fl) : result fl :=
  match l with [] => Err ValueError | x :: l => Ok (fold_left (fun m y => if fl_lt y m then y else m) l x) end.
Definition py_max (l : list fl) : result fl :=
  match l with [] => Err ValueError | x :: l => Ok (fold_left (fun m y => if fl_lt m y then y else m) l x) end.
(** utils.py:63-90 [unique], for a list of columns; the set is given as the list of the values of the rows *)
Fixpoint values (r : row) (cs : list string) : option (list string) :=
  match cs with
  | [] => Some []
  | c :: cs => match cell r c, values r cs with Some v, Some vs => Some (v :: vs) | _, _ => None end
  end.
Definition unique (t : table) (cs : list string) : result (list (list string)) :=
  if negb (forallb (has t) cs) then Err AssertionError else
  match cs with
  | [] => Ok []
  | _ => fold_right (fun r acc => bind acc (fun l => match values r cs with Some v => Ok (v :: l) | None => Err AssertionError end)) (Ok []) (t_rows t)
  end.
Definition list_eqb (a b : list string) : bool := if list_eq_dec string_dec a b then true else false.
(** utils.py:25-47 [select]: isin([criterion]) for each of the columns *)
Definition selected (ds case : list string) (r : row) : bool :=
  forallb (fun dv => match cell r (fst dv) with Some v => String.eqb v (snd dv) | None => false end) (combine ds case).
Definition with_loss (r : row) (x : fl) : row := Row (r_label r) (r_cells r) (r_error r) x.
Definition normalize_case (limit : fl) (ds : list string) (rows : list row) (case : list string) : result (list row) :=
  let losses := map r_loss (filter (selected ds case) rows) in
  bind (py_min losses) (fun m =>
  bind (py_max (filter (fun x => fl_lt x limit) losses)) (fun M =>
  Ok (map (fun r => if selected ds case r
                    then with_loss r (if fl_eqb M m then Fin 1 else fl_over (fl_sub (r_loss r) m) (fl_sub M m)) else r) rows))).
Fixpoint normalize_cases (limit : fl) (ds : list string) (cases : list (list string)) (rows : list row) : result (list row) :=
  match cases with [] => Ok rows | c :: cs => bind (normalize_case limit ds rows c) (normalize_cases limit ds cs) end.
(** rows have different labels, so that the assignment by labels is an assignment by positions *)
Definition normalized_losses (order : list (list string) -> list (list string)) (limit : fl) (t : table) (ds : list string) : result table :=
  bind (unique t ds) (fun vs =>
  let cases := match vs with [] => [[]] | _ => order (nodup (list_eq_dec string_dec) vs) end in
  bind (normalize_cases limit ds cases (t_rows t)) (fun rows => Ok (Table (t_columns t) rows))).

(** * Merge of the names: plotting.py:166-209
    [pattern]: the literal texts, each followed by the name of a column or by nothing. *)
Definition pattern : Type := list (string * option string).
Definition okey : string := "optimizer_name".
Definition elements (p : pattern) : list string := flat_map (fun e => match snd e with Some c => [c] | None => [] end) p.
(** a cell of [sub]: :200 fillna("") *)
Definition filled (r : row) (c : string) : string := match cell r c with Some v => v | None => "" end.
Definition format (p : pattern) (r : row) : string :=
  fold_right (fun e s => (fst e ++ (match snd e with Some c => filled r c | None => "" end) ++ s)%string) "" p.
Definition merge_pattern : pattern := [("", Some okey); (",", Some "parametrization")].
Definition variants (others : list string) (rows : list row) : list (list string) :=
  match others with [] => [] | _ => nodup (list_eq_dec string_dec) (map (fun r => map (filled r) others) rows) end.
Fixpoint set_cell (c : string) (v : option string) (l : list (string * option string)) : list (string * option string) :=
  match l with [] => [(c, v)] | (c', w) :: l => if String.eqb c c' then (c, v) :: l else (c', w) :: set_cell c v l end.
Definition with_name (r : row) (n : string) : row := Row (r_label r) (set_cell okey (Some n) (r_cells r)) (r_error r) (r_loss r).
(** :207 the longest suffix of digits, dots and hyphens goes away *)
Definition suffix_char (a : ascii) : bool :=
  let n := nat_of_ascii a in ((48 <=? n) && (n <=? 57)) || (n =? 46) || (n =? 45).
Fixpoint strip (s : string) : string :=
  match s with
  | EmptyString => EmptyString
  | String a s => match strip s with EmptyString => if suffix_char a then EmptyString else String a EmptyString | s' => String a s' end
  end.
Definition merge_names (t : table) (p : pattern) (merge_parametrization remove_suffix : bool) : result table :=
  if merge_parametrization && negb (match p with [] => true | _ => false end) then Err ValueError else
  let p := if merge_parametrization then merge_pattern else p in
  match p with
  | [] => Ok t
  | _ =>
    let els := elements p in
    if negb (existsb (String.eqb okey) els) then Err AssertionError else
    let others := filter (fun c => negb (String.eqb c okey)) els in
    if negb (forallb (has t) els) then Err KeyError else
    let rows := t_rows t in
    let several := 1 <? length (variants others rows) in
    let merged r :=
      if several && (1 <? length (variants others (filter (fun r' => String.eqb (filled r' okey) (filled r okey)) rows)))
      then with_name r (format p r) else r in
    let cut r := if remove_suffix then match cell r okey with Some n => with_name r (strip n) | None => r end else r in
    let drop r := Row (r_label r) (filter (fun cv => negb (existsb (String.eqb (fst cv)) others)) (r_cells r)) (r_error r) (r_loss r) in
    Ok (Table (filter (fun c => negb (existsb (String.eqb c) others)) (t_columns t)) (map (fun r => drop (cut (merged r))) rows))
  end.

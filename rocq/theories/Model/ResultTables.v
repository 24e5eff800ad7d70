(** Model of nevergrad/benchmark/utils.py ([Selector]), of [save_or_append_to_csv]
    (benchmark/core.py:37-48) and of benchmark/__main__.py ([launch], [repeated_launch]).
    A table is the list of its columns and of its rows. Simplified: columns have different names;
    a csv file reads back as the table which was written, and a file
    is written entirely or not at all; criteria are total functions; printing,
    plotting and additional imports are left out. *)
From Coq Require Import List Arith ZArith Bool String.
From Verif.Model Require Import Prelude Configured.
Import ListNotations.
Open Scope list_scope.

Section Tables.
(** The values of the cells, the one of the missing cells, and the comparisons. *)
Context {V : Type} (nan : V) (veqb vleb : V -> V -> bool).

Record table := mktable { cols : list string; rows : list (list V) }.
Definition has (l : list string) (name : string) : bool := existsb (String.eqb name) l.
(** the cell of a row *)
Definition cell (cs : list string) (row : list V) (name : string) : option V := sget name (combine cs row).

(** ** Selector *)
(** utils.py:41-46 *)
Inductive criterion := Among (l : list V) | Such (f : V -> bool) | Equal (v : V).
Definition keeps (c : criterion) (v : V) : bool :=
  match c with
  | Among l => existsb (veqb v) l
  | Such f => f v
  | Equal w => veqb v w
  end.
Definition select_one (t : table) (name : string) (c : criterion) : result table :=
  if has (cols t) name
  then Ok (mktable (cols t) (filter (fun r => match cell (cols t) r name with Some v => keeps c v | None => false end) (rows t)))
  else Err KeyError.
(** utils.py:25-48 *)
Fixpoint select (t : table) (kw : list (string * criterion)) : result table :=
  match kw with
  | [] => Ok t
  | (name, c) :: kw' => bind (select_one t name c) (fun t' => select t' kw')
  end.
(** df.loc[:, names], for columns which exist *)
Definition project (t : table) (names : list string) : table :=
  mktable names (map (fun r => map (fun n => match cell (cols t) r n with Some v => v | None => nan end) names) (rows t)).
(** utils.py:50-56 *)
Definition select_and_drop (t : table) (kw : list (string * criterion)) : result table :=
  bind (select t kw) (fun t' => Ok (project t' (filter (fun c => negb (has (map fst kw) c)) (cols t')))).
(** utils.py:74-75: the values of one column; a set as the list of its elements *)
Definition column_values (t : table) (name : string) : result (list V) :=
  if has (cols t) name then Ok (map (fun r => match cell (cols t) r name with Some v => v | None => nan end) (rows t)) else Err KeyError.
(** utils.py:76-80 *)
Definition unique (t : table) (names : list string) : result (list (list V)) :=
  if forallb (has (cols t)) names
  then let rs := rows (project t names) in
       if existsb (existsb (veqb nan)) rs then Err AssertionError else Ok rs
  else Err AssertionError.
(** tuples are compared from the left *)
Fixpoint tuple_leb (a b : list V) : bool :=
  match a, b with
  | [], _ => true
  | _, [] => false
  | x :: a', y :: b' => if veqb x y then tuple_leb a' b' else vleb x y
  end.
Fixpoint tinsert (x : list V) (l : list (list V)) : list (list V) :=
  match l with [] => [x] | y :: l' => if tuple_leb x y then x :: l else y :: tinsert x l' end.
Fixpoint tsort (l : list (list V)) : list (list V) := match l with [] => [] | x :: l' => tinsert x (tsort l') end.
Fixpoint tuple_eqb (a b : list V) : bool :=
  match a, b with
  | [], [] => true
  | x :: a', y :: b' => veqb x y && tuple_eqb a' b'
  | _, _ => false
  end.
Fixpoint all_equal (a b : list (list V)) : bool :=
  match a, b with x :: a', y :: b' => tuple_eqb x y && all_equal a' b' | _, _ => true end.
(** utils.py:88-104 *)
Definition assert_equivalent (t other : table) : result unit :=
  if negb (forallb (has (cols t)) (cols other) && forallb (has (cols other)) (cols t)) then Err AssertionError
  else if negb (Datatypes.length (rows other) =? Datatypes.length (rows t)) then Err AssertionError
  else if all_equal (tsort (rows t)) (tsort (rows (project other (cols t)))) then Ok tt else Err AssertionError.

(** ** Files *)
(** pd.concat([a, b], sort=False) *)
Definition concat_tables (a b : table) : table :=
  let extra := filter (fun c => negb (has (cols a) c)) (cols b) in
  let cs := cols a ++ extra in
  mktable cs (map (fun r => r ++ map (fun _ => nan) extra) (rows a) ++
              map (fun r => map (fun c => match cell (cols b) r c with Some v => v | None => nan end) cs) (rows b)).
Definition files : Type := list (string * table).
Variable writable : string -> bool.
(** core.py:37-48 *)
Definition save_or_append (fs : files) (path : string) (df : table) : result files :=
  if writable path
  then Ok (sset path (match sget path fs with Some predf => concat_tables predf df | None => df end) fs)
  else Err (UserError 0).
Variable experiment : string.
Definition default_path : string := (experiment ++ ".csv")%string.
(** __main__.py:16-44 *)
Definition launch (fs : files) (output : option string) (df : table) : result (files * string) :=
  let path := match output with None => default_path | Some o => o end in
  match save_or_append fs path df with
  | Ok fs' => Ok (fs', path)
  | Err _ => bind (save_or_append fs default_path df) (fun fs' => Ok (fs', default_path))
  end.
(** [core.compute], given the seed of a repetition *)
Variable compute : option Z -> table.
(** __main__.py:95-124 *)
Fixpoint repeated (fs : files) (path : string) (output : option string) (seed : option Z) (k n : nat) : result (files * string) :=
  match n with
  | O => Ok (fs, path)
  | S n' =>
      bind (launch fs output (compute (option_map (fun s => (s + Z.of_nat k)%Z) seed)))
           (fun r => repeated (fst r) (snd r) output seed (S k) n')
  end.
Definition repeated_launch (fs : files) (output : option string) (seed : option Z) (repetitions : nat) : result (files * string) :=
  repeated fs "default.csv"%string output seed 0 repetitions.
End Tables.
Arguments table : clear implicits.
Arguments files : clear implicits.
Arguments criterion : clear implicits.

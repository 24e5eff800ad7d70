(** nevergrad/parametrization/instantiate.py: placeholders in texts, files and folders.
    Texts are lists of ASCII characters (other characters are not modelled). *)
From Coq Require Import Ascii String Bool Arith List.
From Verif.Model Require Import Prelude.
Import ListNotations.

Definition text := list ascii.
Definition str (s : string) : text := list_ascii_of_string s.
Definition teqb (a b : text) : bool := if list_eq_dec ascii_dec a b then true else false.
Definition tmem (a : text) (l : list text) : bool := existsb (teqb a) l.

(** [\w] restricted to ASCII: letters, digits and underscore. *)
Definition is_word (c : ascii) : bool :=
  let n := nat_of_ascii c in
  ((48 <=? n) && (n <=? 57)) || ((65 <=? n) && (n <=? 90)) || (n =? 95) || ((97 <=? n) && (n <=? 122)).
Definition newline : ascii := "010"%char.

(** [s.startswith(p)], with the rest *)
Fixpoint strip (p s : text) : option text :=
  match p, s with
  | [], _ => Some s
  | a :: p', b :: s' => if ascii_dec a b then strip p' s' else None
  | _ :: _, [] => None
  end.
Fixpoint span (f : ascii -> bool) (s : text) : text * text :=
  match s with
  | c :: s' => if f c then let (a, b) := span f s' in (c :: a, b) else ([], s)
  | [] => ([], [])
  end.
(** [x in s] *)
Fixpoint contains (x s : text) : bool :=
  match strip x s with
  | Some _ => true
  | None => match s with [] => false | _ :: s' => contains x s' end
  end.

(** the end of a comment: characters other than newline, up to the first closing brace *)
Fixpoint until_brace (s : text) : option (text * text) :=
  match s with
  | [] => None
  | c :: s' =>
      if ascii_dec c "}" then Some ([], s')
      else if ascii_dec c newline then None
      else match until_brace s' with Some (a, b) => Some (c :: a, b) | None => None end
  end.

(** nevergrad/parametrization/instantiate.py:38 [Placeholder.pattern], matched at the start of [s]:
    the name, the comment and what follows. The name ends with the run of word characters, because it
    is followed by "|" or "}"; the comment has at least one character, and is the shortest possible. *)
Definition opening : text := str "NG_ARG{".
Definition match_here (s : text) : option (text * option text * text) :=
  match strip opening s with
  | None => None
  | Some s1 =>
      match span is_word s1 with
      | ([], _) => None
      | (name, c :: s2) =>
          if ascii_dec c "}" then Some (name, None, s2)
          else if ascii_dec c "|" then
            match s2 with
            | [] => None
            | c1 :: s3 =>
                if ascii_dec c1 newline then None
                else match until_brace s3 with
                     | Some (a, rest) => Some (name, Some (c1 :: a), rest)
                     | None => None
                     end
            end
          else None
      | (_, []) => None
      end
  end.

(** [re.finditer] / [re.sub]: leftmost matches, which do not overlap. Each step consumes at least one
    character, hence the fuel. *)
Inductive token := Plain (c : ascii) | Hole (name : text) (comment : option text).
Fixpoint scan_n (n : nat) (s : text) : list token :=
  match n, s with
  | S n', c :: s' =>
      match match_here s with
      | Some (name, comment, rest) => Hole name comment :: scan_n n' rest
      | None => Plain c :: scan_n n' s'
      end
  | _, _ => []
  end.
Definition scan (s : text) : list token := scan_n (List.length s) s.
(** nevergrad/parametrization/instantiate.py:45-47 [Placeholder.finditer] *)
Definition finditer (s : text) : list (text * option text) :=
  flat_map (fun t => match t with Hole n c => [(n, c)] | Plain _ => [] end) (scan s).

(** nevergrad/parametrization/instantiate.py:22-32 [_convert_to_string]: data is given by its repr
    (an array by the repr of its list) *)
Inductive data := Array (r : text) | Other (r : text).
Definition braces (r : text) : text :=
  map (fun c => if ascii_dec c "[" then "{"%char else if ascii_dec c "]" then "}"%char else c) r.
Definition convert (d : data) (extension : text) : text :=
  match d with
  | Array r => if tmem extension [str ".h"; str ".hpp"; str ".cpp"; str ".c"] then braces r else r
  | Other r => r
  end.

Definition kwargs := list (text * data).
Fixpoint lookup (k : text) (d : kwargs) : option data :=
  match d with [] => None | (k', v) :: d' => if teqb k k' then Some v else lookup k d' end.

(** nevergrad/parametrization/instantiate.py:58-75 [Placeholder.sub] *)
Fixpoint replace (ext : text) (kw : kwargs) (found : list text) (ts : list token) : result (text * list text) :=
  match ts with
  | [] => Ok ([], found)
  | Plain c :: ts' => bind (replace ext kw found ts') (fun '(s, f) => Ok (c :: s, f))
  | Hole name _ :: ts' =>
      if tmem name found then Err RuntimeError
      else match lookup name kw with
           | None => Err KeyError
           | Some d => bind (replace ext kw (name :: found) ts') (fun '(s, f) => Ok (convert d ext ++ s, f))
           end
  end.
Definition sub (s ext : text) (kw : kwargs) : result text :=
  bind (replace ext kw [] (scan s)) (fun '(out, found) =>
  if forallb (fun kv => tmem (fst kv) found) kw then Ok out else Err RuntimeError).

(** nevergrad/parametrization/instantiate.py:18-19 [LINETOKEN], [COMMENT_CHARS] *)
Definition linetoken : text := str "@nevergrad@".
Definition comment_chars : list (text * text) :=
  [(str ".c", str "//"); (str ".h", str "//"); (str ".cpp", str "//"); (str ".hpp", str "//"); (str ".py", str "#"); (str ".m", str "%")].
Fixpoint comment_of (ext : text) (l : list (text * text)) : option text :=
  match l with [] => None | (e, c) :: l' => if teqb ext e then Some c else comment_of ext l' end.
Definition is_space (c : ascii) : bool := if ascii_dec c " " then true else false.

(** nevergrad/parametrization/instantiate.py:93-109 [uncomment_line]; the comment characters, which do not
    start with a space, are those of the module (no registered file type). A line has no newline. *)
Definition uncomment (line ext : text) : result text :=
  match comment_of ext comment_chars with
  | None => Err RuntimeError
  | Some cc =>
      let (indent, r1) := span is_space line in
      let line' :=
        match strip cc r1 with
        | Some r2 =>
            match strip linetoken (snd (span is_space r2)) with
            | Some r3 => indent ++ snd (span is_space r3)
            | None => line
            end
        | None => line
        end in
      if contains linetoken line' then Err RuntimeError else Ok line'
  end.

(** [str.splitlines], on a text read with universal newlines *)
Definition is_break (c : ascii) : bool :=
  let n := nat_of_ascii c in (n =? 10) || (n =? 11) || (n =? 12) || (n =? 28) || (n =? 29) || (n =? 30).
Fixpoint splitlines_from (current : text) (started : bool) (s : text) : list text :=
  match s with
  | [] => if started then [rev current] else []
  | c :: s' => if is_break c then rev current :: splitlines_from [] false s' else splitlines_from (c :: current) true s'
  end.
Definition splitlines (s : text) : list text := splitlines_from [] false s.
(** ["\n".join(lines)] *)
Fixpoint join_lines (l : list text) : text :=
  match l with [] => [] | [a] => a | a :: l' => a ++ newline :: join_lines l' end.
Fixpoint mapM {A B} (f : A -> result B) (l : list A) : result (list B) :=
  match l with [] => Ok [] | a :: l' => bind (f a) (fun b => bind (mapM f l') (fun bs => Ok (b :: bs))) end.
Definition lower (s : text) : text :=
  map (fun c => let n := nat_of_ascii c in if (65 <=? n) && (n <=? 90) then ascii_of_nat (n + 32) else c) s.

(** nevergrad/parametrization/instantiate.py:117-144 [FileTextFunction.__init__]: the file is given by its
    suffix and its text *)
Record file := { f_suffix : text; f_text : text; f_params : list text }.
Fixpoint distinct (seen : list text) (l : list text) : bool :=
  match l with [] => true | a :: l' => if tmem a seen then false else distinct (a :: seen) l' end.
Definition file_init (suffix s : text) : result file :=
  if existsb (fun x => contains x s) [str "NG_G{"; str "NG_OD{"; str "NG_SC{"] then Err RuntimeError
  else
    bind (if contains linetoken s
          then bind (mapM (fun l => if contains linetoken l then uncomment l (lower suffix) else Ok l) (splitlines s))
                 (fun lines => Ok (join_lines lines))
          else Ok s)
    (fun s' =>
      let names := map fst (finditer s') in
      if distinct [] names then Ok {| f_suffix := suffix; f_text := s'; f_params := names |}
      else Err RuntimeError).
(** nevergrad/common/testing.py:32-49 [assert_set_equal] *)
Definition same_set (a b : list text) : bool := forallb (fun x => tmem x b) a && forallb (fun x => tmem x a) b.
(** nevergrad/parametrization/instantiate.py:146-148 [FileTextFunction.__call__] *)
Definition file_call (f : file) (kw : kwargs) : result text :=
  if same_set (map fst kw) (f_params f) then sub (f_text f) (f_suffix f) kw else Err AssertionError.

(** nevergrad/parametrization/instantiate.py:175-195 [FolderInstantiator.__init__]: the files of the folder
    in the order of their paths; [names] is never updated, so that the test on it never fails *)
Fixpoint folder_init (names : list text) (files : list (text * text)) : result (list file) :=
  match files with
  | [] => Ok []
  | (suffix, s) :: files' =>
      match comment_of (lower suffix) comment_chars with
      | None => folder_init names files'
      | Some _ =>
          bind (file_init suffix s) (fun f =>
          match f_params f with
          | [] => folder_init names files'
          | _ => if existsb (fun x => tmem x names) (f_params f) then Err RuntimeError
                 else bind (folder_init names files') (fun fs => Ok (f :: fs))
          end)
      end
  end.
Definition folder (files : list (text * text)) : result (list file) :=
  bind (folder_init [] files) (fun fs => match fs with [] => Err AssertionError | _ => Ok fs end).
(** nevergrad/parametrization/instantiate.py:204-215 [instantiate_to_folder]: the texts written *)
Definition instantiate (fs : list file) (kw : kwargs) : result (list text) :=
  if same_set (map fst kw) (flat_map f_params fs)
  then mapM (fun f => file_call f (filter (fun kv => tmem (fst kv) (f_params f)) kw)) fs
  else Err AssertionError.

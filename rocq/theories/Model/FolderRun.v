(** Model of nevergrad/parametrization/instantiate.py:78-90 [symlink_folder_tree], 204-227
    [instantiate_to_folder] and [instantiate], 285-309 [FolderFunction.__call__] and
    [get_last_line_as_float], and of parametrization/utils.py:132-217 [CommandFunction]: the
    files, the links, the command and its output. What is written in the files is in
    Model/Instantiate.v. *)
From Coq Require Import Ascii String Bool Arith List.
From Verif.Model Require Import Prelude Instantiate.
Import ListNotations.
Open Scope nat_scope.

(** ** A file system
    Two folders, the instrumented one and the one made from it. Simplified: a file is given by
    its path relative to the folder, and the sub-folders exist with their files. *)
Inductive root := Src | Out.
Definition path : Type := root * text.
Inductive entry := File (content : text) | Link (to : path).
Definition fs := path -> option entry.
Definition root_eqb (a b : root) : bool := match a, b with Src, Src | Out, Out => true | _, _ => false end.
Definition path_eqb (a b : path) : bool := root_eqb (fst a) (fst b) && teqb (snd a) (snd b).
Definition set_entry (m : fs) (p : path) (e : option entry) : fs := fun q => if path_eqb q p then e else m q.

(** Following links, as many as Linux accepts. *)
Fixpoint resolve (fuel : nat) (m : fs) (p : path) : option path :=
  match fuel with
  | 0 => None
  | S fuel => match m p with Some (Link q) => resolve fuel m q | _ => Some p end
  end.
Definition max_links : nat := 40.
(** [Path.exists] *)
Definition exists_ (m : fs) (p : path) : bool :=
  match resolve max_links m p with
  | Some q => match m q with Some (File _) => true | _ => false end
  | None => false
  end.
(** The exceptions of the operating system: FileExistsError, FileNotFoundError, too many links *)
Definition EEXIST := UserError 17.
Definition ENOENT := UserError 2.
Definition ELOOP := UserError 40.
(** [Path.symlink_to], [os.remove] and [open(p, "w").write(t)] *)
Definition symlink_to (m : fs) (p q : path) : fs * result unit :=
  match m p with None => (set_entry m p (Some (Link q)), Ok tt) | Some _ => (m, Err EEXIST) end.
Definition remove (m : fs) (p : path) : fs * result unit :=
  match m p with None => (m, Err ENOENT) | Some _ => (set_entry m p None, Ok tt) end.
Definition write (m : fs) (p : path) (t : text) : fs * result unit :=
  match resolve max_links m p with
  | Some q => (set_entry m q (Some (File t)), Ok tt)
  | None => (m, Err ELOOP)
  end.

(** instantiate.py:84-90 [symlink_folder_tree] on the files of the folder *)
Fixpoint link_all (m : fs) (listing : list text) : fs * result unit :=
  match listing with
  | [] => (m, Ok tt)
  | r :: listing' =>
      if exists_ m (Out, r) then link_all m listing'
      else match symlink_to m (Out, r) (Src, r) with
           | (m', Ok _) => link_all m' listing'
           | (m', Err e) => (m', Err e)
           end
  end.
(** instantiate.py:211-215: the instrumented files *)
Fixpoint write_all (m : fs) (funcs : list (text * file)) (kw : kwargs) : fs * result unit :=
  match funcs with
  | [] => (m, Ok tt)
  | (r, f) :: funcs' =>
      match remove m (Out, r) with
      | (m1, Err e) => (m1, Err e)
      | (m1, Ok _) =>
          (* the file is opened, hence emptied, before the text is computed *)
          match write m1 (Out, r) [] with
          | (m2, Err e) => (m2, Err e)
          | (m2, Ok _) =>
              match file_call f (filter (fun kv => tmem (fst kv) (f_params f)) kw) with
              | Err e => (m2, Err e)
              | Ok t => match write m2 (Out, r) t with
                        | (m3, Ok _) => write_all m3 funcs' kw
                        | (m3, Err e) => (m3, Err e)
                        end
              end
          end
      end
  end.
(** instantiate.py:204-215 [instantiate_to_folder], to a folder which is not the instrumented one *)
Definition instantiate_to_folder (m : fs) (listing : list text) (funcs : list (text * file)) (kw : kwargs) : fs * result unit :=
  if same_set (map fst kw) (flat_map (fun rf => f_params (snd rf)) funcs) then
    match link_all m listing with
    | (m1, Ok _) => write_all m1 funcs kw
    | (m1, Err e) => (m1, Err e)
    end
  else (m, Err AssertionError).

(** ** Commands *)
(** What a process prints, its exit code: each line of stdout is None when it cannot be decoded. *)
Record outcome := mkoutcome { out_lines : list (option text); out_code : nat }.
(** Python's whitespace, in ASCII *)
Definition is_blank (c : ascii) : bool :=
  let n := nat_of_ascii c in ((9 <=? n) && (n <=? 13)) || ((28 <=? n) && (n <=? 32)).
Fixpoint drop_blank (s : text) : text :=
  match s with [] => [] | c :: s' => if is_blank c then drop_blank s' else s end.
Definition strip_text (s : text) : text := rev (drop_blank (rev (drop_blank s))).
(** parametrization/utils.py:186-217 [CommandFunction.__call__]: FailedJobError when a line cannot
    be decoded or the exit code is not 0 *)
Definition FailedJobError := UserError 1.
Fixpoint decode (l : list (option text)) : result (list text) :=
  match l with
  | [] => Ok []
  | None :: _ => Err FailedJobError
  | Some t :: l' => bind (decode l') (fun ts => Ok (strip_text t :: ts))
  end.
Definition command_result (o : outcome) : result text :=
  bind (decode (out_lines o)) (fun ts =>
  if out_code o =? 0 then Ok (join_lines ts) else Err FailedJobError).
(** utils.py:179-181: the full command *)
Definition full_command (command args : list text) (kws : list (text * text)) : list text :=
  command ++ args ++ map (fun kv => str "--" ++ fst kv ++ str "=" ++ snd kv) kws.

(** [str.splitlines], carriage returns included: a text whose lines are stripped has no "\r\n". *)
Definition is_boundary (c : ascii) : bool := is_break c || (nat_of_ascii c =? 13).
Fixpoint split_from (current : text) (started : bool) (s : text) : list text :=
  match s with
  | [] => if started then [rev current] else []
  | c :: s' => if is_boundary c then rev current :: split_from [] false s' else split_from (c :: current) true s'
  end.

Section Call.
Context {A : Type} (to_float : text -> result A).
(** instantiate.py:307-309 [get_last_line_as_float] *)
Definition last_line_as_float (output : text) : result A :=
  match rev (split_from [] false (strip_text output)) with
  | [] => Err IndexError
  | l :: _ => to_float l
  end.
(** instantiate.py:289-301: what is made of the output *)
Definition postprocess (output : text) : result A :=
  match output with [] => Err ValueError | _ => last_line_as_float output end.

(** What a command does: it sees the files, opens some of the folder for writing, prints. *)
Definition command : Type := fs -> list (text * text) * outcome.
Fixpoint apply_writes (m : fs) (ws : list (text * text)) : fs :=
  match ws with [] => m | (r, t) :: ws' => apply_writes (fst (write m (Out, r) t)) ws' end.
(** Removing the temporary folder: tempfile does not follow links. *)
Definition cleanup (m : fs) : fs := fun p => match fst p with Out => None | Src => m p end.
(** instantiate.py:217-222 and 285-301 [FolderFunction.__call__]: the temporary folder is new. *)
Definition folder_call (m : fs) (listing : list text) (funcs : list (text * file)) (kw : kwargs) (cmd : command) : fs * result A :=
  match instantiate_to_folder m listing funcs kw with
  | (m1, Err e) => (cleanup m1, Err e)
  | (m1, Ok _) =>
      let (ws, o) := cmd m1 in
      (cleanup (apply_writes m1 ws), bind (command_result o) postprocess)
  end.
End Call.

(** Model of configured optimizers: nevergrad/optimization/base.py:773-858
    [ConfiguredOptimizer], and of common/tools.py:162-203 [different_from_defaults] as it is
    used there (with [check_mismatches]). *)
From Coq Require Import Arith Bool String List.
From Verif.Model Require Import Prelude.
Import ListNotations.
Open Scope nat_scope.

(** ** Python dicts with string keys *)
Section SDict.
Context {V : Type}.
Fixpoint sget (k : string) (d : list (string * V)) : option V :=
  match d with
  | [] => None
  | (k', v) :: d' => if String.eqb k k' then Some v else sget k d'
  end.
Fixpoint sset (k : string) (v : V) (d : list (string * V)) : list (string * V) :=
  match d with
  | [] => [(k, v)]
  | (k', w) :: d' => if String.eqb k k' then (k', v) :: d' else (k', w) :: sset k v d'
  end.
(** [d.pop(k, None)] *)
Fixpoint spop (k : string) (d : list (string * V)) : list (string * V) :=
  match d with
  | [] => []
  | (k', w) :: d' => if String.eqb k k' then d' else (k', w) :: spop k d'
  end.
Definition smem (k : string) (d : list (string * V)) : bool :=
  match sget k d with Some _ => true | None => false end.
(** [sorted(d.items())]: the keys differ, so the values are never compared. *)
Fixpoint sinsert (x : string * V) (l : list (string * V)) : list (string * V) :=
  match l with
  | [] => [x]
  | y :: l' => if String.leb (fst x) (fst y) then x :: l else y :: sinsert x l'
  end.
Fixpoint ssort (l : list (string * V)) : list (string * V) :=
  match l with [] => [] | x :: l' => sinsert x (ssort l') end.
End SDict.

Section Configured.
(** The values of the parameters, their [==] (base.py:855 and tools.py:202) and [repr]. *)
Context {val : Type} (veqb : val -> val -> bool) (repr : val -> string).
(** The names of the classes of configured optimizers, and the parameters of their [__init__]
    with their defaults, [self] included (a parameter without default has inspect's marker). *)
Context (cname : nat -> string) (signature : nat -> list (string * val)).

(** What an optimizer class receives beside the parametrization, budget and workers:
    base.py:832, the configuration as keyword arguments or the configured optimizer itself. *)
Inductive kwargs := Kw (d : list (string * val)) | KwConfig (o : nat).
(** Simplified: parametrization is an opaque number, budget None is 0. *)
Record args := mkargs { a_parametrization : nat; a_budget : nat; a_workers : nat }.
(** Which constructions an optimizer class accepts; the others raise. *)
Context (accepts : nat -> args -> kwargs -> bool).

(** base.py:774-777: [OptimizerClass] is a class or another configured optimizer. *)
Inductive target := Class (c : nat) | Other (o : nat).

(** The attributes of base.py:797-805; [_config] is a reference to the dict it was given. *)
Record cobj := mkcobj {
  o_class : nat;
  o_target : target;
  o_as_config : bool;
  o_dict : nat;
  o_name : string }.
(** The configured optimizers and the dicts of the program, by reference, and the registry. *)
Record state := mkstate {
  objs : list cobj;
  dicts : list (list (string * val));
  registry : list (string * nat) }.
Definition init : state := mkstate [] [] [].

Fixpoint upd {A} (i : nat) (x : A) (l : list A) : list A :=
  match l, i with
  | [], _ => []
  | _ :: l', 0 => x :: l'
  | y :: l', S i' => y :: upd i' x l'
  end.
Definition dict_at (s : state) (r : nat) : list (string * val) := nth r (dicts s) [].
Definition set_dict (s : state) (r : nat) (d : list (string * val)) : state :=
  mkstate (objs s) (upd r d (dicts s)) (registry s).

(** tools.py:183-187: the parameters of the [__init__] of the class *)
Definition defaults (cls : nat) : list (string * val) :=
  filter (fun p => negb (String.eqb (fst p) "self") && negb (String.eqb (fst p) "__class__")) (signature cls).
(** tools.py:183-203 [different_from_defaults], [check_mismatches=True] *)
Definition different_from_defaults (cls : nat) (d : list (string * val)) : result (list (string * val)) :=
  let df := defaults cls in
  let add := filter (fun p => negb (smem (fst p) d)) df in
  let miss := filter (fun p => negb (smem (fst p) df)) d in
  match add, miss with
  | [], [] =>
      Ok (flat_map (fun p => match sget (fst p) d with
                             | Some v => if negb (veqb (snd p) v) && negb (String.prefix "_" (fst p)) then [(fst p, v)] else []
                             | None => []
                             end) df)
  | _, _ => Err RuntimeError
  end.
(** base.py:804-805: the name *)
Definition default_name (cls : nat) (diff : list (string * val)) : string :=
  (cname cls ++ "(" ++ String.concat ", " (map (fun p => fst p ++ "=" ++ repr (snd p))%string (ssort diff)) ++ ")")%string.

(** An optimizer that was made: the class and what it received, then base.py:836-838. *)
Record made := mkmade {
  m_class : nat; m_args : args; m_kw : kwargs; m_name : string; m_configured : nat }.
(** base.py:818-839 [__call__]. A configured optimizer refers to another one that existed
    before it: the fuel is enough (proved). *)
Fixpoint call (fuel : nat) (s : state) (o : nat) (a : args) : result made :=
  match fuel with
  | 0 => Err OutOfFuel
  | S fuel =>
      match nth_error (objs s) o with
      | None => Err KeyError
      | Some c =>
          let config := if o_as_config c then KwConfig o else Kw (dict_at s (o_dict c)) in
          bind (match o_target c with
                | Other o' => call fuel s o' a
                | Class k => if accepts k a config then Ok (mkmade k a config "" o) else Err TypeError
                end)
               (fun run => Ok (mkmade (m_class run) (m_args run) (m_kw run) (o_name c) o))
      end
  end.
Definition run_call (s : state) (o : nat) (a : args) : result made := call (S (List.length (objs s))) s o a.

(** base.py:797-813 [__init__]. The new object is the next reference; when it raises nobody
    has a reference to it, but the dict has lost its two keys. *)
Definition create (s : state) (cls : nat) (t : target) (r : nat) (as_config : bool) : state * result nat :=
  let s1 := set_dict s r (spop "__class__" (spop "self" (dict_at s r))) in
  match different_from_defaults cls (dict_at s1 r) with
  | Err e => (s1, Err e)
  | Ok diff =>
      let o := List.length (objs s1) in
      let s2 := mkstate (objs s1 ++ [mkcobj cls t as_config r (default_name cls diff)]) (dicts s1) (registry s1) in
      if as_config then (s2, Ok o)
      else match run_call s2 o (mkargs 4 100 1) with
           | Ok _ => (s2, Ok o)
           | Err e => (s1, Err e)
           end
  end.

(** base.py:844-849 [set_name], with common/decorators.py [register_name] *)
Definition set_name (s : state) (o : nat) (name : string) (register : bool) : state * result unit :=
  match nth_error (objs s) o with
  | None => (s, Err KeyError)
  | Some c =>
      let s1 := mkstate (upd o (mkcobj (o_class c) (o_target c) (o_as_config c) (o_dict c) name) (objs s)) (dicts s) (registry s) in
      if register then
        if smem name (registry s1) then (s1, Err RuntimeError)
        else (mkstate (objs s1) (dicts s1) (sset name o (registry s1)), Ok tt)
      else (s1, Ok tt)
  end.

(** base.py:815-816 [config]: a new dict with the same items *)
Definition config (s : state) (o : nat) : state * result nat :=
  match nth_error (objs s) o with
  | None => (s, Err KeyError)
  | Some c => (mkstate (objs s) (dicts s ++ [dict_at s (o_dict c)]) (registry s), Ok (List.length (dicts s)))
  end.

(** Python's equality of dicts *)
Definition dict_eqb (a b : list (string * val)) : bool :=
  (List.length a =? List.length b) &&
  forallb (fun p => match sget (fst p) b with Some w => veqb (snd p) w | None => false end) a.
(** base.py:855-859 [__eq__] *)
Definition obj_eqb (s : state) (a b : cobj) : bool :=
  (o_class a =? o_class b) && dict_eqb (dict_at s (o_dict a)) (dict_at s (o_dict b)).

(** What a program does with configured optimizers. *)
Inductive op :=
| NewDict
| SetItem (r : nat) (k : string) (v : val)
| Create (cls : nat) (t : target) (r : nat) (as_config : bool)
| Config (o : nat)
| SetName (o : nat) (name : string) (register : bool).
(** A reference must exist: a program cannot name an object or a dict before it is made. *)
Definition known (s : state) (x : op) : bool :=
  match x with
  | NewDict => true
  | SetItem r _ _ => r <? List.length (dicts s)
  | Create _ (Class _) r _ => r <? List.length (dicts s)
  | Create _ (Other o) r _ => (r <? List.length (dicts s)) && (o <? List.length (objs s))
  | Config o => o <? List.length (objs s)
  | SetName o _ _ => o <? List.length (objs s)
  end.
Definition step (s : state) (x : op) : state :=
  if known s x then
    match x with
    | NewDict => mkstate (objs s) (dicts s ++ [[]]) (registry s)
    | SetItem r k v => set_dict s r (sset k v (dict_at s r))
    | Create cls t r b => fst (create s cls t r b)
    | Config o => fst (config s o)
    | SetName o n b => fst (set_name s o n b)
    end
  else s.
Definition run (ops : list op) : state := fold_left step ops init.
End Configured.

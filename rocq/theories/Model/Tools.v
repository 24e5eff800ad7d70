(** Model of the small tools: nevergrad/common/tools.py and nevergrad/common/decorators.py. *)
From Coq Require Import Arith ZArith QArith Bool Ascii String Decimal DecimalString List.
From Verif.Model Require Import Prelude MultiValue.
Import ListNotations.
Open Scope nat_scope.

(** ** Iteration helpers *)
Section Iter.
Context {A : Type}.

(** common/tools.py:41-52 [pairwise]: two copies of the iterator, one in advance;
    [zip] stops with the shortest. *)
Definition pairwise (l : list A) : list (A * A) :=
  let a := l in let b := tl l in combine a b.

(** itertools.zip_longest, with [n] references to one iterator: [active] tells which
    references are not known to be exhausted. One pass over the references gives a tuple, or
    ends (None) at the moment the last active one is found to be exhausted. *)
Fixpoint zl_tuple (fill : A) (left : nat) (refs : list bool) (it : list A) : option (list A * list bool * nat * list A) :=
  match refs with
  | [] => Some ([], [], left, it)
  | r :: refs' =>
      if r then
        match it with
        | x :: it' =>
            option_map (fun '(t, rs, k, it2) => (x :: t, true :: rs, k, it2)) (zl_tuple fill left refs' it')
        | [] =>
            if (left - 1 =? 0) then None
            else option_map (fun '(t, rs, k, it2) => (fill :: t, false :: rs, k, it2)) (zl_tuple fill (left - 1) refs' [])
        end
      else option_map (fun '(t, rs, k, it2) => (fill :: t, false :: rs, k, it2)) (zl_tuple fill left refs' it)
  end.
Fixpoint zl_loop (fuel : nat) (fill : A) (left : nat) (refs : list bool) (it : list A) : result (list (list A)) :=
  match fuel with
  | 0 => Err OutOfFuel
  | S fuel =>
      match zl_tuple fill left refs it with
      | None => Ok []
      | Some (t, rs, k, it') => bind (zl_loop fuel fill k rs it') (fun ts => Ok (t :: ts))
      end
  end.
(** common/tools.py:55-61 [grouper]; [zip_longest()] of nothing gives nothing. Each tuple
    consumes an element: the fuel is enough (proved). *)
Definition grouper (l : list A) (n : nat) (fill : A) : result (list (list A)) :=
  if n =? 0 then Ok [] else zl_loop (S (S (length l))) fill n (repeat true n) l.

(** common/tools.py:64-76 [roundrobin]. [queue] is the infinite [cycle] of the iterators,
    from its next element on. *)
Fixpoint rr_loop (fuel : nat) (num_active : nat) (queue : list (list A)) : result (list A) :=
  match fuel with
  | 0 => Err OutOfFuel
  | S fuel =>
      if num_active =? 0 then Ok [] else
      match queue with
      | [] => rr_loop fuel num_active []           (* an empty cycle: the loop starts again *)
      | (x :: it) :: rest => bind (rr_loop fuel num_active (rest ++ [it])) (fun out => Ok (x :: out))
      | [] :: rest => rr_loop fuel (num_active - 1) (firstn (num_active - 1) (rest ++ [[]]))
      end
  end.
Definition roundrobin (its : list (list A)) : result (list A) :=
  rr_loop (S (list_sum (map (@length A) its) + length its)) (length its) its.
End Iter.

(** ** Environment *)

(** Names and values are numbers; [upper x]: whether [x == x.upper()]. *)
Definition env : Type := list (nat * nat).
(** the [finally] block; the loop stops at the first [KeyError] *)
Fixpoint restore (old : list (nat * option nat)) (e : env) : env * result unit :=
  match old with
  | [] => (e, Ok tt)
  | (k, val) :: old' =>
      if dmem k e then
        let e1 := ddel k e in
        restore old' (match val with None => e1 | Some v => dset k v e1 end)
      else (e, Err KeyError)
  end.
(** common/tools.py:207-220 [set_env] around a body, which may change the environment and
    raise. An error of the [finally] block replaces the one of the body. *)
Definition set_env (upper : nat -> bool) (environ : list (nat * nat)) (body : env -> env * result unit) (e : env)
  : env * result unit :=
  let old := map (fun x => (fst x, dget (fst x) e)) environ in
  if negb (forallb (fun x => upper (fst x)) environ) then (e, Err ValueError) else
  let e1 := fold_left (fun e x => dset (fst x) (snd x) e) environ e in
  let '(e2, r) := body e1 in
  let '(e3, u) := restore old e2 in
  (e3, bind u (fun _ => r)).

(** ** Registry *)

(** common/decorators.py:15-72 [Registry]. Objects and informations are numbers. *)
Record registry : Type := Registry { rg_data : list (nat * nat); rg_info : list (nat * nat) }.
Definition empty_registry : registry := Registry [] [].
Inductive rop : Type :=
| RRegister (name obj : nat) (info : option nat)   (* register_name *)
| RUnregister (name : nat)
| RGet (name : nat)                                (* registry[name] *)
| RSet (name obj : nat)                            (* registry[name] = obj *)
| RDel (name : nat)                                (* del registry[name] *)
| RInfo (name : nat).                              (* get_info *)
Inductive rout : Type := RNothing | RObject (o : nat) | RInformation (i : option nat).
Definition rg_step (r : registry) (o : rop) : registry * result rout :=
  match o with
  | RRegister name obj info =>
      if dmem name (rg_data r) then (r, Err RuntimeError)
      else (Registry (dset name obj (rg_data r)) (match info with None => rg_info r | Some i => dset name i (rg_info r) end), Ok RNothing)
  | RUnregister name => (if dmem name (rg_data r) then Registry (ddel name (rg_data r)) (rg_info r) else r, Ok RNothing)
  | RGet name => (r, match dget name (rg_data r) with Some x => Ok (RObject x) | None => Err KeyError end)
  | RSet name obj => (Registry (dset name obj (rg_data r)) (rg_info r), Ok RNothing)
  | RDel name => if dmem name (rg_data r) then (Registry (ddel name (rg_data r)) (rg_info r), Ok RNothing) else (r, Err KeyError)
  | RInfo name =>
      (* [setdefault(name, {})]: the empty dict is None here *)
      if dmem name (rg_data r) then (r, Ok (RInformation (dget name (rg_info r)))) else (r, Err ValueError)
  end.
Definition rg_run (ops : list rop) (r : registry) : registry := fold_left (fun r o => fst (rg_step r o)) ops r.

(** ** Sleeper *)

(** common/tools.py:79-122; the clock is read by the operations which use it. *)
Record sleeper : Type := Sleeper { sl_min : Q; sl_max : Q; sl_size : nat; sl_start : option Q; sl_queue : list Q }.
Definition new_sleeper (mn mx : Q) (size : nat) : sleeper := Sleeper mn mx size None [].
(** [deque(maxlen).append]: the oldest are dropped on the left *)
Definition deque_append (size : nat) (x : Q) (l : list Q) : list Q :=
  let l' := l ++ [x] in skipn (length l' - size) l'.
Inductive slop : Type := SStart (now : Q) | SStop (now : Q).
Definition sl_step (s : sleeper) (o : slop) : sleeper :=
  match o with
  | SStart now => match sl_start s with Some _ => s | None => Sleeper (sl_min s) (sl_max s) (sl_size s) (Some now) (sl_queue s) end
  | SStop now =>
      match sl_start s with
      | None => s
      | Some t => Sleeper (sl_min s) (sl_max s) (sl_size s) None (deque_append (sl_size s) (now - t)%Q (sl_queue s))
      end
  end.
Definition sl_run (ops : list slop) (s : sleeper) : sleeper := fold_left sl_step ops s.
Definition qsum (l : list Q) : Q := fold_right Qplus 0%Q l.
Definition qmean (l : list Q) : Q := (qsum l / inject_Z (Z.of_nat (length l)))%Q.
(** [np.clip(x, lo, hi)] *)
Definition qclip (x lo hi : Q) : Q := qmin (qmax x lo) hi.
Definition advised (s : sleeper) (now : Q) : Q :=
  match sl_queue s with
  | [] => match sl_start s with
          | None => sl_min s
          | Some t => qclip ((now - t) / 10) (sl_min s) (sl_max s)
          end
  | q => qclip (qmean q / 10) (sl_min s) (sl_max s)
  end.

(** ** Flatten *)

(** Structures of lists (or tuples) and dicts; leaves are numbers. Keys of dicts are
    strings or integers. *)
Inductive fkey : Type := FStr (s : string) | FInt (n : nat).
Inductive obj : Type := OLeaf (x : nat) | OList (l : list obj) | ODict (l : list (fkey * obj)).
Definition show_key (k : fkey) : string :=
  match k with FStr s => s | FInt n => NilZero.string_of_uint (Nat.to_uint n) end.
Definition sdict : Type := list (string * nat).
(** [d[k] = v] *)
Fixpoint sset (k : string) (v : nat) (d : sdict) : sdict :=
  match d with
  | [] => [(k, v)]
  | (k', v') :: d' => if String.eqb k k' then (k', v) :: d' else (k', v') :: sset k v d'
  end.
Definition supdate (d e : sdict) : sdict := fold_left (fun d kv => sset (fst kv) (snd kv) d) e d.
Inductive flat : Type := FValue (x : nat) | FDict (d : sdict).
Definition prefix (k : string) (d : sdict) : sdict := map (fun xy => ((k ++ "." ++ fst xy)%string, snd xy)) d.
(** common/tools.py:223-245 [flatten] *)
Fixpoint flatten (o : obj) : flat :=
  match o with
  | OLeaf x => FValue x
  | OList l =>
      FDict ((fix go (i : nat) (l : list obj) (out : sdict) : sdict :=
        match l with
        | [] => out
        | v :: l' =>
            go (S i) l' (match flatten v with
                         | FDict d => supdate out (prefix (show_key (FInt i)) d)
                         | FValue x => sset (show_key (FInt i)) x out
                         end)
        end) 0 l [])
  | ODict l =>
      FDict ((fix go (l : list (fkey * obj)) (out : sdict) : sdict :=
        match l with
        | [] => out
        | (k, v) :: l' =>
            go l' (match flatten v with
                   | FDict d => supdate out (prefix (show_key k) d)
                   | FValue x => sset (show_key k) x out
                   end)
        end) l [])
  end.

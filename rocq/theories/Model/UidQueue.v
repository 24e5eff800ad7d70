(** Model of [OrderedSet] (nevergrad/common/tools.py) and [UidQueue]
    (nevergrad/optimization/utils.py).  Uids (hex strings) are [nat]. *)
From Coq Require Import List Arith Bool.
From Verif.Model Require Import Prelude.
Import ListNotations.

(** common/tools.py:128-138 [OrderedSet.__init__]: an OrderedDict from key to
    global insertion index, and the next index. *)
Record oset : Type := OSet { os_data : list (nat * nat); os_index : nat }.

Definition os_empty : oset := OSet [] 0.

(** common/tools.py:140-142 [OrderedSet.add]: [_data[key] = _data.pop(key, index)]:
    the key is removed and re-inserted last, keeping its first index. *)
Definition os_add (k : nat) (s : oset) : oset :=
  let v := match dget k (os_data s) with Some v => v | None => os_index s end in
  OSet (ddel k (os_data s) ++ [(k, v)]) (S (os_index s)).

(** common/tools.py:149-150 [OrderedSet.discard]: [del self._data[key]]. *)
Definition os_discard (k : nat) (s : oset) : result oset :=
  if dmem k (os_data s) then Ok (OSet (ddel k (os_data s)) (os_index s))
  else Err KeyError.

(** common/tools.py:144-147 [OrderedSet.popright]:
    [next(reversed(self._data))] then discard. *)
Definition os_popright (s : oset) : result (nat * oset) :=
  match rev (os_data s) with
  | [] => Err StopIteration
  | (k, _) :: _ => bind (os_discard k s) (fun s' => Ok (k, s'))
  end.

(** common/tools.py:152-159 [__contains__], [__iter__], [__len__]. *)
Definition os_mem (k : nat) (s : oset) : bool := dmem k (os_data s).
Definition os_iter (s : oset) : list nat := dkeys (os_data s).
Definition os_len (s : oset) : nat := length (os_data s).

(** [MutableSet.clear] (inherited): pops until empty, the index is kept. *)
Definition os_clear (s : oset) : oset := OSet [] (os_index s).

(** optimization/utils.py:310-321 [UidQueue.__init__]. *)
Record uq : Type := UQ { uq_told : list nat; uq_asked : oset }.

Definition uq_empty : uq := UQ [] os_empty.

(** optimization/utils.py:323-326 [UidQueue.clear]. *)
Definition uq_clear (q : uq) : uq := UQ [] (os_clear (uq_asked q)).

(** optimization/utils.py:328-339 [UidQueue.ask]. *)
Definition uq_ask (q : uq) : result (nat * uq) :=
  match uq_told q with
  | u :: told' => Ok (u, UQ told' (os_add u (uq_asked q)))
  | [] =>
      match os_iter (uq_asked q) with
      | u :: _ => Ok (u, UQ [] (os_add u (uq_asked q)))
      | [] => Err RuntimeError
      end
  end.

(** optimization/utils.py:341-345 [UidQueue.tell]: append to told, then remove
    from asked if present. *)
Definition uq_tell (u : nat) (q : uq) : uq :=
  let asked :=
    if os_mem u (uq_asked q)
    then match os_discard u (uq_asked q) with Ok s => s | Err _ => uq_asked q end
    else uq_asked q in
  UQ (uq_told q ++ [u]) asked.

(** [deque.remove]: first occurrence, ValueError if absent. *)
Fixpoint list_remove1 (u : nat) (l : list nat) : option (list nat) :=
  match l with
  | [] => None
  | x :: l' =>
      if Nat.eqb u x then Some l'
      else match list_remove1 u l' with Some r => Some (x :: r) | None => None end
  end.

(** optimization/utils.py:347-351 [UidQueue.discard]. *)
Definition uq_discard (u : nat) (q : uq) : result uq :=
  if os_mem u (uq_asked q)
  then bind (os_discard u (uq_asked q)) (fun s => Ok (UQ (uq_told q) s))
  else match list_remove1 u (uq_told q) with
       | Some l => Ok (UQ l (uq_asked q))
       | None => Err ValueError
       end.

(** The four public operations as one step function; a raising call leaves the
    queue unchanged (each raise happens before any mutation). *)
Inductive uq_op : Type := QAsk | QTell (u : nat) | QDiscard (u : nat) | QClear.

Inductive uq_out : Type := OUid (u : nat) | ONone | OErr (e : exn).

Definition uq_step (q : uq) (o : uq_op) : uq * uq_out :=
  match o with
  | QAsk => match uq_ask q with Ok (u, q') => (q', OUid u) | Err e => (q, OErr e) end
  | QTell u => (uq_tell u q, ONone)
  | QDiscard u => match uq_discard u q with Ok q' => (q', ONone) | Err e => (q, OErr e) end
  | QClear => (uq_clear q, ONone)
  end.

(** Operations on the ordered set, same style. *)
Inductive os_op : Type := SAdd (k : nat) | SDiscard (k : nat) | SPopright | SClear.

Definition os_step (s : oset) (o : os_op) : oset * uq_out :=
  match o with
  | SAdd k => (os_add k s, ONone)
  | SDiscard k => match os_discard k s with Ok s' => (s', ONone) | Err e => (s, OErr e) end
  | SPopright => match os_popright s with Ok (k, s') => (s', OUid k) | Err e => (s, OErr e) end
  | SClear => (os_clear s, ONone)
  end.

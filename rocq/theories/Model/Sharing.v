(** Model of the sharing of objects between parameters: what is copied, what is aliased
    (nevergrad/parametrization/core.py, data.py, container.py, _layering.py). Objects and
    arrays are cells of a heap; values are only moved here (Model/Param.v computes them). *)
From Coq Require Import List Arith ZArith QArith Bool.
From Verif.Model Require Import Prelude.
Import ListNotations.
Open Scope nat_scope.

(** The attributes of a parameter which are not objects: core.py:48-77. *)
Record fields : Type := Fields {
  f_uid : nat; f_gen : nat; f_parents : list nat; f_lineage : nat; f_loss : option Q; f_frozen : bool }.

(** - [OConst]: a constant and the object it wraps (core.py:482-486);
    - [OData]: an array or a scalar, the array [_value] and the sub-parameter
      [parameters] (data.py:105-112);
    - [OCont]: a container and its [_content] (container.py:32-37).
    Layers have no mutable state of their own besides caches of arrays which are never
    modified in place (C34), so they are not cells. The random generator is shared on
    purpose (core.py:384) and not modelled. *)
Inductive cell : Type :=
| CArr (x : list Q)
| OConst (f : fields) (payload : nat)
| OData (f : fields) (value params : nat)
| OCont (f : fields) (content : list (nat * nat)).
Definition heap : Type := list cell.

Definition alloc (c : cell) (h : heap) : heap * nat := (h ++ [c], length h).
Fixpoint write (a : nat) (c : cell) (h : heap) : heap :=
  match a, h with
  | _, [] => []
  | 0, _ :: h' => c :: h'
  | S a', d :: h' => d :: write a' c h'
  end.

Definition fields_of (c : cell) : option fields :=
  match c with CArr _ => None | OConst f _ => Some f | OData f _ _ => Some f | OCont f _ => Some f end.
Definition with_fields (f : fields) (c : cell) : cell :=
  match c with CArr x => CArr x | OConst _ p => OConst f p | OData _ v p => OData f v p | OCont _ l => OCont f l end.

(** ** Copies *)

(** core.py:408-439 with _layering.py:114-122 and data.py:327-330. [copy.copy] is shallow:
    a copied constant wraps the same object. The object is allocated after its
    sub-objects here. [fuel] bounds the depth. *)
Definition copy_fields (uid : nat) (f : fields) : fields :=
  Fields uid (f_gen f) (f_parents f) (f_lineage f) None false.
(** [for key, val in self._subobjects.items(): container[key] = val.copy()], and the same
    with [sample] (container.py:107) *)
Definition maker : Type := nat -> nat -> heap -> result (heap * nat * nat).
Fixpoint each (make : maker) (l : list (nat * nat)) (uid : nat) (h : heap) : result (heap * list (nat * nat) * nat) :=
  match l with
  | [] => Ok (h, [], uid)
  | (k, a) :: l' =>
      bind (make a uid h) (fun '(h1, b, uid1) =>
      bind (each make l' uid1 h1) (fun '(h2, m, uid2) => Ok (h2, (k, b) :: m, uid2)))
  end.
Fixpoint hcopy (fuel : nat) (a uid : nat) (h : heap) : result (heap * nat * nat) :=
  match fuel with
  | 0 => Err OutOfFuel
  | S fuel =>
      match nth_error h a with
      | Some (OConst f p) => let '(h1, b) := alloc (OConst (copy_fields uid f) p) h in Ok (h1, b, S uid)
      | Some (OData f v p) =>
          match nth_error h v with
          | Some (CArr x) =>
              let '(h1, v') := alloc (CArr x) h in
              bind (hcopy fuel p (S uid) h1) (fun '(h2, p', uid2) =>
              let '(h3, b) := alloc (OData (copy_fields uid f) v' p') h2 in Ok (h3, b, uid2))
          | _ => Err AttributeError
          end
      | Some (OCont f l) =>
          bind (each (hcopy fuel) l (S uid) h) (fun '(h2, l', uid2) =>
          let '(h3, b) := alloc (OCont (copy_fields uid f) l') h2 in Ok (h3, b, uid2))
      | _ => Err AttributeError
      end
  end.

(** ** Parenthood *)

(** core.py:441-450, the same function of the fields at each level: [up parent fields],
    [parent] the fields of the corresponding level of the parent, if any. *)
Definition set_parent (parent : option fields) (f : fields) : fields :=
  match parent with
  | None => Fields (f_uid f) 0 [] (f_uid f) (f_loss f) (f_frozen f)
  | Some p => Fields (f_uid f) (S (f_gen p)) [f_uid p] (f_lineage f) (f_loss f) (f_frozen f)
  end.
Definition set_fields (a : nat) (up : fields -> fields) (h : heap) : heap :=
  match nth_error h a with
  | Some c => match fields_of c with Some f => write a (with_fields (up f) c) h | None => h end
  | None => h
  end.
Definition parent_fields (parent : option nat) (h : heap) : option fields :=
  match parent with
  | None => None
  | Some p => match nth_error h p with Some c => fields_of c | None => None end
  end.
Definition sub_parent (parent : option nat) (k : option nat) (h : heap) : option nat :=
  match parent with
  | None => None
  | Some p =>
      match nth_error h p, k with
      | Some (OData _ _ q), None => Some q
      | Some (OCont _ l), Some k => dget k l
      | _, _ => None
      end
  end.
Fixpoint hparent (fuel : nat) (a : nat) (parent : option nat) (h : heap) : heap :=
  match fuel with
  | 0 => h
  | S fuel =>
      let h1 := set_fields a (set_parent (parent_fields parent h)) h in
      match nth_error h a with
      | Some (OData _ _ p) => hparent fuel p (sub_parent parent None h) h1
      | Some (OCont _ l) => fold_left (fun h (kb : nat * nat) => hparent fuel (snd kb) (sub_parent parent (Some (fst kb)) h) h) l h1
      | _ => h1
      end
  end.

(** core.py:384-406 and 520-523, without a new value (see [hop] for values) *)
Definition hspawn (fuel : nat) (a uid : nat) (h : heap) : result (heap * nat * nat) :=
  match nth_error h a with
  | Some (OConst _ _) => Ok (h, a, uid)
  | _ => bind (hcopy fuel a uid h) (fun '(h1, b, uid1) => Ok (hparent fuel b (Some a) h1, b, uid1))
  end.

(** core.py:132-144, data.py:159-165, container.py:105-108, core.py:512-513; [draw] stands
    for the mutation of the array. *)
Fixpoint hsample (draw : list Q -> list Q) (fuel : nat) (a uid : nat) (h : heap) : result (heap * nat * nat) :=
  match fuel with
  | 0 => Err OutOfFuel
  | S fuel =>
      bind (match nth_error h a with
      | Some (OConst _ _) => Ok (h, a, uid)
      | Some (OData _ _ _) =>
          bind (hspawn (S fuel) a uid h) (fun '(h1, b, uid1) =>
          match nth_error h1 b with
          | Some (OData f v p) =>
              match nth_error h1 v with
              | Some (CArr x) => let '(h2, v') := alloc (CArr (draw x)) h1 in Ok (write b (OData f v' p) h2, b, uid1)
              | _ => Err AttributeError
              end
          | _ => Err AttributeError
          end)
      | Some (OCont _ l) =>
          bind (hspawn (S fuel) a uid h) (fun '(h1, b, uid1) =>
          bind (each (hsample draw fuel) l uid1 h1) (fun '(h2, l', uid2) =>
          match nth_error h2 b with
          | Some (OCont f _) => Ok (write b (OCont f l') h2, b, uid2)
          | _ => Err AttributeError
          end))
      | _ => Err AttributeError
      end) (fun '(h1, b, uid1) => Ok (hparent (S fuel) b None h1, b, uid1))
  end.

(** ** Modifications *)

Inductive hop : Type :=
| HNewValue (a : nat) (x : list Q)        (* set_standardized_data, mutate, recombine, and values which are cast (lists, tuples, scalars): a new array *)
| HKeepValue (a b : nat)                  (* [value = array]: data.py:332-338 with _layering.py:227, [np.asarray] does not copy *)
| HInPlace (b : nat) (x : list Q)         (* the user writes in an array, e.g. the one returned by [value] (data.py:340-341) *)
| HFields (a : nat) (up : fields -> fields) (* freeze, loss, parents... *)
| HItem (a k b : nat).                    (* __setitem__ of a container (container.py:60-65) *)

Definition put_item (k b : nat) (l : list (nat * nat)) : list (nat * nat) := dset k b l.
Definition hstep (h : heap) (o : hop) : heap :=
  match o with
  | HNewValue a x =>
      match nth_error h a with
      | Some (OData f v p) => if f_frozen f then h else let '(h1, b) := alloc (CArr x) h in write a (OData f b p) h1
      | _ => h
      end
  | HKeepValue a b =>
      match nth_error h a, nth_error h b with
      | Some (OData f v p), Some (CArr _) => if f_frozen f then h else write a (OData f b p) h
      | _, _ => h
      end
  | HInPlace b x => match nth_error h b with Some (CArr _) => write b (CArr x) h | _ => h end
  | HFields a up => set_fields a up h
  | HItem a k b => match nth_error h a with Some (OCont f l) => write a (OCont f (put_item k b l)) h | _ => h end
  end.
Definition hrun (ops : list hop) (h : heap) : heap := fold_left hstep ops h.

(** ** Observation *)

(** What can be read from a parameter: all its attributes and values. *)
Inductive vtree : Type :=
| VConst (f : fields) (payload : option (list Q))
| VData (f : fields) (x : list Q) (params : vtree)
| VCont (f : fields) (l : list (nat * vtree)).
Fixpoint views (view : nat -> option vtree) (l : list (nat * nat)) : option (list (nat * vtree)) :=
  match l with
  | [] => Some []
  | (k, a) :: l' =>
      match view a, views view l' with Some v, Some m => Some ((k, v) :: m) | _, _ => None end
  end.
Fixpoint view (fuel : nat) (h : heap) (a : nat) : option vtree :=
  match fuel with
  | 0 => None
  | S fuel =>
      match nth_error h a with
      | Some (OConst f p) => Some (VConst f (match nth_error h p with Some (CArr x) => Some x | _ => None end))
      | Some (OData f v p) =>
          match nth_error h v, view fuel h p with Some (CArr x), Some w => Some (VData f x w) | _, _ => None end
      | Some (OCont f l) => option_map (VCont f) (views (view fuel h) l)
      | _ => None
      end
  end.

(** Model of parametrization trees: constants, arrays and scalars with their layers and
    their [sigma] sub-parameter, dictionaries and tuples (nevergrad/parametrization/
    core.py, data.py, container.py). [Instrumentation] is a tuple of a tuple and a dict
    (container.py:231-233). Choices are not in these trees. Trees are values here: two
    parameters never share a sub-object (Model/Sharing.v is about sharing). *)
From Coq Require Import List Arith ZArith QArith Bool.
From Verif.Model Require Import Prelude MultiValue Layers.
Import ListNotations.

(** core.py:48-77 [Parameter.__init__], the fields used here. [h_lineage] is
    [heritage["lineage"]]. The flag [_frozen] is with each node. *)
Record header : Type := Header {
  h_uid : nat; h_gen : nat; h_parents : list nat; h_lineage : nat; h_loss : option Q }.

Inductive kind : Type := KDict | KTuple.

(** [params] of a data is its attribute [parameters], the [Dict] which holds [sigma]
    (data.py:112). The flag [_frozen] of a data is in its root. [sizes] is the attribute
    [_sizes] of a container. Keys are numbers (the order of the names). *)
Inductive ptree : Type :=
| PConst (h : header) (frozen : bool) (v : pval)
| PData (h : header) (params : ptree) (d : ldata)
| PNode (h : header) (frozen : bool) (k : kind) (sizes : option (list (nat * nat))) (content : forest)
with forest : Type :=
| FNil
| FCons (key : nat) (t : ptree) (f : forest).

Definition sigma_key : nat := 0.

Fixpoint fitems (f : forest) : list (nat * ptree) :=
  match f with FNil => [] | FCons k t f' => (k, t) :: fitems f' end.
Definition fkeys (f : forest) : list nat := map fst (fitems f).
Definition flookup (k : nat) (f : forest) : option ptree := dget k (fitems f).
(** [self._content[k] = t] for an existing key *)
Fixpoint fset (k : nat) (t : ptree) (f : forest) : forest :=
  match f with
  | FNil => FNil
  | FCons k' t' f' => if (k =? k')%nat then FCons k' t f' else FCons k' t' (fset k t f')
  end.

(** ** Frozen *)

(** core.py:457-467 [_check_frozen]: whether it raises; constants do not. *)
Fixpoint check_frozen (t : ptree) : bool :=
  match t with
  | PConst _ _ _ => false
  | PData _ params d => rt_frozen (ld_root d) || check_frozen params
  | PNode _ fz _ _ f => fz || fcheck_frozen f
  end
with fcheck_frozen (f : forest) : bool :=
  match f with FNil => false | FCons _ t f' => check_frozen t || fcheck_frozen f' end.

Definition with_frozen (b : bool) (d : ldata) : ldata :=
  LData (ld_stack d) (ld_caches d) (Root (rt_value (ld_root d)) b).

(** core.py:452-455 [freeze] *)
Fixpoint freeze (t : ptree) : ptree :=
  match t with
  | PConst h _ v => PConst h true v
  | PData h params d => PData h (freeze params) (with_frozen true d)
  | PNode h _ k s f => PNode h true k s (ffreeze f)
  end
with ffreeze (f : forest) : forest :=
  match f with FNil => FNil | FCons k t f' => FCons k (freeze t) (ffreeze f') end.

(** ** Values *)

(** The values of trees. *)
Inductive cval : Type := CLeaf (v : pval) | CTuple (l : list cval) | CDict (l : list (nat * cval)).

(** Reading or writing through the layers of a data, its root checking the freeze of the
    data and of its sub-parameters (data.py:333, core.py:457-467). *)
Definition through {A} (params : ptree) (op : ldata -> ldata * A) (d : ldata) : ldata * A :=
  let fz := rt_frozen (ld_root d) in
  let '(d', a) := op (with_frozen (fz || check_frozen params) d) in (with_frozen fz d', a).

(** [value] of constants (core.py:497-498), data (_layering.py:180-184), dicts
    (container.py:145-146) and tuples (container.py:196-197). *)
Fixpoint tget (t : ptree) : ptree * result cval :=
  match t with
  | PConst _ _ v => (t, Ok (CLeaf v))
  | PData h params d =>
      let '(d', v) := through params value_get d in
      (PData h params d', bind v (fun v => Ok (CLeaf v)))
  | PNode h fz k s f =>
      let '(f', vs) := fget f in
      (PNode h fz k s f',
       bind vs (fun vs => Ok (match k with KDict => CDict vs | KTuple => CTuple (map snd vs) end)))
  end
with fget (f : forest) : forest * result (list (nat * cval)) :=
  match f with
  | FNil => (FNil, Ok [])
  | FCons k t f' =>
      let '(t', v) := tget t in
      match v with
      | Err e => (FCons k t' f', Err e)
      | Ok v => let '(f'', vs) := fget f' in (FCons k t' f'', bind vs (fun vs => Ok ((k, v) :: vs)))
      end
  end.

(** [==] between the value of a constant and another one *)
Fixpoint qs_eq (a b : list Q) : bool :=
  match a, b with
  | [], [] => true
  | x :: a', y :: b' => Qeq_bool x y && qs_eq a' b'
  | _, _ => false
  end.
Definition pval_eqb (a b : pval) : bool :=
  match a, b with
  | VArr x, VArr y => qs_eq x y
  | VNum x, VNum y => Qeq_bool x y
  | VOther n, VOther m => (n =? m)%nat
  | _, _ => false
  end.

(** [set(value) == set(self)] *)
Definition same_keys (a b : list nat) : bool :=
  forallb (fun k => existsb (Nat.eqb k) b) a && forallb (fun k => existsb (Nat.eqb k) a) b.

(** the loops [for key, val in value.items(): self._content[key].value = val] and
    [for k, val in enumerate(value): self[k].value = val]; [at_key key val] sets the
    value of one of the sub-parameters. The ones before an error remain modified. *)
Fixpoint set_items {V} (at_key : nat -> V -> option (ptree * result unit)) (items : list (nat * V)) (f : forest)
  : forest * result unit :=
  match items with
  | [] => (f, Ok tt)
  | (k, v) :: items' =>
      match at_key k v with
      | None => (f, Err KeyError)
      | Some (t', Err e) => (fset k t' f, Err e)
      | Some (t', Ok _) => set_items at_key items' (fset k t' f)
      end
  end.

(** [value = ...] of constants (core.py:500-510), data, dicts (container.py:148-157) and
    tuples (container.py:199-206). The sub-parameters of one container are distinct
    objects, so each one is still as it was when its turn comes. *)
Fixpoint tset (t : ptree) (v : cval) : ptree * result unit :=
  match t with
  | PConst _ _ c =>
      match v with
      | CLeaf v => (t, if pval_eqb v c then Ok tt else Err ValueError)
      | _ => (t, Err ValueError)
      end
  | PData h params d =>
      match v with
      | CLeaf v => let '(d', u) := through params (value_set v) d in (PData h params d', u)
      | _ => let '(d', u) := through params (value_set (VOther 0)) d in (PData h params d', u)
      end
  | PNode h fz KDict s f =>
      match v with
      | CDict vs =>
          if same_keys (map fst vs) (fkeys f)
          then let '(f', u) := set_items (fset_at f) vs f in (PNode h fz KDict s f', u)
          else (t, Err ValueError)
      | _ => (t, Err TypeError)
      end
  | PNode h fz KTuple s f =>
      match v with
      | CTuple vs =>
          if (length vs =? length (fitems f))%nat
          then let '(f', u) := set_items (fset_at f) (combine (seq 0 (length vs)) vs) f in (PNode h fz KTuple s f', u)
          else (t, Err ValueError)
      | _ => (t, Err ValueError)
      end
  end
with fset_at (f : forest) (k : nat) (v : cval) : option (ptree * result unit) :=
  match f with
  | FNil => None
  | FCons k' t f' => if (k =? k')%nat then Some (tset t v) else fset_at f' k v
  end.

(** ** Standardized data *)

(** container.py:44-45, data.py:138-139, core.py:112-121 (a constant has no data) *)
Fixpoint dimension (t : ptree) : nat :=
  match t with
  | PConst _ _ _ => 0%nat
  | PData _ _ d => length (rt_value (ld_root d))
  | PNode _ _ _ _ f => fdimension f
  end
with fdimension (f : forest) : nat :=
  match f with FNil => 0%nat | FCons _ t f' => (dimension t + fdimension f')%nat end.

Definition broadcast (n : nat) (v : pval) : result (list Q) :=
  match v with
  | VNum q => Ok (repeat q n)
  | VArr [q] => Ok (repeat q n)
  | VArr l => if (length l =? n)%nat then Ok l else Err ValueError
  | VOther _ => Err TypeError
  end.
(** [self.sigma.value] (data.py:155-157), for arrays of [n] elements. The reading updates
    the caches of [sigma], which changes no value (C34): it is not modelled. A null sigma
    gives infinite or undefined numbers: the error [ZeroDivisionError] stands for them. *)
Definition sigma_value (n : nat) (params : ptree) : result (list Q) :=
  match params with
  | PNode _ _ _ _ f =>
      match flookup sigma_key f with
      | Some s =>
          bind (snd (tget s)) (fun v => match v with
          | CLeaf v => bind (broadcast n v) (fun s => if existsb (fun q => Qeq_bool q 0) s then Err ZeroDivisionError else Ok s)
          | _ => Err TypeError
          end)
      | None => Err KeyError
      end
  | _ => Err AttributeError
  end.

Definition kind_eqb (a b : kind) : bool :=
  match a, b with KDict, KDict | KTuple, KTuple => true | _, _ => false end.

Fixpoint insert_key (x : nat * nat) (l : list (nat * nat)) : list (nat * nat) :=
  match l with [] => [x] | y :: l' => if (fst x <=? fst y)%nat then x :: l else y :: insert_key x l' end.
(** [sorted] on the (distinct) keys *)
Definition sort_keys (l : list (nat * nat)) : list (nat * nat) := fold_right insert_key [] l.

(** [{k: self[k].get_standardized_data(reference=p) for k, p in reference._content.items()}] *)
Fixpoint collect (at_key : nat -> ptree -> option (ptree * result (list Q))) (items : list (nat * ptree)) (f : forest)
  : forest * result (list (nat * list Q)) :=
  match items with
  | [] => (f, Ok [])
  | (k, p) :: items' =>
      match at_key k p with
      | None => (f, Err KeyError)
      | Some (t', Err e) => (fset k t' f, Err e)
      | Some (t', Ok x) =>
          let '(f', r) := collect at_key items' (fset k t' f) in (f', bind r (fun l => Ok ((k, x) :: l)))
      end
  end.
(** [np.concatenate([data[k] for k in self._sizes])] *)
Fixpoint gather (sizes : list (nat * nat)) (data : list (nat * list Q)) : result (list Q) :=
  match sizes with
  | [] => Ok []
  | (k, _) :: s' =>
      match dget k data with
      | None => Err KeyError
      | Some x => bind (gather s' data) (fun l => Ok (x ++ l))
      end
  end.

(** core.py:162-190 with data.py:308-319 and container.py:79-87, core.py:515-518.
    The class check only distinguishes constants, data, dicts and tuples here. Arrays of
    different sizes raise (the broadcasting of one element is not modelled there). *)
Fixpoint get_std (t ref : ptree) : ptree * result (list Q) :=
  match t with
  | PConst _ _ _ => (t, Ok [])
  | PData _ _ d =>
      match ref with
      | PData _ rp rd =>
          (t, bind (sigma_value (length (rt_value (ld_root rd))) rp) (fun sig =>
              if (length (rt_value (ld_root d)) =? length (rt_value (ld_root rd)))%nat
              then Ok (map2 Qdiv (map2 Qminus (rt_value (ld_root d)) (rt_value (ld_root rd))) sig)
              else Err ValueError))
      | _ => (t, Err AssertionError)
      end
  | PNode h fz k s f =>
      match ref with
      | PNode _ _ rk _ rf =>
          if kind_eqb k rk then
            let '(f', data) := collect (fget_std_at f) (fitems rf) f in
            match data with
            | Err e => (PNode h fz k s f', Err e)
            | Ok data =>
                let s' := match s with Some s => s | None => sort_keys (map (fun x => (fst x, length (snd x))) data) end in
                (PNode h fz k (Some s') f', gather s' data)
            end
          else (t, Err AssertionError)
      | _ => (t, Err AssertionError)
      end
  end
with fget_std_at (f : forest) (k : nat) (r : ptree) : option (ptree * result (list Q)) :=
  match f with
  | FNil => None
  | FCons k' t f' => if (k =? k')%nat then Some (get_std t r) else fget_std_at f' k r
  end.

Definition sum_sizes (s : list (nat * nat)) : nat := list_sum (map snd s).

(** data.py:300-306: numpy adds the data to the reduced array of the reference (with
    broadcasting when the data has a single element), then reshapes. *)
Definition shift_data (data red : list Q) : result (list Q) :=
  if (length data =? length red)%nat then Ok (map2 Qplus data red)
  else match data with
       | [q] => Ok (map (Qplus q) red)
       | _ => Err ValueError
       end.

(** the loop of container.py:99-102 *)
Fixpoint set_slices (at_key : nat -> list Q -> ptree -> option (ptree * result unit)) (sizes : list (nat * nat))
  (data : list Q) (rf f : forest) : forest * result unit :=
  match sizes with
  | [] => (f, Ok tt)
  | (k, n) :: s' =>
      match flookup k rf with
      | None => (f, Err KeyError)
      | Some r =>
          match at_key k (firstn n data) r with
          | None => (f, Err KeyError)
          | Some (t', Err e) => (fset k t' f, Err e)
          | Some (t', Ok _) => set_slices at_key s' (skipn n data) rf (fset k t' f)
          end
      end
  end.

(** core.py:197-232 with data.py:300-306 and container.py:89-103. In a container whose
    [_sizes] is not known, [self.get_standardized_data(reference=self)] computes it; the
    [_sizes] of the sub-containers, also computed then, are computed here when they are
    set in turn. *)
Fixpoint set_std (t : ptree) (data : list Q) (ref : ptree) : ptree * result unit :=
  match t with
  | PConst _ _ _ =>
      match ref with
      | PConst _ _ _ => (t, match data with [] => Ok tt | _ => Err RuntimeError end)
      | _ => (t, Err AssertionError)
      end
  | PData h params d =>
      match ref with
      | PData _ rp rd =>
          if check_frozen t then (t, Err RuntimeError) else
          let d1 := value_del d in
          let new :=
            bind (sigma_value (length (rt_value (ld_root rd))) rp) (fun sig =>
            bind (shift_data data (map2 Qdiv (rt_value (ld_root rd)) sig)) (fun x => Ok (map2 Qmult sig x))) in
          match new with
          | Err e => (PData h params d1, Err e)
          | Ok x =>
              let '(d2, v) := through params value_get (LData (ld_stack d1) (ld_caches d1) (Root x (rt_frozen (ld_root d1)))) in
              (PData h params d2, bind v (fun _ => Ok tt))
          end
      | _ => (t, Err AssertionError)
      end
  | PNode h fz k s f =>
      match ref with
      | PNode _ _ rk _ rf =>
          if negb (kind_eqb k rk) then (t, Err AssertionError) else
          if check_frozen t then (t, Err RuntimeError) else
          let known :=
            match s with
            | Some s => Ok s
            | None => match get_std t t with (PNode _ _ _ (Some s) _, Ok _) => Ok s | (_, Err e) => Err e | _ => Err AssertionError end
            end in
          match known with
          | Err e => (t, Err e)
          | Ok sizes =>
              if negb (length data =? sum_sizes sizes)%nat then (PNode h fz k (Some sizes) f, Err ValueError)
              else let '(f', u) := set_slices (fset_std_at f) sizes data rf f in (PNode h fz k (Some sizes) f', u)
          end
      | _ => (t, Err AssertionError)
      end
  end
with fset_std_at (f : forest) (k : nat) (data : list Q) (r : ptree) : option (ptree * result unit) :=
  match f with
  | FNil => None
  | FCons k' t f' => if (k =? k')%nat then Some (set_std t data r) else fset_std_at f' k data r
  end.

(** ** Mutation and recombination *)

(** The random generator gives the numbers [rnd 0], [rnd 1], ...; [i] is the number of
    those already drawn. *)
Definition normals (rnd : nat -> Q) (i n : nat) : list Q := map rnd (seq i n).

(** core.py:123-130 (and 528-529 for constants): first the sub-parameters, then the value *)
Fixpoint mutate (rnd : nat -> Q) (t : ptree) (i : nat) : ptree * nat * result unit :=
  match t with
  | PConst _ _ _ => (t, i, Ok tt)
  | PData h params d =>
      if check_frozen t then (t, i, Err RuntimeError) else
      let '(params', i1, u) := mutate rnd params i in
      match u with
      | Err e => (PData h params' d, i1, Err e)
      | Ok _ =>
          let t1 := PData h params' d in
          let n := dimension t1 in
          let '(t2, u) := set_std t1 (normals rnd i1 n) t1 in (t2, (i1 + n)%nat, u)
      end
  | PNode h fz k s f =>
      if check_frozen t then (t, i, Err RuntimeError) else
      let '(f', i1, u) := fmutate rnd f i in
      let t1 := PNode h fz k s f' in
      match u with
      | Err e => (t1, i1, Err e)
      | Ok _ => let n := dimension t1 in
                let '(t2, u) := set_std t1 (normals rnd i1 n) t1 in (t2, (i1 + n)%nat, u)
      end
  end
with fmutate (rnd : nat -> Q) (f : forest) (i : nat) : forest * nat * result unit :=
  match f with
  | FNil => (FNil, i, Ok tt)
  | FCons k t f' =>
      let '(t', i1, u) := mutate rnd t i in
      match u with
      | Err e => (FCons k t' f', i1, Err e)
      | Ok _ => let '(f'', i2, u) := fmutate rnd f' i1 in (FCons k t' f'', i2, u)
      end
  end.

Definition same_class (a b : ptree) : bool :=
  match a, b with
  | PConst _ _ _, PConst _ _ _ => true
  | PData _ _ _, PData _ _ _ => true
  | PNode _ _ k _ _, PNode _ _ k' _ _ => kind_eqb k k'
  | _, _ => false
  end.
(** [arg._content[key]] for each of the other parameters (utils.py:249-266) *)
Definition sub_of (k : nat) (t : ptree) : option ptree :=
  match t with PNode _ _ _ _ f => flookup k f | _ => None end.
Definition params_of (t : ptree) : option ptree := match t with PData _ p _ => Some p | _ => None end.
Fixpoint all_some {A B} (g : A -> option B) (l : list A) : result (list B) :=
  match l with
  | [] => Ok []
  | x :: l' => match g x with None => Err KeyError | Some y => bind (all_some g l') (fun ys => Ok (y :: ys)) end
  end.
Fixpoint all_std (l : list ptree) (ref : ptree) : result (list (list Q)) :=
  match l with
  | [] => Ok []
  | t :: l' => bind (snd (get_std t ref)) (fun x => bind (all_std l' ref) (fun xs => Ok (x :: xs)))
  end.
(** [np.mean(all_arrays, axis=0)] *)
Fixpoint vsum (xs : list (list Q)) (n : nat) : list Q :=
  match xs with [] => repeat 0%Q n | x :: xs' => map2 Qplus x (vsum xs' n) end.
Definition vmean (xs : list (list Q)) (n : nat) : list Q :=
  map (fun s => s / inject_Z (Z.of_nat (length xs)))%Q (vsum xs n).

(** core.py:146-160 with data.py:321-325, container.py:110-111, core.py:525-526 *)
Fixpoint recombine (t : ptree) (others : list ptree) : ptree * result unit :=
  match t with
  | PConst _ _ _ => (t, Ok tt)
  | PData h params d =>
      if (length others =? 0)%nat then (t, Ok tt) else
      if check_frozen t then (t, Err RuntimeError) else
      if negb (forallb (same_class t) others) then (t, Err AssertionError) else
      match all_some params_of others with
      | Err e => (t, Err e)
      | Ok ps =>
          let '(params', u) := recombine params ps in
          let t1 := PData h params' d in
          match u with
          | Err e => (t1, Err e)
          | Ok _ =>
              match all_std (t1 :: others) t1 with
              | Err e => (t1, Err e)
              | Ok arrays => set_std t1 (vmean arrays (dimension t1)) t1
              end
          end
      end
  | PNode h fz k s f =>
      if (length others =? 0)%nat then (t, Ok tt) else
      if check_frozen t then (t, Err RuntimeError) else
      if negb (forallb (same_class t) others) then (t, Err AssertionError) else
      let '(f', u) := frecombine f others in (PNode h fz k s f', u)
  end
with frecombine (f : forest) (others : list ptree) : forest * result unit :=
  match f with
  | FNil => (FNil, Ok tt)
  | FCons k t f' =>
      match all_some (sub_of k) others with
      | Err e => (f, Err e)
      | Ok subs =>
          let '(t', u) := recombine t subs in
          match u with
          | Err e => (FCons k t' f', Err e)
          | Ok _ => let '(f'', u) := frecombine f' others in (FCons k t' f'', u)
          end
      end
  end.

(** ** Copies and parenthood *)

(** core.py:408-439 [copy] (with data.py:327-330 and _layering.py:114-122); unique
    identifiers are numbers, [next] is the first which was never used. *)
Definition copy_header (uid : nat) (h : header) : header :=
  Header uid (h_gen h) (h_parents h) (h_lineage h) None.
Fixpoint tcopy (t : ptree) (next : nat) : ptree * nat :=
  match t with
  | PConst h _ v => (PConst (copy_header next h) false v, S next)
  | PData h params d =>
      let '(params', next') := tcopy params (S next) in
      (PData (copy_header next h) params' (with_frozen false (value_del d)), next')
  | PNode h _ k s f =>
      let '(f', next') := fcopy f (S next) in (PNode (copy_header next h) false k s f', next')
  end
with fcopy (f : forest) (next : nat) : forest * nat :=
  match f with
  | FNil => (FNil, next)
  | FCons k t f' =>
      let '(t', n1) := tcopy t next in let '(f'', n2) := fcopy f' n1 in (FCons k t' f'', n2)
  end.

Definition header_of (t : ptree) : header := match t with PConst h _ _ | PData h _ _ | PNode h _ _ _ _ => h end.

(** core.py:441-450 [_set_parenthood] with no parent *)
Definition orphan_header (h : header) : header := Header (h_uid h) 0 [] (h_uid h) (h_loss h).
Fixpoint orphan (t : ptree) : ptree :=
  match t with
  | PConst h fz v => PConst (orphan_header h) fz v
  | PData h params d => PData (orphan_header h) (orphan params) d
  | PNode h fz k s f => PNode (orphan_header h) fz k s (forphan f)
  end
with forphan (f : forest) : forest :=
  match f with FNil => FNil | FCons k t f' => FCons k (orphan t) (forphan f') end.

(** core.py:441-450 [_set_parenthood] with a parent, whose sub-parameters are the parents
    of the sub-parameters (utils.py:249-266) *)
Definition child_header (h parent : header) : header :=
  Header (h_uid h) (S (h_gen parent)) [h_uid parent] (h_lineage h) (h_loss h).
Fixpoint adopt (t parent : ptree) : result ptree :=
  match t with
  | PConst h fz v => Ok (PConst (child_header h (header_of parent)) fz v)
  | PData h params d =>
      match parent with
      | PData ph pp _ => bind (adopt params pp) (fun params' => Ok (PData (child_header h ph) params' d))
      | _ => Err KeyError
      end
  | PNode h fz k s f =>
      match parent with
      | PNode ph _ _ _ pf => bind (fadopt f pf) (fun f' => Ok (PNode (child_header h ph) fz k s f'))
      | _ => Err AttributeError
      end
  end
with fadopt (f pf : forest) : result forest :=
  match f with
  | FNil => Ok FNil
  | FCons k t f' =>
      match flookup k pf with
      | None => Err KeyError
      | Some p => bind (adopt t p) (fun t' => bind (fadopt f' pf) (fun f'' => Ok (FCons k t' f'')))
      end
  end.

(** core.py:384-406 [spawn_child] (constants: core.py:520-523) *)
Definition spawn_child (t : ptree) (new_value : option cval) (next : nat) : result ptree * nat :=
  match t with
  | PConst _ _ _ =>
      (match new_value with None => Ok t | Some v => bind (snd (tset t v)) (fun _ => Ok t) end, next)
  | _ =>
      let '(c, next') := tcopy t next in
      (bind (adopt c t) (fun c =>
         match new_value with
         | None => Ok c
         | Some v => let '(c', u) := tset c v in bind u (fun _ => Ok c')
         end), next')
  end.

(** core.py:132-144 [sample], with container.py:105-108, data.py:159-165, core.py:512-513.
    The uniform sampling of fully bounded data (_datalayers.py:114-126) is not modelled:
    here every data is sampled by mutation. [i] counts the random numbers, [next] the
    identifiers. *)
Fixpoint sample (rnd : nat -> Q) (t : ptree) (i next : nat) : result ptree * nat * nat :=
  match t with
  | PConst _ _ _ => (Ok (orphan t), i, next)
  | PData _ _ _ =>
      let '(c, next') := spawn_child t None next in
      match c with
      | Err e => (Err e, i, next')
      | Ok c => let '(c', i', u) := mutate rnd c i in (bind u (fun _ => Ok (orphan c')), i', next')
      end
  | PNode _ _ _ _ f =>
      let '(c, next') := spawn_child t None next in
      let '(f', i', next'') := fsample rnd f i next' in
      (bind c (fun c => match c with
       | PNode h fz k s _ => bind f' (fun f' => Ok (orphan (PNode h fz k s f')))
       | _ => Err AssertionError
       end), i', next'')
  end
with fsample (rnd : nat -> Q) (f : forest) (i next : nat) : result forest * nat * nat :=
  match f with
  | FNil => (Ok FNil, i, next)
  | FCons k t f' =>
      let '(t', i1, n1) := sample rnd t i next in
      match t' with
      | Err e => (Err e, i1, n1)
      | Ok t' => let '(f'', i2, n2) := fsample rnd f' i1 n1 in (bind f'' (fun f'' => Ok (FCons k t' f'')), i2, n2)
      end
  end.

(** ** Histories *)

(** A position in a tree: the sub-parameter of a key, or the [parameters] of a data. *)
Inductive pstep : Type := SSub (k : nat) | SParams.
(** An operation on the parameter at a position of the tree. *)
Fixpoint at_path {A} (path : list pstep) (op : ptree -> ptree * A) (t : ptree) : option (ptree * A) :=
  match path with
  | [] => Some (op t)
  | SSub k :: path' =>
      match t with
      | PNode h fz kd s f =>
          match flookup k f with
          | Some sub => option_map (fun '(sub', a) => (PNode h fz kd s (fset k sub' f), a)) (at_path path' op sub)
          | None => None
          end
      | _ => None
      end
  | SParams :: path' =>
      match t with
      | PData h p d => option_map (fun '(p', a) => (PData h p' d, a)) (at_path path' op p)
      | _ => None
      end
  end.

Inductive top : Type :=
| TGet                                        (* .value *)
| TSet (v : cval)                             (* .value = v *)
| TGetStd (ref : option ptree)                (* get_standardized_data, None: the parameter itself *)
| TSetStd (data : list Q) (ref : option ptree)
| TMutate (rnd : nat -> Q)
| TRecombine (others : list ptree)
| TFreeze
| TLoss (l : Q).                              (* .loss = l, as optimizers do *)

Definition set_loss (l : Q) (t : ptree) : ptree :=
  let up h := Header (h_uid h) (h_gen h) (h_parents h) (h_lineage h) (Some l) in
  match t with
  | PConst h fz v => PConst (up h) fz v
  | PData h p d => PData (up h) p d
  | PNode h fz k s f => PNode (up h) fz k s f
  end.

(** the effect and whether an exception was raised *)
Definition t_step (o : top) (t : ptree) : ptree * result unit :=
  match o with
  | TGet => let '(t', r) := tget t in (t', bind r (fun _ => Ok tt))
  | TSet v => tset t v
  | TGetStd ref => let '(t', r) := get_std t (match ref with Some r => r | None => t end) in (t', bind r (fun _ => Ok tt))
  | TSetStd data ref => set_std t data (match ref with Some r => r | None => t end)
  | TMutate rnd => let '(t', _, r) := mutate rnd t 0 in (t', r)
  | TRecombine others => recombine t others
  | TFreeze => (freeze t, Ok tt)
  | TLoss l => (set_loss l t, Ok tt)
  end.
Definition t_run1 (t : ptree) (po : list pstep * top) : ptree :=
  match at_path (fst po) (t_step (snd po)) t with Some (t', _) => t' | None => t end.
Definition t_run (ops : list (list pstep * top)) (t : ptree) : ptree := fold_left t_run1 ops t.

(** ** Constructions *)
Definition new_header (uid : nat) : header := Header uid 0 [] uid None.
(** [Dict(sigma=...)] *)
Definition params_dict (uid : nat) (sigma : ptree) : ptree := PNode (new_header uid) false KDict None (FCons sigma_key sigma FNil).
Definition new_const (uid : nat) (v : pval) : ptree := PConst (new_header uid) false v.
Definition new_data (uid puid : nat) (sigma : ptree) (st : list lop) (x : list Q) : ptree :=
  PData (new_header uid) (params_dict puid sigma) (ld_new st x).
Fixpoint forest_of (l : list (nat * ptree)) : forest :=
  match l with [] => FNil | (k, t) :: l' => FCons k t (forest_of l') end.
Definition new_dict (uid : nat) (l : list (nat * ptree)) : ptree := PNode (new_header uid) false KDict None (forest_of l).
Definition new_tuple (uid : nat) (l : list ptree) : ptree :=
  PNode (new_header uid) false KTuple None (forest_of (combine (seq 0 (length l)) l)).

(** container.py:60-65 [__setitem__] of an existing or a new key: forgets [_sizes] of this
    container only *)
Fixpoint fput (k : nat) (t : ptree) (f : forest) : forest :=
  match f with
  | FNil => FCons k t FNil
  | FCons k' t' f' => if (k =? k')%nat then FCons k' t f' else FCons k' t' (fput k t f')
  end.
Definition setitem (k : nat) (v : ptree) (t : ptree) : ptree :=
  match t with PNode h fz kd _ f => PNode h fz kd None (fput k v f) | _ => t end.

(** Model of the layer system (nevergrad/parametrization/_layering.py) and of the
    layers over exact numbers (_datalayers.py): additions, products, elementwise functions,
    clipping and bouncing bounds, modulo, integer, array and scalar casting. The real
    functions themselves (exponential, power, tanh, arctan) are in Model/RTransforms.v. *)
From Coq Require Import List Arith ZArith QArith Qround Bool.
From Verif.Model Require Import Prelude MultiValue.
Import ListNotations.

(** * Ordering of the layers *)

(** _layering.py:21-31 [Level] *)
Inductive level : Type := ROOT | OPERATION | INTEGER_CASTING | ARRAY_CASTING | SCALAR_CASTING | CONSTRAINT.
Definition level_value (l : level) : Z :=
  match l with
  | ROOT => 0 | OPERATION => 10 | INTEGER_CASTING => 800 | ARRAY_CASTING => 900
  | SCALAR_CASTING => 950 | CONSTRAINT => 1000
  end%Z.

(** A layer object: its identity, its level and its [_layer_index]. *)
Record lnode : Type := LNode { ln_id : nat; ln_level : level; ln_index : nat }.
Definition with_index (k : nat) (x : lnode) : lnode := LNode (ln_id x) (ln_level x) k.

(** The loop of [bisect.bisect_right] of the Python library: binary search of the
    number of leading elements at most [x]; [fuel] bounds the number of rounds. *)
Fixpoint bisect_loop (fuel : nat) (a : list Z) (x : Z) (lo hi : nat) : nat :=
  match fuel with
  | O => lo
  | S fuel =>
      if (lo <? hi)%nat then
        let mid := ((lo + hi) / 2)%nat in
        if (x <? nth mid a 0)%Z then bisect_loop fuel a x lo mid else bisect_loop fuel a x (S mid) hi
      else lo
  end.
Definition bisect_right (a : list Z) (x : Z) : nat := bisect_loop (S (length a)) a x 0 (length a).

Definition insert_at {A} (k : nat) (x : A) (l : list A) : list A := firstn k l ++ x :: skipn k l.
(** [for k, x in enumerate(self._layers): x._layer_index = k] *)
Fixpoint reindex (k : nat) (l : list lnode) : list lnode :=
  match l with [] => [] | x :: l' => with_index k x :: reindex (S k) l' end.

(** _layering.py:49-66 [add_layer], called on the root. A layer which already
    belongs to a parameter (its [_layers] has more than one element) is refused. *)
Definition add_layer (other : lnode) (attached : bool) (layers : list lnode) : result (list lnode) :=
  if attached then Err RuntimeError else
  match layers with
  | [] => Err IndexError
  | root :: _ =>
      if (level_value (ln_level (last layers root)) <=? level_value (ln_level other))%Z
      then Ok (layers ++ [with_index (length layers) other])
      else
        let ind := bisect_right (map (fun x => level_value (ln_level x)) layers) (level_value (ln_level other)) in
        Ok (reindex 0 (insert_at ind other layers))
  end.

(** _layering.py:45-47 [Layered.__init__]: a parameter alone *)
Definition new_root (id : nat) : list lnode := [LNode id ROOT 0].

Fixpoint add_layers (others : list lnode) (layers : list lnode) : result (list lnode) :=
  match others with
  | [] => Ok layers
  | o :: os => bind (add_layer o false layers) (add_layers os)
  end.

(** _layering.py:114-122 [copy] of a root: each layer is copied ([rename] gives the
    identity of the copy) and added to the copy of the root. *)
Definition copy_layers (rename : nat -> nat) (layers : list lnode) : result (list lnode) :=
  match layers with
  | [] => Err IndexError
  | root :: ls =>
      add_layers (map (fun x => LNode (rename (ln_id x)) (ln_level x) 0) ls)
                 [LNode (rename (ln_id root)) (ln_level root) 0]
  end.

(** * Values through the layers *)

(** The values: arrays (flattened: shapes are not modelled beyond the number of
    elements), numbers, and anything else. *)
Inductive pval : Type := VArr (l : list Q) | VNum (q : Q) | VOther (n : nat).

(** The parameters of a layer are given for each element (numpy broadcasts them).
    [LFun] is any other elementwise operation (_datalayers.py:163-217: [Exponent], [Power])
    with the functions [forward] and [backward] as they are computed, arbitrary here; the
    case where [backward] is not a number (logarithm of a negative number) is not modelled. *)
Inductive lop : Type :=
| LAdd (offset : list Q)
| LMul (mult : list Q)
| LFun (f g : Q -> Q)                       (* forward and backward, see below *)
| LBound (bounce : bool) (lower upper : option (list Q))
| LCheck (lower upper : option (list Q))    (* a bound by constraint: no transform *)
| LModulo (module : list Q)
| LInt                                      (* deterministic *)
| LArray
| LScalar.

(** numpy applies a function to each element; the function sees the number, not the way
    it is written ([Qred] is the canonical fraction). *)
Definition vmap (f : Q -> Q) (l : list Q) : list Q := map (fun x => f (Qred x)) l.

Fixpoint map2 {A B C} (f : A -> B -> C) (a : list A) (b : list B) : list C :=
  match a, b with x :: a', y :: b' => f x y :: map2 f a' b' | _, _ => [] end.

(** numpy comparisons followed by [np.any] *)
Definition any_lt (a b : list Q) : bool := existsb (fun xy => qlt (fst xy) (snd xy)) (combine a b).

(** parametrization/utils.py:17-52 [BoundChecker.__call__] *)
Definition bound_checker (lower upper : option (list Q)) (value : list Q) : bool :=
  match lower with
  | Some lo => if any_lt value lo then false else
               match upper with Some up => negb (any_lt up value) | None => true end
  | None => match upper with Some up => negb (any_lt up value) | None => true end
  end.

(** [np.clip] with optional bounds *)
Definition np_clip (lower upper : option (list Q)) (x : list Q) : list Q :=
  let x := match lower with Some lo => map2 qmax x lo | None => x end in
  match upper with Some up => map2 qmin x up | None => x end.

(** transforms.py:206-214 [Clipping.forward] *)
Definition clip_forward (bounce : bool) (lower upper : option (list Q)) (x : list Q) : list Q :=
  if bound_checker lower upper x then x
  else
    let out := np_clip lower upper x in
    if bounce then np_clip lower upper (map2 (fun o xi => 2 * o - xi)%Q out x) else out.
(** transforms.py:216-223 [Clipping.backward] *)
Definition clip_backward (lower upper : option (list Q)) (y : list Q) : result (list Q) :=
  if bound_checker lower upper y then Ok y else Err ValueError.

(** numpy [%] *)
Definition qmod (x m : Q) : Q := (x - m * inject_Z (Qfloor (x / m)))%Q.

(** [np.round]: to the nearest integer, ties to the even one *)
Definition round_half_even (x : Q) : Z :=
  let f := Qfloor x in
  match Qcompare (x - inject_Z f) (1 # 2) with
  | Lt => f
  | Gt => (f + 1)%Z
  | Eq => if Z.even f then f else (f + 1)%Z
  end.

(** data.py:118-135 [Data.bounds]: the bounds of the last bound layer, through the
    forward of the operations above it. The layers are listed from the root. *)
Definition lop_bounds (l : lop) : option (option (list Q) * option (list Q)) :=
  match l with
  | LBound _ lo up => Some (lo, up)
  | LCheck lo up => Some (lo, up)
  | LModulo m => Some (Some (map (fun _ => 0%Q) m), Some m)
  | _ => None
  end.
Definition lop_forward (l : lop) (b : list Q) : list Q :=
  match l with
  | LAdd o => map2 Qplus o b
  | LMul m => map2 Qmult m b
  | LFun f _ => vmap f b
  | _ => b
  end.
Definition data_bounds (layers : list lop) : option (list Q) * option (list Q) :=
  fold_left (fun b l =>
    match lop_bounds l with
    | Some b' => b'
    | None => (option_map (lop_forward l) (fst b), option_map (lop_forward l) (snd b))
    end) layers (None, None).

Definition int_eps : Q := 1 # 1000000000000.
(** _layering.py:266-284 [Int._layered_get_value] (deterministic), after the cache *)
Definition int_round (bounds : option (list Q) * option (list Q)) (x : list Q) : list Z :=
  let out := map round_half_even x in
  let out := match fst bounds with
             | Some lo => map2 (fun b o => Z.max (round_half_even (b + (1 # 2) - int_eps)%Q) o) lo out
             | None => out
             end in
  match snd bounds with
  | Some up => map2 (fun b o => Z.min (round_half_even (b - (1 # 2) + int_eps)%Q) o) up out
  | None => out
  end.

(** A data parameter: the array of the root, and whether it is frozen. *)
Record root : Type := Root { rt_value : list Q; rt_frozen : bool }.

(** data.py:332-338 [Data._layered_set_value] *)
Definition root_set (v : pval) (r : root) : root * result unit :=
  if rt_frozen r then (r, Err RuntimeError)
  else match v with
       | VArr l => if (length l =? length (rt_value r))%nat then (Root l (rt_frozen r), Ok tt) else (r, Err ValueError)
       | _ => (r, Err AttributeError)
       end.

Definition on_array (f : list Q -> list Q) (v : pval) : pval :=
  match v with VArr l => VArr (f l) | _ => v end.

(** numpy refuses operations between arrays of different sizes with a ValueError (the
    broadcasting of arrays of one element is not modelled). *)
Definition sized (n : nat) (v : pval) : bool := match v with VArr l => (length l =? n)%nat | _ => true end.
Definition sized_opt (b : option (list Q)) (v : pval) : bool :=
  match b with Some l => sized (length l) v | None => true end.

(** [_layered_get_value] and [_layered_set_value] through the layers, the topmost one
    first ([_call_deeper], _layering.py:71-86, goes to the next one which overrides the
    method; those which do not are passed through). [bounds] is [Data.bounds] of the
    whole parameter. [cs] holds the [_cache] of each layer (only integer castings use
    theirs). *)
Definition caches : Type := list (option (list Z)).
Definition bounds_t : Type := (option (list Q) * option (list Q))%type.

Fixpoint lget (bounds : bounds_t) (st : list lop) (cs : caches) (r : root) {struct st} : caches * root * result pval :=
  match st with
  | [] => (cs, r, Ok (VArr (rt_value r)))                      (* data.py:340-341 *)
  | l :: st' =>
      let c := hd None cs in
      let deeper := lget bounds st' (tl cs) in
      match l with
      | LAdd o =>                                                (* _datalayers.py:169-176, 220-234 *)
          let '(cs', r', v) := deeper r in
          (c :: cs', r', bind v (fun v => Ok (on_array (map2 Qplus o) v)))
      | LMul m =>                                                (* _datalayers.py:237-249 *)
          let '(cs', r', v) := deeper r in
          (c :: cs', r', bind v (fun v => Ok (on_array (map2 Qmult m) v)))
      | LFun f _ =>                                              (* _datalayers.py:163-217 *)
          let '(cs', r', v) := deeper r in
          (c :: cs', r', bind v (fun v => Ok (on_array (vmap f) v)))
      | LBound bounce lo up =>                                   (* _datalayers.py:283-291 *)
          let '(cs', r', v) := deeper r in
          match v with
          | Ok (VArr deep) =>
              let value := clip_forward bounce lo up deep in
              if bound_checker lo up deep then (c :: cs', r', Ok (VArr deep))
              else let '(cs2, r2, u) := lset bounds st' cs' (VArr value) r' in
                   (c :: cs2, r2, bind u (fun _ => Ok (VArr value)))
          | _ => (c :: cs', r', v)
          end
      | LCheck _ _ => let '(cs', r', v) := deeper r in (c :: cs', r', v)
      | LModulo m =>                                             (* _datalayers.py:154-155 *)
          let '(cs', r', v) := deeper r in
          (c :: cs', r', bind v (fun v => Ok (on_array (fun d => map2 qmod d m) v)))
      | LInt =>                                                  (* _layering.py:266-284 *)
          match c with
          | Some out => (cs, r, Ok (VArr (map inject_Z out)))
          | None =>
              let '(cs', r', v) := deeper r in
              match v with
              | Ok (VArr x) => let out := int_round bounds x in
                               (Some out :: cs', r', Ok (VArr (map inject_Z out)))
              | _ => (None :: cs', r', v)
              end
          end
      | LArray => let '(cs', r', v) := deeper r in (c :: cs', r', v)
      | LScalar =>                                               (* _layering.py:205-211 *)
          let '(cs', r', v) := deeper r in
          (c :: cs', r', bind v (fun v => match v with VArr [x] => Ok (VNum x) | _ => Err RuntimeError end))
      end
  end
with lset (bounds : bounds_t) (st : list lop) (cs : caches) (v : pval) (r : root) {struct st} : caches * root * result unit :=
  match st with
  | [] => let '(r', u) := root_set v r in (cs, r', u)
  | l :: st' =>
      let c := hd None cs in
      let deeper v := let '(cs', r', u) := lset bounds st' (tl cs) v r in (c :: cs', r', u) in
      match l with
      | LAdd o => if sized (length o) v then deeper (on_array (fun x => map2 Qminus x o) v) else (cs, r, Err ValueError)
      | LMul m => if sized (length m) v then deeper (on_array (fun x => map2 Qdiv x m) v) else (cs, r, Err ValueError)
      | LFun _ g => deeper (on_array (vmap g) v)
      | LBound _ lo up =>                                        (* _datalayers.py:293-294 *)
          match v with
          | VArr y => if sized_opt lo v && sized_opt up v then
                        match clip_backward lo up y with Ok x => deeper (VArr x) | Err e => (cs, r, Err e) end
                      else (cs, r, Err ValueError)
          | _ => (cs, r, Err AttributeError)
          end
      | LCheck _ _ => deeper v
      | LModulo m =>                                             (* _datalayers.py:157-160 *)
          match v with
          | VArr y =>
              if sized (length m) v && bound_checker (Some (map (fun _ => 0%Q) m)) (Some m) y then
                let '(cs', r', cur) := lget bounds st' (tl cs) r in
                match cur with
                | Ok (VArr cur) =>
                    let '(cs2, r2, u) :=
                      lset bounds st' cs' (VArr (map2 Qplus (map2 Qminus cur (map2 qmod cur m)) y)) r' in
                    (c :: cs2, r2, u)
                | Ok _ => (c :: cs', r', Err TypeError)
                | Err e => (c :: cs', r', Err e)
                end
              else (cs, r, Err ValueError)
          | _ => (cs, r, Err AttributeError)
          end
      | LInt => deeper v
      | LArray =>                                                (* _layering.py:224-227 *)
          match v with VArr _ => deeper v | _ => (cs, r, Err TypeError) end
      | LScalar =>                                               (* _layering.py:213-216 *)
          match v with VNum x => deeper (VArr [x]) | _ => (cs, r, Err TypeError) end
      end
  end.

(** A data parameter with its layers, from the topmost one *)
Record ldata : Type := LData { ld_stack : list lop; ld_caches : caches; ld_root : root }.
Definition ld_bounds (d : ldata) : bounds_t := data_bounds (rev (ld_stack d)).

(** _layering.py:180-184 [ValueProperty.__get__] *)
Definition value_get (d : ldata) : ldata * result pval :=
  let '(cs, r, v) := lget (ld_bounds d) (ld_stack d) (ld_caches d) (ld_root d) in (LData (ld_stack d) cs r, v).
(** _layering.py:190-194 [ValueProperty.__delete__]: clears the caches *)
Definition value_del (d : ldata) : ldata := LData (ld_stack d) (map (fun _ => None) (ld_stack d)) (ld_root d).
(** _layering.py:186-188 [ValueProperty.__set__] *)
Definition value_set (v : pval) (d : ldata) : ldata * result unit :=
  let d := value_del d in
  let '(cs, r, u) := lset (ld_bounds d) (ld_stack d) (ld_caches d) v (ld_root d) in (LData (ld_stack d) cs r, u).

(** core.py:197-224 and data.py:300-306: [set_standardized_data] checks the freeze,
    clears the caches, sets the array of the root ([reshape] fails on another number of
    elements), then reads the value. [x] is already scaled and shifted here
    (Model/Param.v does it). *)
Definition raw_set (x : list Q) (d : ldata) : ldata * result unit :=
  if rt_frozen (ld_root d) then (d, Err RuntimeError)
  else
    let d := value_del d in
    if negb (length x =? length (rt_value (ld_root d)))%nat then (d, Err ValueError) else
    let '(d', v) := value_get (LData (ld_stack d) (ld_caches d) (Root x (rt_frozen (ld_root d)))) in
    (d', bind v (fun _ => Ok tt)).

(** a parameter as created, nothing being cached *)
Definition ld_new (st : list lop) (x : list Q) : ldata := LData st (map (fun _ => None) st) (Root x false).

Inductive ld_op : Type := OGet | OSet (v : pval) | ORaw (x : list Q) | OFreeze.
Definition ld_step (d : ldata) (o : ld_op) : ldata :=
  match o with
  | OGet => fst (value_get d)
  | OSet v => fst (value_set v d)
  | ORaw x => fst (raw_set x d)
  | OFreeze => LData (ld_stack d) (ld_caches d) (Root (rt_value (ld_root d)) true)
  end.
Definition ld_run (ops : list ld_op) (d : ldata) : ldata := fold_left ld_step ops d.

(** The position of a new operation: below the castings ([add_layer] keeps the levels
    sorted and an operation is placed after the other operations). *)
Definition is_cast (l : lop) : bool := match l with LInt | LArray | LScalar => true | _ => false end.
Fixpoint add_op (l : lop) (st : list lop) : list lop :=
  match st with c :: st' => if is_cast c then c :: add_op l st' else l :: st | [] => [l] end.

(** data.py:168-231 [Data.set_bounds], methods "clipping" and "bouncing": reads the value,
    adds the layer, then sets the value again; the ValueError of an out-of-bound value
    leaves the layer. The creation of the layer itself refuses unordered bounds
    (_datalayers.py:71-75), before anything else is modified. *)
Definition opt_ordered (lo up : option (list Q)) : bool :=
  match lo, up with
  | Some lo, Some up => forallb (fun xy => qlt (fst xy) (snd xy)) (combine lo up)
  | _, _ => true
  end.
Definition set_bounds (bounce : bool) (lo up : option (list Q)) (d : ldata) : ldata * result unit :=
  let '(d1, v) := value_get d in
  match v with
  | Err e => (d1, Err e)
  | Ok v =>
      if opt_ordered lo up then
        let st := add_op (LBound bounce lo up) (ld_stack d1) in
        value_set v (LData st (map (fun _ => None) st) (ld_root d1))
      else (d1, Err ValueError)
  end.

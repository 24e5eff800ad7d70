(** Vocabulary for layers and their values. *)
From Coq Require Import List Arith ZArith QArith Qabs Sorted Bool.
From Verif.Model Require Import Prelude MultiValue Layers.
Import ListNotations.

(** levels never decrease along the list *)
Definition by_level (l : list lnode) : Prop :=
  StronglySorted (fun a b => (level_value (ln_level a) <= level_value (ln_level b))%Z) l.
(** identity and level of a layer *)
Definition who (x : lnode) : nat * level := (ln_id x, ln_level x).
(** the layers of one level, in order *)
Definition at_level (lv : Z) (l : list lnode) : list (nat * level) :=
  map who (filter (fun x => (level_value (ln_level x) =? lv)%Z) l).
(** each layer knows its position *)
Definition indexed (l : list lnode) : Prop := forall k x, nth_error l k = Some x -> ln_index x = k.

(** the same numbers (as rationals) *)
Definition veq (a b : list Q) : Prop := Forall2 Qeq a b.
Definition pv_eq (a b : pval) : Prop :=
  match a, b with
  | VArr x, VArr y => veq x y
  | VNum x, VNum y => (x == y)%Q
  | VOther n, VOther m => n = m
  | _, _ => False
  end.

(** coordinate by coordinate between two optional bounds *)
Definition above (lower : option (list Q)) (v : list Q) : Prop :=
  match lower with None => True | Some lo => Forall2 Qle lo v end.
Definition below (upper : option (list Q)) (v : list Q) : Prop :=
  match upper with None => True | Some up => Forall2 Qle v up end.
Definition within (lower upper : option (list Q)) (v : list Q) : Prop := above lower v /\ below upper v.

(** the parameters of the layers fit arrays of [n] elements and make sense: products
    by non-zero numbers, positive modules, lower bounds smaller than upper bounds *)
Definition opt_length (n : nat) (b : option (list Q)) : Prop := match b with None => True | Some l => length l = n end.
Definition ordered_bounds (lo up : option (list Q)) : Prop :=
  match lo, up with Some lo, Some up => Forall2 Qlt lo up | _, _ => True end.
Definition lop_ok (n : nat) (l : lop) : Prop :=
  match l with
  | LAdd o => length o = n
  | LMul m => length m = n /\ Forall (fun x => ~ x == 0)%Q m
  | LBound _ lo up | LCheck lo up => opt_length n lo /\ opt_length n up /\ ordered_bounds lo up
  | LModulo m => length m = n /\ Forall (fun x => 0 < x)%Q m
  | LFun _ _ | LInt | LArray => True
  | LScalar => n = 1%nat
  end.
(** [nearest z x lo up]: no integer between the bounds is closer to [x] than [z] *)
Definition nearest (z : Z) (x lo up : Q) : Prop :=
  forall k, (lo <= inject_Z k)%Q -> (inject_Z k <= up)%Q -> (Qabs (x - inject_Z z) <= Qabs (x - inject_Z k))%Q.

(** ** Stacks of layers, from the topmost one *)
Definition invertible1 (l : lop) : Prop := match l with LAdd _ | LMul _ | LCheck _ _ | LArray => True | _ => False end.
Definition invertible (st : list lop) : Prop := Forall invertible1 st.
Definition plain1 (l : lop) : Prop := match l with LInt | LModulo _ | LScalar | LFun _ _ => False | _ => True end.
Definition plain (st : list lop) : Prop := Forall plain1 st.
(** nothing but invertible layers below a bound, no integer casting, other modulo nor
    function below a modulo, no scalar casting *)
Fixpoint good (st : list lop) : Prop :=
  match st with
  | [] => True
  | LBound _ _ _ :: st' => invertible st'
  | LModulo _ :: st' => good st' /\ plain st'
  | LScalar :: _ => False
  | _ :: st' => good st'
  end.
(** the casting at the top: to arrays, or to a number for arrays of one element *)
Definition casting (c : lop) : Prop := c = LArray \/ c = LScalar.
(** array casting layers: an Array has the casting [LArray] above its other layers, a Scalar
    has [LScalar] then [LArray]; both are of the form [c :: a ++ st] *)
Definition arrays (a : list lop) : Prop := Forall (fun l => l = LArray) a.
(** a parameter: one of the two castings above a supported stack over arrays of [n]
    elements *)
Definition stack_ok (n : nat) (c : lop) (st : list lop) : Prop := casting c /\ good st /\ Forall (lop_ok n) (c :: st).
(** the initial array of the root is consistent with the bounds: reading leaves it *)
Definition init_ok (n : nat) (st : list lop) (x : list Q) : Prop :=
  length x = n /\ ld_root (fst (value_get (ld_new st x))) = Root x false.
(** the numbers of a value *)
Definition coords (v : pval) : list Q := match v with VArr l => l | VNum q => [q] | VOther _ => [] end.
(** products by positive numbers only, and no other function *)
Definition positive (st : list lop) : Prop :=
  Forall (fun l => match l with LMul m => Forall (fun x => 0 < x)%Q m | LFun _ _ => False | _ => True end) st.
(** [z] is the nearest to [x] among integers between optional bounds, coordinate by
    coordinate *)
Definition at_or (d : option (list Q)) (k : nat) : option Q := match d with None => None | Some l => nth_error l k end.
Definition ge_opt (lo : option Q) (k : Q) : Prop := match lo with None => True | Some b => (b <= k)%Q end.
Definition le_opt (up : option Q) (k : Q) : Prop := match up with None => True | Some b => (k <= b)%Q end.

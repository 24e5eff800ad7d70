(** Vocabulary for parametrization trees. *)
From Coq Require Import List Arith ZArith QArith Bool.
From Verif.Model Require Import Prelude MultiValue Layers Param.
From Verif.Spec Require Import Layers.
Import ListNotations.

(** ** Equal values: same numbers, same tuples, same keys of dicts in any order *)
Fixpoint cv_eq (a b : cval) {struct a} : Prop :=
  match a, b with
  | CLeaf x, CLeaf y => pv_eq x y
  | CTuple l, CTuple m =>
      (fix go (l m : list cval) : Prop :=
         match l, m with
         | [], [] => True
         | x :: l', y :: m' => cv_eq x y /\ go l' m'
         | _, _ => False
         end) l m
  | CDict l, CDict m =>
      length l = length m /\
      (fix go (l : list (nat * cval)) : Prop :=
         match l with
         | [] => True
         | (k, x) :: l' => (exists y, dget k m = Some y /\ cv_eq x y) /\ go l'
         end) l
  | _, _ => False
  end.

(** ** Reachable trees *)
(** Sub-parameter at a position *)
Fixpoint sub_at (path : list pstep) (t : ptree) : option ptree :=
  match path with
  | [] => Some t
  | SSub k :: path' => match t with PNode _ _ _ _ f => match flookup k f with Some s => sub_at path' s | None => None end | _ => None end
  | SParams :: path' => match t with PData _ p _ => sub_at path' p | _ => None end
  end.

(** Same structure: arrays of the same sizes, same keys (in any order), same kinds *)
Fixpoint same_shape (a b : ptree) {struct a} : Prop :=
  match a, b with
  | PConst _ _ _, PConst _ _ _ => True
  | PData _ p d, PData _ q e => length (rt_value (ld_root d)) = length (rt_value (ld_root e)) /\ same_shape p q
  | PNode _ _ k _ f, PNode _ _ k' _ g => k = k' /\ length (fitems f) = length (fitems g) /\ fsame_shape f g
  | _, _ => False
  end
with fsame_shape (f g : forest) {struct f} : Prop :=
  match f with
  | FNil => True
  | FCons k t f' => (exists s, flookup k g = Some s /\ same_shape t s) /\ fsame_shape f' g
  end.

(** Same parameters up to the numbers: same structure, same layers, same constants *)
Fixpoint twins (a b : ptree) {struct a} : Prop :=
  match a, b with
  | PConst _ _ v, PConst _ _ w => pv_eq v w
  | PData _ _ d, PData _ _ e => ld_stack d = ld_stack e /\ length (rt_value (ld_root d)) = length (rt_value (ld_root e))
  | PNode _ _ k _ f, PNode _ _ k' _ g => k = k' /\ length (fitems f) = length (fitems g) /\ ftwins f g
  | _, _ => False
  end
with ftwins (f g : forest) {struct f} : Prop :=
  match f with
  | FNil => True
  | FCons k t f' => (exists s, flookup k g = Some s /\ twins t s) /\ ftwins f' g
  end.

(** Parameters as created *)
Inductive built : ptree -> Prop :=
| built_const uid v : built (new_const uid v)
| built_data uid puid sigma n c st x :
    built sigma -> stack_ok n c st -> init_ok n (c :: st) x -> built (new_data uid puid sigma (c :: st) x)
| built_dict uid l : NoDup (map fst l) -> (forall k t, In (k, t) l -> built t) -> built (new_dict uid l)
| built_tuple uid l : (forall t, In t l -> built t) -> built (new_tuple uid l).

(** dicts have distinct keys *)
Fixpoint cv_ok (v : cval) : Prop :=
  match v with
  | CLeaf _ => True
  | CTuple l => (fix go (l : list cval) : Prop := match l with [] => True | x :: l' => cv_ok x /\ go l' end) l
  | CDict l =>
      NoDup (map fst l) /\
      (fix go (l : list (nat * cval)) : Prop := match l with [] => True | (_, x) :: l' => cv_ok x /\ go l' end) l
  end.

(** standardized data are used with references of the same structure *)
Definition op_fits (o : top) (t : ptree) : Prop :=
  match o with
  | TSetStd _ (Some r) | TGetStd (Some r) => same_shape t r
  | _ => True
  end.
(** Parameters obtained from created ones by operations on the parameter or on any of its
    sub-parameters, copies, children and samples *)
Inductive reachable : ptree -> Prop :=
| reach_new t : built t -> reachable t
| reach_op t path o s : reachable t -> sub_at path t = Some s -> op_fits o s -> reachable (t_run1 t (path, o))
| reach_copy t next : reachable t -> reachable (fst (tcopy t next))
| reach_spawn t v next c next' : reachable t -> spawn_child t v next = (Ok c, next') -> reachable c
| reach_sample t rnd i next c i' next' : reachable t -> sample rnd t i next = (Ok c, i', next') -> reachable c.

(** a sequence of such operations, at any positions *)
Fixpoint run_fits (ops : list (list pstep * top)) (t : ptree) : Prop :=
  match ops with
  | [] => True
  | po :: ops' => (forall s, sub_at (fst po) t = Some s -> op_fits (snd po) s) /\ run_fits ops' (t_run1 t po)
  end.

(** ** Identifiers and heritage *)
(** the identifiers of a tree *)
Fixpoint uids_of (t : ptree) : list nat :=
  match t with
  | PConst h _ _ => [h_uid h]
  | PData h p _ => h_uid h :: uids_of p
  | PNode h _ _ _ f => h_uid h :: fuids_of f
  end
with fuids_of (f : forest) : list nat := match f with FNil => [] | FCons _ t f' => uids_of t ++ fuids_of f' end.
Definition is_constant (t : ptree) : bool := match t with PConst _ _ _ => true | _ => false end.
(** heritage of a child: next generation, one parent, same lineage, no loss *)
Definition child_of (h h' : header) : Prop :=
  h_gen h' = S (h_gen h) /\ h_parents h' = [h_uid h] /\ h_lineage h' = h_lineage h /\ h_loss h' = None.

(** ** Conditions on the data of a tree (not the ones of their sigmas) *)
Fixpoint leaves (P : ldata -> Prop) (t : ptree) : Prop :=
  match t with
  | PConst _ _ _ => True
  | PData _ _ d => P d
  | PNode _ _ _ _ f => fleaves P f
  end
with fleaves (P : ldata -> Prop) (f : forest) : Prop :=
  match f with FNil => True | FCons _ t f' => leaves P t /\ fleaves P f' end.
(** no clipping nor bouncing bound *)
Definition unbounded (d : ldata) : Prop := forall bo lo up, ~ In (LBound bo lo up) (ld_stack d).
(** no modulo, integer casting nor function besides affine ones and bounds, below the casting *)
Definition plain_data (d : ldata) : Prop := plain (tl (ld_stack d)).
(** the sigmas can be divided by, and have the size of their array (or are numbers) *)
Fixpoint usable (t : ptree) : Prop :=
  match t with
  | PConst _ _ _ => True
  | PData _ p d => exists sig, sigma_value (length (rt_value (ld_root d))) p = Ok sig
  | PNode _ _ _ _ f => fusable f
  end
with fusable (f : forest) : Prop :=
  match f with FNil => True | FCons _ t f' => usable t /\ fusable f' end.

(** frozen at every level *)
Fixpoint all_frozen (t : ptree) : Prop :=
  match t with
  | PConst _ fz _ => fz = true
  | PData _ p d => rt_frozen (ld_root d) = true /\ all_frozen p
  | PNode _ fz _ _ f => fz = true /\ fall_frozen f
  end
with fall_frozen (f : forest) : Prop :=
  match f with FNil => True | FCons _ t f' => all_frozen t /\ fall_frozen f' end.
Definition is_frozen (t : ptree) : bool :=
  match t with PConst _ fz _ => fz | PData _ _ d => rt_frozen (ld_root d) | PNode _ fz _ _ _ => fz end.

(** the value of a parameter, as read *)
Definition has_value (t : ptree) (v : cval) : Prop := exists v', snd (tget t) = Ok v' /\ cv_eq v' v.
(** reading gives the same value (at least one is readable) *)
Definition same_value (a b : ptree) : Prop := exists v, snd (tget a) = Ok v /\ has_value b v.

(** which values a parameter accepts: equal ones for constants, those which pass the
    layers for data, tuples of the same length and dicts of the same keys otherwise *)
Fixpoint takes (t : ptree) (v : cval) {struct t} : Prop :=
  match t, v with
  | PConst _ _ c, CLeaf x => pv_eq x c
  | PData _ p d, CLeaf x => check_frozen t = false /\ snd (value_set x d) = Ok tt
  | PNode _ _ KDict _ f, CDict vs =>
      NoDup (map fst vs) /\ length vs = length (fitems f) /\ ftakes f vs
  | PNode _ _ KTuple _ f, CTuple vs => length vs = length (fitems f) /\ ftakes f (combine (seq 0 (length vs)) vs)
  | _, _ => False
  end
with ftakes (f : forest) (vs : list (nat * cval)) {struct f} : Prop :=
  match f with
  | FNil => True
  | FCons k t f' => (exists v, dget k vs = Some v /\ takes t v) /\ ftakes f' vs
  end.

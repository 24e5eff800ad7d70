(** Vocabulary for sharing. *)
From Coq Require Import List Arith ZArith QArith Bool.
From Verif.Model Require Import Prelude Sharing.
Import ListNotations.
Open Scope nat_scope.

(** What a parameter owns: its array, its sub-parameters. The object wrapped by a
    constant is not owned: it belongs to the user. *)
Definition owns (c : cell) (b : nat) : Prop :=
  match c with
  | CArr _ | OConst _ _ => False
  | OData _ v p => b = v \/ b = p
  | OCont _ l => exists k, In (k, b) l
  end.
Definition refers (c : cell) (b : nat) : Prop :=
  owns c b \/ match c with OConst _ p => b = p | _ => False end.
Inductive owned (h : heap) (a : nat) : nat -> Prop :=
| owned_self : owned h a a
| owned_step b c d : owned h a b -> nth_error h b = Some c -> owns c d -> owned h a d.
(** all that can be seen from a parameter *)
Inductive seen (h : heap) (a : nat) : nat -> Prop :=
| seen_self : seen h a a
| seen_step b c d : seen h a b -> nth_error h b = Some c -> refers c d -> seen h a d.

(** no dangling reference *)
Definition closed (h : heap) : Prop := forall a c b, nth_error h a = Some c -> refers c b -> b < length h.

(** constants wrap arrays (not parameters), here *)
Definition wraps_arrays (h : heap) : Prop :=
  forall a f p, nth_error h a = Some (OConst f p) -> exists x, nth_error h p = Some (CArr x).
(** no constant of [a] wraps an array of [a] *)
Definition own_arrays (h : heap) (a : nat) : Prop :=
  forall b f p, owned h a b -> nth_error h b = Some (OConst f p) -> ~ owned h a p.

(** An operation on the parameter [c], or on any of its sub-parameters or arrays. The
    arrays and parameters which the user gives to it have nothing to do with [p]. *)
Definition op_on (h : heap) (c p : nat) (o : hop) : Prop :=
  match o with
  | HNewValue a _ | HFields a _ | HInPlace a _ => owned h c a
  | HKeepValue a b | HItem a _ b => owned h c a /\ b < length h /\ forall x, owned h b x -> ~ seen h p x
  end.
Fixpoint ops_on (h : heap) (c p : nat) (ops : list hop) : Prop :=
  match ops with [] => True | o :: ops' => op_on h c p o /\ ops_on (hstep h o) c p ops' end.

(** the values of an observation, without the identifiers and the like *)
Inductive values : Type := WConst (p : option (list Q)) | WData (x : list Q) (params : values) | WCont (l : list (nat * values)).
Fixpoint values_of (v : vtree) : values :=
  match v with
  | VConst _ p => WConst p
  | VData _ x w => WData x (values_of w)
  | VCont _ l => WCont (map (fun kv => (fst kv, values_of (snd kv))) l)
  end.

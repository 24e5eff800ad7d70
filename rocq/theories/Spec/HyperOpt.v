(** Vocabulary for HyperOpt's search space. *)
From Coq Require Import Arith ZArith QArith Bool String List.
From Verif.Model Require Import Prelude MultiValue Layers HyperOpt.
Import ListNotations.
Open Scope nat_scope.

(** The draws [vs] are a draw of the space: each label at work has one value, in its range, and the labels of the options
    which were not chosen have none. *)
Fixpoint legal (s : space) (vs : vals) : Prop :=
  match s with
  | SUniform l lo hi | SLogUniform l lo hi => exists q, assoc l vs = Some [VNum q] /\ (lo <= q <= hi)%Q
  | SRandint l lo hi => exists z, assoc l vs = Some [VNum (inject_Z z)] /\ (lo <= z < hi)%Z
  | SChoice l options =>
      exists i, assoc l vs = Some [VNum (inject_Z (Z.of_nat i))] /\ i < length options /\
        (fix go j options := match options with
                             | [] => True
                             | s :: options => (if j =? i then legal s vs else Forall (fun l => assoc l vs = Some []) (labels s)) /\ go (S j) options
                             end) 0 options
  | SConst _ => True
  | SDict args kwargs =>
      (fix go l := match l with [] => True | (_, s) :: l => legal s vs /\ go l end) args /\
      (fix go l := match l with [] => True | (_, s) :: l => legal s vs /\ go l end) kwargs
  end.

(** Dicts have each key once. *)
Inductive dicts : val -> Prop :=
| dicts_num q : dicts (VNum q)
| dicts_obj n : dicts (VObj n)
| dicts_call args kwargs : Forall dicts args -> Forall (fun p => dicts (snd p)) kwargs -> NoDup (map fst kwargs) -> dicts (VCall args kwargs).
Inductive well_formed : par -> Prop :=
| wf_scalar lo hi q : well_formed (PScalar lo hi q)
| wf_int lo hi q : well_formed (PInt lo hi q)
| wf_log lo hi q : well_formed (PLog lo hi q)
| wf_choice i options : Forall well_formed options -> well_formed (PChoice i options)
| wf_const v : dicts v -> well_formed (PConst v)
| wf_instr args kwargs : Forall well_formed args -> Forall (fun p => well_formed (snd p)) kwargs -> NoDup (map fst kwargs) -> well_formed (PInstr args kwargs)
| wf_other n : well_formed (POther n).
(** No integer scalar; integer scalars only out of the choices. *)
Inductive no_integer : par -> Prop :=
| ni_scalar lo hi q : no_integer (PScalar lo hi q)
| ni_log lo hi q : no_integer (PLog lo hi q)
| ni_choice i options : Forall no_integer options -> no_integer (PChoice i options)
| ni_const v : no_integer (PConst v)
| ni_instr args kwargs : Forall no_integer args -> Forall (fun p => no_integer (snd p)) kwargs -> no_integer (PInstr args kwargs)
| ni_other n : no_integer (POther n).
Inductive integers_apart : par -> Prop :=
| ia_scalar lo hi q : integers_apart (PScalar lo hi q)
| ia_int lo hi q : integers_apart (PInt lo hi q)
| ia_log lo hi q : integers_apart (PLog lo hi q)
| ia_choice i options : Forall no_integer options -> integers_apart (PChoice i options)
| ia_const v : integers_apart (PConst v)
| ia_instr args kwargs : Forall integers_apart args -> Forall (fun p => integers_apart (snd p)) kwargs -> integers_apart (PInstr args kwargs)
| ia_other n : integers_apart (POther n).

(** A candidate that can be recorded: numbers within their bounds (below the upper one for integers), no constant
    argument, and in each choice an option which is not a choice, has not the value of an other one, and can be recorded. *)
Inductive recordable : par -> Prop :=
| rc_scalar lo hi q : (lo <= q <= hi)%Q -> recordable (PScalar (Some lo) (Some hi) q)
| rc_int lo hi q : (lo <= round_half_even q < hi)%Z -> recordable (PInt (Some lo) (Some hi) q)
| rc_log lo hi q : (lo <= q <= hi)%Q -> recordable (PLog (Some lo) (Some hi) q)
| rc_choice i options o v : nth_error options i = Some o -> value o = Ok v ->
    (forall j o', nth_error options j = Some o' -> j <> i -> exists w, value o' = Ok w /\ eqv v w = false) ->
    (recordable o \/ exists c, o = PConst c) -> (forall j os, o <> PChoice j os) -> recordable (PChoice i options)
| rc_instr args kwargs : Forall recordable args -> Forall (fun p => recordable (snd p)) kwargs -> recordable (PInstr args kwargs).

(** What is drawn for an argument: a number in its bounds, uniformly on the scale of the argument. *)
Definition drawn_for (p : par) (s : space) : Prop :=
  match p with
  | PScalar (Some lo) (Some hi) _ => exists l, s = SUniform l lo hi
  | PLog (Some lo) (Some hi) _ => exists l, s = SLogUniform l lo hi
  | PInt (Some lo) (Some hi) _ => exists l, s = SRandint l lo hi
  | PScalar _ _ _ | PLog _ _ _ | PInt _ _ _ | POther _ => False
  | PChoice _ options => exists l spaces, s = SChoice l spaces /\ length spaces = length options
  | PConst v => s = SConst v
  | PInstr _ _ => exists a k, s = SDict a k
  end.

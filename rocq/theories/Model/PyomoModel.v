(** Model of the wrapper of Pyomo models (nevergrad/functions/pyomo/core.py). Numbers are exact rationals; the floating
    point neighbours used by [np.nextafter] are functions [up] and [down]. The sets of values other than one numeric range of
    step -1, 0 or 1, and the discovery of the components of the model, are left out. *)
From Coq Require Import String Ascii List Arith ZArith QArith Bool.
From Verif.Model Require Import Prelude MultiValue.
Import ListNotations.
Open Scope nat_scope.

(** pyomo [NumericRange]: [None] is an infinite end *)
Record nrange : Type := mkRange {
  r_start : option Q; r_end : option Q; r_step : Z; r_closed : bool * bool }.
(** What [p.Scalar(lower=.., upper=..)] may take, integers only after [set_integer_casting] *)
Record scalar : Type := mkScalar { s_lower : option Q; s_upper : option Q; s_integer : bool }.

Section Range.
  Variable up down : Q -> Q.
  (** [np.nextafter(x, towards)] *)
  Definition nextafter (x towards : Q) : Q :=
    if qlt x towards then up x else if qlt towards x then down x else towards.
  (** core.py:35-36 and 37-38 *)
  Definition shrink (bound : option Q) (closed : bool) (towards : Q) : option Q :=
    match bound with
    | None => None
    | Some b => if closed then Some b else Some (nextafter b towards)
    end.
  (** core.py:28-43, for a list of numeric ranges; another set of values is [NotImplementedError] here. *)
  Definition range_to_scalar (ranges : list nrange) : result scalar :=
    match ranges with
    | [r] =>
        if existsb (Z.eqb (r_step r)) [-1; 0; 1]%Z then
          let (lb, ub) := if (r_step r <? 0)%Z then (r_end r, r_start r) else (r_start r, r_end r) in
          Ok (mkScalar (shrink lb (fst (r_closed r)) 1) (shrink ub (snd (r_closed r)) (-1))
                (existsb (Z.eqb (r_step r)) [-1; 1]%Z))
        else Err NotImplementedError
    | _ => Err NotImplementedError
    end.
End Range.

(** The keys of an indexed variable. *)
Inductive vkey : Type := KNone | KInt (z : Z) | KStr (s : string) | KTuple (l : list vkey).
Open Scope string_scope.
Definition has_char (c : ascii) : string -> bool :=
  fix go s := match s with EmptyString => false | String a s' => (Ascii.eqb a c || go s')%bool end.
Definition squote : ascii := "039"%char.
Definition dquote : ascii := "034"%char.
(** [repr] of a string: single quotes, unless there are some in the string and no double quotes. Escapes are left out. *)
Definition repr_str (s : string) : string :=
  if (has_char squote s && negb (has_char dquote s))%bool then String dquote (s ++ String dquote "")
  else String squote (s ++ String squote "").
Section Names.
  (** [str] of an integer *)
  Variable str_int : Z -> string.
  (** [repr], that [str] of a tuple uses for its items *)
  Fixpoint repr_key (k : vkey) : string :=
    match k with
    | KNone => "None"
    | KInt z => str_int z
    | KStr s => repr_str s
    | KTuple l => "(" ++ String.concat ", " (map repr_key l) ++ match l with [_] => ",)" | _ => ")" end
    end.
  (** core.py:16-20 [_convert_to_ng_name] *)
  Definition ng_name (k : vkey) : string :=
    match k with KStr s => String dquote (s ++ String dquote "") | _ => repr_key k end.
  (** core.py:67-70: the name of the parameter of one variable *)
  Definition param_name (var : string) (k : vkey) : string :=
    match k with KNone => var | _ => var ++ "[" ++ ng_name k ++ "]" end.
End Names.
Close Scope string_scope.

(** The values of the variables in the model, by variable, and the variables of the compiled assignments
    ([None] being the empty string of core.py:138). *)
Record instance : Type := mkInst { i_values : list (nat * Q); i_code : option (list nat) }.

Inductive sense : Type := Minimize | Maximize.
(** The constraints of a component: simple, or indexed *)
Inductive constr : Type := Simple (c : (nat -> option Q) -> bool) | Indexed (l : list ((nat -> option Q) -> bool)).

Section Wrapper.
  (** the name of the parameter of each variable *)
  Variable name : nat -> string.
  Variable objective : (nat -> option Q) -> Q.
  Variable direction : sense.
  Variable constraints : list constr.

  (** core.py:154-157: the name is put between single quotes; a single quote inside ends the literal, which is followed by
      a word: a SyntaxError, written [UserError 0] (names in which that rest is an expression are left out). *)
  Definition compiles (keys : list nat) : bool := forallb (fun k => negb (has_char squote (name k))) keys.
  (** core.py:156, 159: the assignments, in order *)
  Fixpoint assign (keys : list nat) (args : list (nat * Q)) (values : list (nat * Q)) : result (list (nat * Q)) :=
    match keys with
    | [] => Ok values
    | k :: keys' => match dget k args with
                    | None => Err KeyError
                    | Some v => assign keys' args (dset k v values)
                    end
    end.
  (** core.py:152-159 [_pyomo_value_assignment]; an assignment which raises leaves the values as they are here *)
  Definition value_assignment (args : list (nat * Q)) (m : instance) : result instance :=
    let keys := match i_code m with Some c => c | None => dkeys args end in
    if match i_code m with Some _ => true | None => compiles keys end then
      bind (assign keys args (i_values m)) (fun v => Ok (mkInst v (Some keys)))
    else Err (UserError 0).
  (** core.py:161-165; the senses of pyomo are 1 and -1 *)
  Definition call_objective (args : list (nat * Q)) (m : instance) : result (Q * instance) :=
    bind (value_assignment args m) (fun m =>
      let v := objective (fun k => dget k (i_values m)) in
      Ok ((match direction with Minimize => v * 1 | Maximize => v * -1 end)%Q, m)).
  (** core.py:174-179 *)
  Fixpoint all_hold (l : list ((nat -> option Q) -> bool)) (env : nat -> option Q) : bool :=
    match l with [] => true | c :: l' => if c env then all_hold l' env else false end.
  (** core.py:167-183 *)
  Definition call_constraint (i : nat) (args : list (nat * Q)) (m : instance) : result (bool * instance) :=
    bind (value_assignment args m) (fun m =>
      match nth_error constraints i with
      | None => Err IndexError
      | Some (Simple c) => Ok (c (fun k => dget k (i_values m)), m)
      | Some (Indexed l) => Ok (all_hold l (fun k => dget k (i_values m)), m)
      end).

  (** A history of calls: the objective, or the check of one constraint. *)
  Inductive request : Type := RObjective (args : list (nat * Q)) | RConstraint (i : nat) (args : list (nat * Q)).
  Definition perform (r : request) (m : instance) : result instance :=
    match r with
    | RObjective args => bind (call_objective args m) (fun p => Ok (snd p))
    | RConstraint i args => bind (call_constraint i args m) (fun p => Ok (snd p))
    end.
  Fixpoint history (l : list request) (m : instance) : result instance :=
    match l with [] => Ok m | r :: l' => bind (perform r m) (history l') end.
End Wrapper.

(** The search space which the optimizer HyperOpt makes from an instrumentation, and how it reads and writes the
    trials of the package hyperopt: nevergrad/optimization/externalbo.py. Numbers are exact; the package is
    represented by what it documents: the draws allowed by a space, the value of a space for some draws, the
    refusal of repeated labels. *)
From Coq Require Import Arith ZArith QArith Bool DecimalString String List.
From Verif.Model Require Import Prelude MultiValue Layers.
Import ListNotations.
Open Scope nat_scope.

(** Values: numbers, other objects (up to equality), and [(args, kwargs)] of an instrumentation. *)
Inductive val : Type := VNum (q : Q) | VObj (n : nat) | VCall (args : list val) (kwargs : list (string * val)).
(** Parameters. Of a scalar or log-scalar: its bounds and its number; of an integer scalar the bounds are integers,
    and the number is rounded when it is read. [PChoice index options] has no repetitions; the index is the one
    drawn. [POther] is any other class of parameter, by its name. *)
Inductive par : Type :=
| PScalar (lo hi : option Q) (raw : Q)
| PInt (lo hi : option Z) (raw : Q)
| PLog (lo hi : option Q) (raw : Q)
| PChoice (index : nat) (options : list par)
| PConst (v : val)
| PInstr (args : list par) (kwargs : list (string * par))
| POther (name : nat).
Fixpoint assoc {A} (k : string) (l : list (string * A)) : option A :=
  match l with [] => None | (k', a) :: l' => if String.eqb k k' then Some a else assoc k l' end.
Definition each {A B} (f : A -> result B) : list A -> result (list B) :=
  fix go l := match l with [] => Ok [] | a :: l' => bind (f a) (fun b => bind (go l') (fun bs => Ok (b :: bs))) end.
Definition each_key {A B} (f : string -> A -> result B) : list (string * A) -> result (list (string * B)) :=
  fix go l := match l with [] => Ok [] | (k, a) :: l' => bind (f k a) (fun b => bind (go l') (fun bs => Ok ((k, b) :: bs))) end.
Definition each_pos {A B} (f : nat -> A -> result B) : nat -> list A -> result (list B) :=
  fix go i l := match l with [] => Ok [] | a :: l' => bind (f i a) (fun b => bind (go (S i) l') (fun bs => Ok (b :: bs))) end.
Definition pick {A B} (f : A -> result B) : list A -> nat -> result B :=
  fix go l i := match l with [] => Err IndexError | a :: l' => match i with O => f a | S i => go l' i end end.
Definition fold_pos {A D} (f : nat -> D -> A -> result D) : nat -> D -> list A -> result D :=
  fix go i d l := match l with [] => Ok d | a :: l' => bind (f i d a) (fun d' => go (S i) d' l') end.
Definition fold_key {A D} (f : string -> D -> A -> result D) : D -> list (string * A) -> result D :=
  fix go d l := match l with [] => Ok d | (k, a) :: l' => bind (f k d a) (fun d' => go d' l') end.

(** Python's [==]: dicts are equal when they have the same keys and equal values *)
Fixpoint eqv (a b : val) : bool :=
  match a, b with
  | VNum p, VNum q => Qeq_bool p q
  | VObj m, VObj n => m =? n
  | VCall args kwargs, VCall args' kwargs' =>
      (fix go l l' := match l, l' with [], [] => true | x :: l, y :: l' => eqv x y && go l l' | _, _ => false end) args args' &&
      ((length kwargs =? length kwargs') &&
       (fix go l := match l with [] => true | (k, x) :: l => match assoc k kwargs' with Some y => eqv x y | None => false end && go l end) kwargs)
  | _, _ => false
  end.

(** [parameter.value]: data.py, choice.py:59-62, core.py:493, container.py:145-146, :184-185 *)
Fixpoint value (p : par) : result val :=
  match p with
  | PScalar _ _ q | PLog _ _ q => Ok (VNum q)
  | PInt _ _ q => Ok (VNum (inject_Z (round_half_even q)))
  | PChoice i options => pick value options i
  | PConst v => Ok v
  | PInstr args kwargs => bind (each value args) (fun a => bind (each_key (fun _ => value) kwargs) (fun k => Ok (VCall a k)))
  | POther n => Ok (VObj n)
  end.
Definition within {A} (le : A -> A -> bool) (lo hi : option A) (q : A) : bool :=
  match lo with Some l => le l q | None => true end && match hi with Some h => le q h | None => true end.
Definition is_key {A} (k : string) (l : list (string * A)) : bool := match assoc k l with Some _ => true | None => false end.
(** [parameter.value = v]. Data: the value must be a number within the bounds (transforms.py:213-219). choice.py:64-81: the
    first option that accepts it; the options which refused are taken as unchanged (their value is not read). core.py:496-506;
    container.py:148-157, :187-194. Setting the value of other classes is not modelled. *)
Fixpoint set_value (p : par) (v : val) : result par :=
  match p with
  | PScalar lo hi _ => match v with VNum q => if within qle lo hi q then Ok (PScalar lo hi q) else Err ValueError | _ => Err TypeError end
  | PLog lo hi _ => match v with VNum q => if within qle lo hi q then Ok (PLog lo hi q) else Err ValueError | _ => Err TypeError end
  | PInt lo hi _ =>
      match v with
      | VNum q => if within qle (option_map inject_Z lo) (option_map inject_Z hi) q then Ok (PInt lo hi q) else Err ValueError
      | _ => Err TypeError
      end
  | PChoice _ options =>
      (fix go i before l := match l with
                            | [] => Err ValueError
                            | o :: l => match set_value o v with
                                        | Ok o' => Ok (PChoice i (before ++ o' :: l))
                                        | Err _ => go (S i) (before ++ [o]) l
                                        end
                            end) 0 [] options
  | PConst c => if eqv v c then Ok (PConst c) else Err ValueError
  | PInstr args kwargs =>
      match v with
      | VCall vargs vkwargs =>
          if negb (length vargs =? length args) then Err ValueError
          else if negb (forallb (fun p => is_key (fst p) kwargs) vkwargs && forallb (fun p => is_key (fst p) vkwargs) kwargs) then Err ValueError
          else bind (each_pos (fun i p => match nth_error vargs i with Some v => set_value p v | None => Err IndexError end) 0 args) (fun a =>
               bind (each_key (fun k p => match assoc k vkwargs with Some v => set_value p v | None => Err KeyError end) kwargs) (fun k =>
                 Ok (PInstr a k)))
      | _ => Err ValueError
      end
  | POther _ => Err NotImplementedError
  end.

(** * The search space *)
(** The spaces of hyperopt: uniform in an interval (for [loguniform], the interval of the exponentials), integers in
    [low, high), choice of a space, constant, and the dict made from an instrumentation. *)
Inductive space : Type :=
| SUniform (label : string) (lo hi : Q)
| SLogUniform (label : string) (lo hi : Q)
| SRandint (label : string) (lo hi : Z)
| SChoice (label : string) (options : list space)
| SConst (v : val)
| SDict (args kwargs : list (string * space)).
Definition str (n : nat) : string := NilZero.string_of_uint (Nat.to_uint n).
Definition option_label (name : string) (i : nat) : string := (name ++ "__" ++ str i)%string.
(** externalbo.py:76-83: the types of the options which are neither instrumentations nor constants *)
Definition types (options : list par) : list nat :=
  flat_map (fun p => match p with PScalar _ _ _ | PInt _ _ _ => [0] | PLog _ _ _ => [1] | PChoice _ _ => [2] | POther n => [3 + n] | _ => [] end) options.
Fixpoint no_repeat (l : list nat) : bool := match l with [] => true | a :: l => negb (existsb (Nat.eqb a) l) && no_repeat l end.
(** externalbo.py:47-97 [_get_search_space]: [param.bounds] is [(None, None)] without bounds (data.py:128-129), or has one
    [None]: indexing it raises. *)
Fixpoint search_space (name : string) (p : par) : result space :=
  match p with
  | PInstr args kwargs =>
      bind (each_pos (fun i p => bind (search_space (str i) p) (fun s => Ok (str i, s))) 0 args) (fun a =>
      bind (each_key search_space kwargs) (fun k => Ok (SDict a k)))
  | PScalar (Some lo) (Some hi) _ => Ok (SUniform name lo hi)
  | PInt (Some lo) (Some hi) _ => Ok (SRandint name lo hi)
  | PLog (Some lo) (Some hi) _ => Ok (SLogUniform name lo hi)
  | PScalar _ _ _ | PInt _ _ _ | PLog _ _ _ => Err TypeError
  | PChoice _ options =>
      if negb (no_repeat (types options)) then Err NotImplementedError
      else bind (each_pos (fun i => search_space (option_label name i)) 0 options) (fun r => Ok (SChoice name r))
  | PConst v => Ok (SConst v)
  | POther _ => Err NotImplementedError
  end.
(** the labels of a space *)
Fixpoint labels (s : space) : list string :=
  match s with
  | SUniform l _ _ | SLogUniform l _ _ | SRandint l _ _ => [l]
  | SChoice l options => l :: flat_map labels options
  | SConst _ => []
  | SDict args kwargs => flat_map (fun p => labels (snd p)) args ++ flat_map (fun p => labels (snd p)) kwargs
  end.
(** [hyperopt.exceptions.DuplicateLabel] *)
Definition DuplicateLabel : exn := UserError 50.
Fixpoint distinct (l : list string) : bool := match l with [] => true | a :: l => negb (existsb (String.eqb a) l) && distinct l end.
(** externalbo.py:113-123 [_HyperOpt.__init__]: [None] when the parameter is mapped from the unit cube instead. [root] is the
    name of the parameter. *)
Definition create (root : string) (p : par) : result (option space) :=
  match p with
  | PInstr _ _ =>
      match search_space root p with
      | Err NotImplementedError => Ok None
      | Err e => Err e
      | Ok s => if distinct (labels s) then Ok (Some s) else Err DuplicateLabel
      end
  | _ => Ok None
  end.

(** * Trials *)
(** The draws of a trial, [misc["vals"]]: a list of at most one value for each label. *)
Definition vals : Type := list (string * list val).
(** [hyperopt.space_eval]: the dicts have the keys of the space *)
Inductive config : Type := CVal (v : val) | CDict (args kwargs : list (string * config)).
Definition drawn (vs : vals) (l : string) : result val :=
  match assoc l vs with Some [v] => Ok v | Some [] => Err KeyError | Some _ => Err NotImplementedError | None => Err KeyError end.
(** the index of a choice must be a natural number *)
Definition as_index (v : val) : result nat :=
  match v with
  | VNum q => if Qeq_bool q (inject_Z (Qnum q / Z.pos (Qden q))) && (0 <=? Qnum q)%Z then Ok (Z.to_nat (Qnum q / Z.pos (Qden q))) else Err ValueError
  | _ => Err TypeError
  end.
Fixpoint space_eval (s : space) (vs : vals) : result config :=
  match s with
  | SUniform l _ _ | SLogUniform l _ _ | SRandint l _ _ => bind (drawn vs l) (fun v => Ok (CVal v))
  | SChoice l options =>
      bind (drawn vs l) (fun v => bind (as_index v) (fun i => pick (fun s => space_eval s vs) options i))
  | SConst v => Ok (CVal v)
  | SDict args kwargs =>
      bind (each_key (fun _ s => space_eval s vs) args) (fun a => bind (each_key (fun _ s => space_eval s vs) kwargs) (fun k => Ok (CDict a k)))
  end.
(** externalbo.py:39-44 [_hp_dict_to_parametrization]. The arguments are converted where they are, then looked up by
    position. *)
Fixpoint from_config (c : config) : result val :=
  match c with
  | CVal v => Ok v
  | CDict args kwargs =>
      bind (each_key (fun _ => from_config) args) (fun conv =>
      bind (each (fun i => match assoc (str i) conv with Some v => Ok v | None => Err KeyError end) (seq 0 (length args))) (fun a =>
      bind (each_key (fun _ => from_config) kwargs) (fun k => Ok (VCall a k))))
  end.
(** externalbo.py:160-162: the candidate for a trial *)
Definition candidate (s : space) (p : par) (vs : vals) : result par :=
  bind (space_eval s vs) (fun c => bind (from_config c) (set_value p)).

(** [dict.update] *)
Fixpoint upsert (k : string) (v : list val) (d : vals) : vals :=
  match d with [] => [(k, v)] | (k', v') :: d' => if String.eqb k k' then (k, v) :: d' else (k', v') :: upsert k v d' end.
Definition update (d e : vals) : vals := fold_left (fun d kv => upsert (fst kv) (snd kv) d) e d.
(** externalbo.py:17-36 [_hp_parametrization_to_dict]: for a constant, or any other class, it returns [None], with which
    [update] raises. *)
Fixpoint to_dict (start : vals) (name : string) (p : par) : result vals :=
  match p with
  | PInstr args kwargs =>
      bind (fold_pos (fun i d p => bind (to_dict [] (str i) p) (fun e => Ok (update d e))) 0 start args) (fun d =>
        fold_key (fun k d p => bind (to_dict [] k p) (fun e => Ok (update d e))) d kwargs)
  | PScalar _ _ _ | PInt _ _ _ | PLog _ _ _ => bind (value p) (fun v => Ok [(name, [v])])
  | PChoice _ options =>
      bind (value p) (fun v =>
        fold_pos (fun i d o =>
          bind (value o) (fun w =>
            if eqv v w then
              let d := upsert name [VNum (inject_Z (Z.of_nat i))] d in
              match o with
              | PScalar _ _ _ | PInt _ _ _ | PLog _ _ _ | PChoice _ _ => Ok (upsert (option_label name i) [w] d)
              | PInstr _ _ => bind (to_dict [] name o) (fun e => Ok (update d e))
              | _ => Ok d
              end
            else Ok d)) 0 [] options)
  | PConst _ | POther _ => Err TypeError
  end.
(** externalbo.py:181-199 [_internal_tell_not_asked]: the draws recorded for a candidate which was not asked *)
Definition record (s : space) (p : par) : result vals := to_dict (map (fun l => (l, [])) (labels s)) "" p.

(** Vocabulary for configured optimizers. *)
From Coq Require Import Arith Bool String List Sorted.
From Verif.Model Require Import Configured.
Import ListNotations.
Open Scope nat_scope.

Section S.
Context {val : Type}.

(** the key is one of [d] *)
Definition has_key (d : list (string * val)) (k : string) : Prop := exists v, In (k, v) d.

(** The configured optimizer that is wrapped in [o], through any number of others, and gives
    its configuration to the optimizer class [c]. *)
Inductive innermost (os : list cobj) : nat -> nat -> nat -> Prop :=
| here o b c : nth_error os o = Some b -> o_target b = Class c -> innermost os o o c
| inside o b o' i c : nth_error os o = Some b -> o_target b = Other o' -> innermost os o' i c -> innermost os o i c.

(** The text "k1=v1, k2=v2" *)
Fixpoint listing (repr : val -> string) (l : list (string * val)) : string :=
  match l with
  | [] => ""
  | [(k, v)] => k ++ "=" ++ repr v
  | (k, v) :: l' => k ++ "=" ++ repr v ++ ", " ++ listing repr l'
  end%string.

(** [l]: the parameters of [d], in alphabetical order, whose value differs from the default
    and which are not private *)
Definition changed_parameters (differs : val -> val -> bool) (dflt d l : list (string * val)) : Prop :=
  Sorted (fun a b => String.leb (fst a) (fst b) = true) l /\ NoDup (map fst l) /\
  forall k v, In (k, v) l <->
    In (k, v) d /\ String.prefix "_" k = false /\ exists y, In (k, y) dflt /\ differs y v = true.
End S.

(** Vocabulary for the small tools. *)
From Coq Require Import Arith ZArith QArith Bool Ascii String List.
From Verif.Model Require Import Prelude Tools.
Import ListNotations.
Open Scope nat_scope.

(** all the first elements, then all the second ones, ... *)
Definition kth {A} (k : nat) (ls : list (list A)) : list A :=
  flat_map (fun l => match nth_error l k with Some x => [x] | None => [] end) ls.
Definition by_rank {A} (ls : list (list A)) : list A :=
  flat_map (fun k => kth k ls) (seq 0 (list_max (map (@length A) ls))).

(** the leaves of a structure with their dotted paths, in order *)
Definition join (k : string) (p : option string) : string :=
  match p with None => k | Some p => (k ++ "." ++ p)%string end.
Fixpoint leaves (o : obj) : list (option string * nat) :=
  match o with
  | OLeaf x => [(None, x)]
  | OList l =>
      (fix go (i : nat) (l : list obj) : list (option string * nat) :=
         match l with
         | [] => []
         | v :: l' => map (fun px => (Some (join (show_key (FInt i)) (fst px)), snd px)) (leaves v) ++ go (S i) l'
         end) 0 l
  | ODict l =>
      (fix go (l : list (fkey * obj)) : list (option string * nat) :=
         match l with
         | [] => []
         | (k, v) :: l' => map (fun px => (Some (join (show_key k) (fst px)), snd px)) (leaves v) ++ go l'
         end) l
  end.
Definition path_of (p : option string) : string := match p with None => EmptyString | Some s => s end.
(** no dot in the keys, and keys of one dict are different strings *)
Fixpoint no_dot (s : string) : Prop :=
  match s with EmptyString => True | String c s' => c <> "."%char /\ no_dot s' end.
Fixpoint clean (o : obj) : Prop :=
  match o with
  | OLeaf _ => True
  | OList l => (fix go (l : list obj) : Prop := match l with [] => True | v :: l' => clean v /\ go l' end) l
  | ODict l =>
      NoDup (map (fun kv => show_key (fst kv)) l) /\
      (fix go (l : list (fkey * obj)) : Prop := match l with [] => True | (k, v) :: l' => no_dot (show_key k) /\ clean v /\ go l' end) l
  end.

(** the object a name stands for after a history, the latest operation first: a
    registration counts only when the name is free *)
Fixpoint owner (name : nat) (latest_first : list rop) : option nat :=
  match latest_first with
  | [] => None
  | RRegister n o _ :: before => if n =? name then match owner name before with Some x => Some x | None => Some o end
                                 else owner name before
  | RSet n o :: before => if n =? name then Some o else owner name before
  | RUnregister n :: before | RDel n :: before => if n =? name then None else owner name before
  | _ :: before => owner name before
  end.
(** the information given with the last successful registration which gave one *)
Fixpoint last_info (name : nat) (latest_first : list rop) : option nat :=
  match latest_first with
  | [] => None
  | RRegister n _ (Some i) :: before =>
      if n =? name then match owner name before with Some _ => last_info name before | None => Some i end
      else last_info name before
  | _ :: before => last_info name before
  end.

(** the durations measured by a history of starts and stops: a start counts when none is
    pending, a stop when one is *)
Fixpoint durations (pending : option Q) (ops : list slop) : list Q :=
  match ops with
  | [] => []
  | SStart now :: ops => durations (match pending with Some t => Some t | None => Some now end) ops
  | SStop now :: ops => match pending with
                        | Some t => (now - t)%Q :: durations None ops
                        | None => durations None ops
                        end
  end.
Fixpoint pending_start (pending : option Q) (ops : list slop) : option Q :=
  match ops with
  | [] => pending
  | SStart now :: ops => pending_start (match pending with Some t => Some t | None => Some now end) ops
  | SStop _ :: ops => pending_start None ops
  end.
Definition last_n {A} (n : nat) (l : list A) : list A := skipn (length l - n) l.

(** Vocabulary for recast optimizers: histories of calls and what was observed of them. *)
From Coq Require Import Bool List Arith.
From Verif.Model Require Import Prelude Recast.
Import ListNotations.

(** The usage documented for sequential optimizers: asks, and tells without penalty *)
Definition plain {L} (c : call (L:=L)) : Prop := match c with Ask _ => True | Tell _ l l' _ => l' = l | Refuse _ _ => False end.
(** The thread is never seen alive after it ended *)
Definition prompt {L} (c : call (L:=L)) : Prop := match c with Ask g => g = false | Tell _ _ _ g => g = false | Refuse _ g => g = false end.
Definition succeeded {P} (x : output (P:=P)) : Prop :=
  match x with OAsk (Returned _) => True | OTell (Returned _) => True | ORefuse (Returned _) => True | _ => False end.
(** The library function did not return yet (or was not called yet) *)
Definition running {P L} (o : opt (P:=P) (L:=L)) : Prop := match o_thread o with None => True | Some t => ended t = false end.
(** It returned, without error *)
Definition finished {P L} (o : opt (P:=P) (L:=L)) : Prop := match o_thread o with None => False | Some t => ended t = true /\ error t = None end.
(** The losses it was given *)
Definition losses_of {P L} (o : opt (P:=P) (L:=L)) : list L := match o_thread o with None => [] | Some t => received t end.

(** Candidates given by ask, candidates given or refused, and losses told, in the order of the calls *)
Fixpoint given {P L} (outs : list (boutput (P:=P) (L:=L))) : list (nat * P) :=
  match outs with [] => [] | BOAsk (Returned x) :: r => x :: given r | _ :: r => given r end.
Fixpoint handed {P L} (outs : list (boutput (P:=P) (L:=L))) : list (nat * P) :=
  match outs with [] => [] | BOAsk (Returned x) :: r => x :: handed r | BORefuse (Returned x) :: r => x :: handed r | _ :: r => handed r end.
Fixpoint told {P L} (outs : list (boutput (P:=P) (L:=L))) : list (nat * L) :=
  match outs with [] => [] | BOTell u l (Returned _) :: r => (u, l) :: told r | _ :: r => told r end.
Definition arrays_of {P L} (o : bopt (P:=P) (L:=L)) : list (list (option L)) := match b_thread o with None => [] | Some t => received t end.
Definition brunning {P L} (o : bopt (P:=P) (L:=L)) : Prop := match b_thread o with None => True | Some t => ended t = false end.
(** Number of points in the first k batches *)
Fixpoint points_before {A} (k : nat) (arrays : list (list A)) : nat :=
  match k, arrays with S k', a :: r => length a + points_before k' r | _, _ => 0 end.

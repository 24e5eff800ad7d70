(** Vocabulary for the delegation to another optimizer. *)
From Coq Require Import List Arith QArith Bool.
From Verif.Model Require Import Prelude MultiValue Float Optimizer.
From Verif.Model Require Import Delegate.
From Verif.Spec Require Import Optimizer.
Import ListNotations.

(** The calls of the public interface corresponding to the exchanges with an algorithm *)
Definition calls (t : list event) : list op :=
  flat_map (fun e => match e with
                     | EAlgAsk => [OAsk]
                     | EAlgTell c l _ => [OTell (CParam c) (LReal l) None]
                     | EArchive _ _ => []
                     end) t.

(** A history without what concerns suggestions *)
Definition but_suggestions (h : history) : history :=
  filter (fun e => match e with
                   | (OSuggest _, _) => false
                   | (OAsk, RCand _ true) => false
                   | _ => true
                   end) h.

(** asks, suggestions, and tells of candidates with one real loss *)
Definition plain_op (o : op) : Prop :=
  match o with
  | OAsk => True
  | OSuggest _ => True
  | OTell (CParam _) (LReal _) None => True
  | OTell _ _ _ => False
  end.

Section Keep.
  Context {A C H ARC HV : Type}.
  Notation D := (delegate A C H).
  (** checking constraints, creating candidates and solving constraints do not touch the
      inner optimizer *)
  Record keeps (E : env D ARC HV) : Prop := {
    k_spawn : forall s, fst (e_spawn _ _ _ E s) = o_alg _ _ _ s;
    k_sat : forall s c, fst (e_satisfies _ _ _ E s c) = o_alg _ _ _ s;
    k_sat2 : forall s c, fst (e_satisfies_no_tabu _ _ _ E s c) = o_alg _ _ _ s;
    k_solver : forall s c, fst (e_solver _ _ _ E s c) = o_alg _ _ _ s }.
End Keep.

(** number of times the algorithm was asked *)
Definition alg_asks (t : list event) : nat :=
  length (filter (fun e => match e with EAlgAsk => true | _ => false end) t).

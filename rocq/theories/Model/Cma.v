(** Model of the bookkeeping of [_CMA] (nevergrad/optimization/optimizerlib.py:722-821) around an evolution strategy of the
    library cma or fcmaes, which is not modelled: it is a state [E] with arbitrary functions.  [X]: standardized data. *)
From Coq Require Import List Arith QArith Bool.
From Verif.Model Require Import Prelude MultiValue Nsga2.
Import ListNotations.
Open Scope nat_scope.

Section Cma.
  Variables (E X : Type).
  Variable popsize : E -> nat.
  (** [ask()] *)
  Variable es_ask : E -> list X * E.
  (** [tell(xs, ys)]; it may raise after it has changed the strategy *)
  Variable es_tell : E -> list X -> list Q -> E * option exn.
  Variable stop : E -> bool.
  (** the strategies which are created, one after the other *)
  Variable fresh : nat -> E.
  Variable fcmaes : bool.
  (** [self._popsize] *)
  Variable pop : nat.

  (** [c_told]: [_to_be_told], candidates (identifier and cached data); [c_loss]: the attribute [loss] of the candidates;
      [c_parents]: [_parents], [None] being the parametrization *)
  Record cma : Type := Cma {
    c_es : option E; c_made : nat; c_queue : list X; c_told : list (nat * X); c_loss : nat -> option Q; c_parents : list (option nat) }.
  (** optimizerlib.py:744-750 *)
  Definition cma_init : cma := Cma None 0 [] [] (fun _ => None) [None].

  Inductive effect : Type :=
  | Drawn (xs : list X)                                             (* the strategy has been asked *)
  | Gave (x : X) (parent : option nat)                              (* a candidate has been returned *)
  | Batch (uids : list nat) (xs : list X) (ys : list Q) (ok : bool). (* the strategy has been told; [ok]: it did not raise *)

  (** optimizerlib.py:752-789 [es] *)
  Definition get_es (s : cma) : E * cma :=
    let renew := let e := fresh (c_made s) in
      (e, Cma (Some e) (S (c_made s)) (c_queue s) (c_told s) (c_loss s) (c_parents s)) in
    match c_es s with
    | None => renew
    | Some e => if negb fcmaes && stop e then renew else (e, s)
    end.

  (** optimizerlib.py:791-797 [_internal_ask_candidate] *)
  Definition cma_ask (num_ask : nat) (s : cma) : list effect * cma * option exn :=
    let '(effs, s) :=
      match c_queue s with
      | _ :: _ => ([], s)
      | [] => let (e, s) := get_es s in let (xs, e) := es_ask e in
          ([Drawn xs], Cma (Some e) (c_made s) xs (c_told s) (c_loss s) (c_parents s))
      end in
    match c_queue s with
    | [] => (effs, s, Some IndexError)
    | x :: q =>
        let s := Cma (c_es s) (c_made s) q (c_told s) (c_loss s) (c_parents s) in
        match length (c_parents s) with
        | 0 => (effs, s, Some ZeroDivisionError)
        | n => (effs ++ [Gave x (nth (num_ask mod n) (c_parents s) None)], s, None)
        end
    end.

  Definition loss_of (s : cma) (u : nat) : Q := match c_loss s u with Some l => l | None => 0%Q end.

  (** base.py:388 and optimizerlib.py:799-819 [_internal_tell_candidate]: the loss which counts is the attribute of the
      candidate, set by [tell] before the penalties are added; [penalised] is not used.  The candidates which wait all
      have a loss, so that the default of [loss_of] is not used.  The property [es] is read again for [tell]; since the
      strategy has not changed in between, it is the same one. *)
  Definition cma_tell (u : nat) (x : X) (loss penalised : Q) (s : cma) : list effect * cma * option exn :=
    let s := Cma (c_es s) (c_made s) (c_queue s) (c_told s ++ [(u, x)])
                 (fun v => if v =? u then Some loss else c_loss s v) (c_parents s) in
    let (e, s) := get_es s in
    if popsize e <=? length (c_told s) then
      let uids := map fst (c_told s) in
      let xs := map snd (c_told s) in
      let ys := map (loss_of s) uids in
      match es_tell e xs ys with
      | (e, None) =>
          let parents := firstn (pop / 2) (stable_sort (fun u v => qle (loss_of s u) (loss_of s v)) uids) in
          ([Batch uids xs ys true], Cma (Some e) (c_made s) (c_queue s) [] (c_loss s) (map Some parents), None)
      | (e, Some RuntimeError) | (e, Some AssertionError) =>
          ([Batch uids xs ys false], Cma (Some e) (c_made s) (c_queue s) [] (c_loss s) (c_parents s), None)
      | (e, Some ex) =>
          ([Batch uids xs ys false], Cma (Some e) (c_made s) (c_queue s) (c_told s) (c_loss s) (c_parents s), Some ex)
      end
    else ([], s, None).

  Inductive cma_event : Type := CAsk (num_ask : nat) | CTell (u : nat) (x : X) (loss penalised : Q).
  Definition cma_step (ev : cma_event) (s : cma) : list effect * cma * option exn :=
    match ev with CAsk n => cma_ask n s | CTell u x l p => cma_tell u x l p s end.
  (** A history, which goes on after an exception; [None]: no exception *)
  Fixpoint cma_run (evs : list cma_event) (s : cma) : list effect * cma * list (option exn) :=
    match evs with
    | [] => ([], s, [])
    | ev :: evs =>
        let '(effs, s, ex) := cma_step ev s in
        let '(effs', s, exs) := cma_run evs s in
        (effs ++ effs', s, ex :: exs)
    end.
End Cma.
Arguments Drawn {X}. Arguments Gave {X}. Arguments Batch {X}. Arguments CAsk {X}. Arguments CTell {X}.
Arguments c_es {E X}. Arguments c_made {E X}. Arguments c_queue {E X}. Arguments c_told {E X}. Arguments c_loss {E X}. Arguments c_parents {E X}.
Arguments Cma {E X}. Arguments loss_of {E X}.

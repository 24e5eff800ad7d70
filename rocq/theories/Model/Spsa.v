(** Model of [SPSA] (nevergrad/optimization/optimizerlib.py:1546-1612), with exact arithmetic.  An array is a list of
    numbers, or [None] when all its entries are NaN (the only other possibility here: [delta] starts as the scalar NaN, and
    NaN spreads to all the entries of the arrays computed from it). *)
From Coq Require Import List Arith QArith Bool.
From Verif.Model Require Import Prelude MultiValue.
Import ListNotations.
Open Scope nat_scope.

Definition zipw (f : Q -> Q -> Q) (a b : list Q) : list Q := map (fun xy => f (fst xy) (snd xy)) (combine a b).
Definition arr : Type := option (list Q).
Definition arr2 (f : Q -> Q -> Q) (a b : arr) : arr :=
  match a, b with Some a, Some b => Some (zipw f a b) | _, _ => None end.

Record spsa : Type := Spsa {
  sp_idx : nat; sp_init : bool; sp_delta : arr; sp_ym : option Q; sp_yp : option Q; sp_t : arr; sp_avg : arr }.

(** optimizerlib.py:1567-1576 *)
Definition spsa_init (d : nat) : spsa := Spsa 0 true None None None (Some (repeat 0%Q d)) (Some (repeat 0%Q d)).

Section Gains.
  (** optimizerlib.py:1589-1595 [_ak] and [_ck] as functions of [k // 2]; their values (powers of [k // 2 + 1]) are left
      arbitrary *)
  Variables (a c : nat -> Q).
  Definition ak (k : nat) : Q := a (k / 2).
  Definition ck (k : nat) : Q := c (k / 2).

  (** optimizerlib.py:1597-1606 [_internal_ask]; [draw]: the array [2 * randint(2, size=dimension) - 1] *)
  Definition spsa_ask (draw : list Q) (s : spsa) : result (arr * spsa) :=
    let k := sp_idx s in
    if k mod 2 =? 0 then
      let moved :=
        if sp_init s then Ok (sp_t s, sp_avg s) else
        match sp_yp s, sp_ym s with
        | Some yp, Some ym =>
            let t := arr2 (fun t delta => t - (ak k * (yp - ym) / 2 / ck k) * delta)%Q (sp_t s) (sp_delta s) in
            Ok (t, arr2 (fun avg t => avg + (t - avg) / qnat (k / 2 + 1))%Q (sp_avg s) t)
        | _, _ => Err AssertionError
        end in
      bind moved (fun ta =>
        let (t, avg) := ta in
        Ok (arr2 (fun t delta => t - ck k * delta)%Q t (Some draw),
            Spsa k (sp_init s) (Some draw) (sp_ym s) (sp_yp s) t avg))
    else Ok (arr2 (fun t delta => t + ck k * delta)%Q (sp_t s) (sp_delta s), s).

  (** optimizerlib.py:1608-1612 [_internal_tell]: also for points which were not asked (base.py [_internal_tell_not_asked]) *)
  Definition spsa_tell (loss : Q) (s : spsa) : spsa :=
    let ym := if sp_idx s mod 2 =? 0 then Some loss else sp_ym s in
    let yp := if sp_idx s mod 2 =? 0 then sp_yp s else Some loss in
    let init := if sp_init s then match yp, ym with Some _, Some _ => false | _, _ => true end else false in
    Spsa (S (sp_idx s)) init (sp_delta s) ym yp (sp_t s) (sp_avg s).

  (** optimizerlib.py:1614-1615 *)
  Definition spsa_recommend (s : spsa) : arr := sp_avg s.

  Inductive spsa_event : Type := Ask (draw : list Q) | Tell (loss : Q).
  (** The candidates of a history, and the state at its end *)
  Fixpoint spsa_run (evs : list spsa_event) (s : spsa) : result (list arr * spsa) :=
    match evs with
    | [] => Ok ([], s)
    | Ask draw :: evs => bind (spsa_ask draw s) (fun xs => bind (spsa_run evs (snd xs)) (fun r => Ok (fst xs :: fst r, snd r)))
    | Tell loss :: evs => spsa_run evs (spsa_tell loss s)
    end.
End Gains.

(** Model of nevergrad/functions/arcoating/core.py: the anti-reflective coating. Numbers are exact
    reals, complex numbers are pairs. Simplified: the tangent is any function (the exact one has
    poles); a division by zero, which numpy turns into nan, is an error. *)
From Coq Require Import Reals List Arith Bool.
From Verif.Model Require Import Prelude.
Import ListNotations.
Open Scope R_scope.

Definition rltb (x y : R) : bool := if Rlt_dec x y then true else false.
Definition reqb (x y : R) : bool := if Req_EM_T x y then true else false.

(** complex arithmetic *)
Definition cx : Type := (R * R)%type.
Definition cadd (u v : cx) : cx := (fst u + fst v, snd u + snd v).
Definition csub (u v : cx) : cx := (fst u - fst v, snd u - snd v).
Definition cmul (u v : cx) : cx := (fst u * fst v - snd u * snd v, fst u * snd v + snd u * fst v).
Definition real (x : R) : cx := (x, 0).
Definition imag (x : R) : cx := (0, x).
Definition cabs2 (u : cx) : R := fst u * fst u + snd u * snd u.
Definition cdiv (u v : cx) : result cx :=
  if reqb (cabs2 v) 0 then Err ZeroDivisionError
  else Ok ((fst u * fst v + snd u * snd v) / cabs2 v, (snd u * fst v - fst u * snd v) / cabs2 v).
Definition rdiv (x y : R) : result R := if reqb y 0 then Err ZeroDivisionError else Ok (x / y).

Section Coating.
Variable tangent : R -> R.
(** core.py:26-27: one slab; [n] is its index *)
Definition slab (k0d : R) (Z : cx) (n : R) : result cx :=
  bind (rdiv 1 n) (fun etha =>
  cdiv (cmul (real etha) (cadd Z (imag (etha * tangent (k0d * n)))))
       (cadd (real etha) (cmul (imag 1) (cmul Z (real (tangent (k0d * n))))))).
Fixpoint slabs (k0d : R) (Z : cx) (ns : list R) : result cx :=
  match ns with [] => Ok Z | n :: ns' => bind (slab k0d Z n) (fun Z' => slabs k0d Z' ns') end.
(** core.py:16-29 *)
Definition impedance_pix (x : list R) (dpix lam ep0 epf : R) : result R :=
  bind (rdiv (2 * PI * dpix) lam) (fun k0d =>
  bind (rdiv 1 (sqrt epf)) (fun Z0 =>
  bind (slabs k0d (real Z0) (rev (map sqrt x))) (fun Z =>
  bind (rdiv 1 (sqrt ep0)) (fun z =>
  bind (cdiv (csub Z (real z)) (cadd Z (real z))) (fun r => Ok (cabs2 r * 100)))))).

(** core.py:56 *)
Definition lambdas : list R := map (fun k => 400 + 5 * INR k) (seq 0 100).
(** core.py:54-65 [ARCoating.__init__]: the width of the slabs *)
Definition coating (nbslab d_ar : nat) : result R :=
  if (nbslab =? 0)%nat then Err ZeroDivisionError
  else if (10 * nbslab <=? d_ar)%nat then Ok (INR d_ar / INR nbslab) else Err AssertionError.
(** core.py:75-84 [_get_minimum_average_reflexion]; [None] is infinity *)
Fixpoint average (f : R -> result R) (ls : list R) (value : R) : result R :=
  match ls with
  | [] => Ok value
  | l :: ls' => bind (f l) (fun RE => average f ls' (value + RE / INR (length lambdas)))
  end.
Definition reflexion (nbslab : nat) (dpix : R) (x : list R) : result (option R) :=
  if negb (length x =? nbslab)%nat then Err AssertionError
  else if existsb (fun v => rltb v 1) x || existsb (fun v => rltb 9 v) x then Ok None
  else bind (average (fun lam => impedance_pix x dpix lam 1 9) lambdas 0) (fun v => Ok (Some v)).
End Coating.

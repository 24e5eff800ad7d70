(** What the copies of a multiple run are told *)
From Coq Require Import List Arith QArith.
From Verif.Model Require Import Prelude MultiValue Pareto Hypervolume HypervolumePareto.
From Verif.Model Require Float.
Import ListNotations.

Fixpoint total (w : list Q) : Q := match w with [] => 0 | c :: w => c + total w end.
(** [v] is [k] times [l] *)
Definition times (k : Q) (l v : Float.fl) : Prop :=
  match l with
  | Float.Fin q => exists r, v = Float.Fin r /\ r == k * q
  | _ => v = l
  end.
(** positive weights, one list of [d] weights for each copy *)
Definition weights (d : nat) (draw : list (list Q)) : Prop := Forall (fun w => length w = d /\ Forall (Qlt 0) w) draw.
(** the weighted sum of the objectives *)
Fixpoint weighted_sum (w losses : list Q) : Q := match w, losses with c :: w, l :: losses => c * l + weighted_sum w losses | _, _ => 0 end.
(** the single losses computed from the hypervolume, one candidate after the other *)
Fixpoint hypervolume_losses (h : hpareto) (tells : list (nat * list Q)) : list (result loss_t) :=
  match tells with [] => [] | p :: tells => snd (hp_add p h) :: hypervolume_losses (fst (hp_add p h)) tells end.

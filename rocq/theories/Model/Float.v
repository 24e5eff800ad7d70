(** Floating point values: exact rationals plus the IEEE special values.
    Rounding is not modelled. *)
From Coq Require Import QArith Bool.
From Verif.Model Require Import MultiValue.
Open Scope Q_scope.

Inductive fl : Type := NaN | NegInf | Fin (q : Q) | PosInf.

(** IEEE comparison [a < b]: false as soon as one is NaN. *)
Definition fl_lt (a b : fl) : bool :=
  match a, b with
  | NaN, _ | _, NaN => false
  | NegInf, NegInf => false
  | NegInf, _ => true
  | _, NegInf => false
  | Fin x, Fin y => qlt x y
  | Fin _, PosInf => true
  | PosInf, _ => false
  end.
Definition fl_le (a b : fl) : bool :=
  match a, b with
  | NaN, _ | _, NaN => false
  | NegInf, _ => true
  | _, PosInf => true
  | Fin x, Fin y => qle x y
  | _, _ => false
  end.

(** IEEE addition (exact). *)
Definition fl_add (a b : fl) : fl :=
  match a, b with
  | NaN, _ | _, NaN => NaN
  | NegInf, PosInf | PosInf, NegInf => NaN
  | NegInf, _ | _, NegInf => NegInf
  | PosInf, _ | _, PosInf => PosInf
  | Fin x, Fin y => Fin (x + y)
  end.

(** IEEE multiplication (exact) by a finite number. *)
Definition fl_mulq (a : fl) (q : Q) : fl :=
  match a with
  | NaN => NaN
  | Fin x => Fin (x * q)
  | PosInf => if qlt 0 q then PosInf else if qlt q 0 then NegInf else NaN
  | NegInf => if qlt 0 q then NegInf else if qlt q 0 then PosInf else NaN
  end.

(** [np.maximum(a, 0.0)] (propagates NaN). *)
Definition fl_pos (a : fl) : fl :=
  match a with
  | NaN => NaN
  | NegInf => Fin 0
  | Fin x => Fin (qmax x 0)
  | PosInf => PosInf
  end.

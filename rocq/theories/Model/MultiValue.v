(** Model of [MultiValue] (nevergrad/optimization/utils.py).
    Numbers are exact rationals (no rounding); [msqrt] stands for [np.sqrt] and
    [math.sqrt] and is an arbitrary function. *)
From Coq Require Import List Arith ZArith QArith Bool.
Import ListNotations.
Open Scope Q_scope.

(** Comparisons as in Python ([a < b] on finite floats). *)
Definition qlt (a b : Q) : bool := negb (Qle_bool b a).
Definition qle (a b : Q) : bool := Qle_bool a b.
(** Python [min(a, b)] and [max(a, b)]: the first unless the second is strictly better. *)
Definition qmin (a b : Q) : Q := if qlt b a then b else a.
Definition qmax (a b : Q) : Q := if qlt a b then b else a.

(** [count] as a number. *)
Definition qnat (n : nat) : Q := inject_Z (Z.of_nat n).

(** optimization/utils.py:15-44 fields of [MultiValue]; [mv_param] is the uid of
    the stored candidate. [_ref] is the optimizer's parametrization, constant. *)
Record mv : Type := MV {
  mv_count : nat; mv_mean : Q; mv_min : Q; mv_square : Q; mv_var : Q; mv_param : nat }.

(** optimization/utils.py:35-44 [MultiValue.__init__]. *)
Definition mv_new (c : nat) (y : Q) : mv := MV 1 y y (y * y) 1000000 c.

(** optimization/utils.py:79-82: clipping of a re-evaluation at +-1e10. *)
Definition big : Q := 10000000000.
Definition mv_clip (y : Q) : Q :=
  if qlt big y then big else if qlt y (- big) then - big else y.

Section Sqrt.
  Variable msqrt : Q -> Q.

  (** optimization/utils.py:71-93 [MultiValue.add_evaluation].  The OverflowError
      branch (line 92-93) cannot occur with exact numbers. *)
  Definition mv_add (y0 : Q) (m : mv) : mv :=
    let y := mv_clip y0 in
    let minimum := qmin (mv_min m) y in
    let ratio := qnat (mv_count m) / qnat (mv_count m + 1) in
    let mean := ratio * mv_mean m + y / qnat (mv_count m + 1) in
    let square := (qnat (mv_count m) * mv_square m + y * y) / qnat (mv_count m + 1) in
    let count := (mv_count m + 1)%nat in
    let square := qmax square (mean * mean) in
    let factor := msqrt (qnat count / (qnat count - 1)) in
    let var := factor * (square - mean * mean) in
    MV count mean minimum square var (mv_param m).

  (** optimization/utils.py:50-56: the confidence bounds. *)
  Definition mv_width (m : mv) : Q := (1 # 10) * msqrt (mv_var m / (1 + qnat (mv_count m))).
  Definition mv_optimistic (m : mv) : Q := mv_mean m - mv_width m.
  Definition mv_pessimistic (m : mv) : Q := mv_mean m + mv_width m.

  (** optimization/utils.py:58-69 [get_estimation]; the four names used by the
      optimizers (any other name raises NotImplementedError). *)
  Inductive crit : Type := Optimistic | Pessimistic | Average | Minimum.
  Definition mv_est (n : crit) (m : mv) : Q :=
    match n with
    | Optimistic => mv_optimistic m
    | Pessimistic => mv_pessimistic m
    | Average => mv_mean m
    | Minimum => mv_min m
    end.

  (** A point created with a first value then re-evaluated with the others. *)
  Definition mv_eval (c : nat) (y : Q) (ys : list Q) : mv :=
    fold_left (fun m y => mv_add y m) ys (mv_new c y).
End Sqrt.

(** Model of [Pruning] (nevergrad/optimization/utils.py:243-307). *)
From Coq Require Import List Arith ZArith QArith Bool.
From Verif.Model Require Import Prelude MultiValue.
Import ListNotations.

(** Sorting by increasing value (the sort inside [np.quantile]). *)
Fixpoint qinsert (x : Q) (l : list Q) : list Q :=
  match l with
  | [] => [x]
  | y :: l' => if qle x y then x :: l else y :: qinsert x l'
  end.
Definition qsort (l : list Q) : list Q := fold_right qinsert [] l.

(** [np.quantile(values, num/den, method="lower")]: the element of index
    floor(q * (n - 1)) of the sorted values; a quantile above 1 raises ValueError,
    a zero denominator is the ZeroDivisionError of the division computing it
    (utils.py:275), an empty list of values raises IndexError.
    Exact arithmetic: numpy computes q*(n-1) in floating point, which agrees
    unless q*(n-1) is within rounding of an integer it does not equal. *)
Definition quantile_lower (values : list Q) (num den : nat) : result Q :=
  if (den =? 0)%nat then Err ZeroDivisionError else
  if (den <? num)%nat then Err ValueError else
  match nth_error (qsort values) (num * (length values - 1) / den) with
  | Some t => Ok t
  | None => Err IndexError
  end.

Section Prune.
  Context {A : Type}.

  (** utils.py:277-280: one quantile per criterion; the first failing one raises. *)
  Fixpoint quantiles (ests : list (A -> Q)) (num : nat) (archive : list A)
    : result (list ((A -> Q) * Q)) :=
    match ests with
    | [] => Ok []
    | e :: ests' =>
        bind (quantile_lower (map e archive) num (length archive)) (fun t =>
        bind (quantiles ests' num archive) (fun r => Ok ((e, t) :: r)))
    end.

  (** utils.py:271-288 [Pruning._prune]; [ests] are the estimates named in line 276.
      The counter [_num_prunings] is left out. *)
  Definition prune_now (min_len : nat) (ests : list (A -> Q)) (archive : list A)
    : result (list A) :=
    bind (quantiles ests (min_len + 1) archive) (fun qs =>
    Ok (filter (fun v => existsb (fun p => qlt (fst p v) (snd p)) qs) archive)).

  (** utils.py:266-269 [Pruning.__call__]. *)
  Definition prune (min_len max_len : nat) (ests : list (A -> Q)) (archive : list A)
    : result (list A) :=
    if (length archive <? max_len)%nat then Ok archive
    else prune_now min_len ests archive.
End Prune.

(** utils.py:290-307 [Pruning.sensible_default], as (min_len, max_len); a zero
    dimension (rejected by Optimizer.__init__, base.py:110-111) would raise
    ZeroDivisionError.  Integers are [Z] (a negative num_workers is possible). *)
Definition sensible_default (num_workers dimension : Z) : Z * Z :=
  let min_len := Z.max 100 (7 * num_workers) in
  let max_len_1gb := (1024 ^ 3 / (dimension * 8 * 2))%Z in
  let max_len := Z.max (3 * min_len) (Z.min (10 * min_len) max_len_1gb) in
  (min_len, max_len).

(** Model of [_MetaModel] (nevergrad/optimization/optimizerlib.py:2126-2190) and of [learn_on_k_best]
    (nevergrad/optimization/metamodel.py:19-221), for the algorithms other than "image" and "voxelize".  Exact arithmetic;
    the regression of scikit-learn, its minimisation and the square root are arbitrary functions. *)
From Coq Require Import List Arith QArith Bool.
From Verif.Model Require Import Prelude MultiValue Nsga2.
Import ListNotations.
Open Scope nat_scope.

(** ** Schedule *)

(** optimizerlib.py:2155-2161, degrees 1 and 2 *)
Definition sample_size (d degree : nat) : nat :=
  let n := d * (d - 1) / 2 + 2 * d + 1 in
  if degree =? 2 then n else Nat.sqrt n.
(** optimizerlib.py:2164-2169; [ratio n] is [int(frequency_ratio * n)] *)
Definition frequency (ratio : nat -> nat) (d workers size : nat) : nat :=
  Nat.max 13 (Nat.max workers (Nat.max d (ratio size))).
(** optimizerlib.py:2170 *)
Definition consults (ratio : nat -> nat) (d degree workers archive num_ask : nat) : bool :=
  let size := sample_size d degree in
  (size <=? archive) && (num_ask mod frequency ratio d workers size =? 0).

(** ** The proposal *)

(** the arrays *)
Definition vadd (a b : list Q) : list Q := map (fun xy => fst xy + snd xy)%Q (combine a b).
Definition vsub (a b : list Q) : list Q := map (fun xy => fst xy - snd xy)%Q (combine a b).
Definition vscale (c : Q) (a : list Q) : list Q := map (fun x => c * x)%Q a.
Definition sumsq (a : list Q) : Q := fold_right (fun x s => x * x + s)%Q 0%Q a.
(** an item of the archive: point, average and pessimistic estimations *)
Record item : Type := Item { i_x : list Q; i_average : Q; i_pessimistic : Q }.

Inductive proposal : Type := Proposed (x : list Q) | Failed | Crashed (e : exn).

Fixpoint increasing (l : list Q) : bool :=
  match l with x :: ((y :: _) as l') => qlt x y && increasing l' | _ => true end.
Definition lmax (l : list Q) : Q := match l with [] => 0%Q | x :: l => fold_left qmax l x end.
Definition lmin (l : list Q) : Q := match l with [] => 0%Q | x :: l => fold_left qmin l x end.

Section Learn.
  Variable root : Q -> Q.                                        (* np.sqrt *)
  Variable fit : list (list Q) -> list Q -> (list Q -> Q).       (* the regression, as a prediction function *)
  Variable argsort : list Q -> list nat.
  Variable minimise : (list Q -> Q) -> result (list Q).          (* Powell, or DE if it fails: metamodel.py:179-207 *)

  (** metamodel.py:88-89 *)
  Definition middle_of (k : nat) (best : list item) : list Q :=
    match best with
    | [] => []
    | b :: _ => vscale (1 / qnat k) (fold_left vadd (map i_x best) (repeat 0%Q (length (i_x b))))
    end.
  Definition normalization_of (best : list item) : Q :=
    match best with
    | [] => 0%Q
    | b :: _ => (1 / inject_Z (10 ^ 15) + root (sumsq (vsub (i_x (last best b)) (i_x b))))%Q
    end.

  (** metamodel.py:19-221; the value error of a failing minimisation becomes a failure (208-209), other exceptions are
      not caught *)
  Definition learn_on_k_best (archive : list item) (k : nat) : proposal :=
    let best := firstn k (stable_sort (fun a b => qle (i_average a) (i_average b)) archive) in
    if negb (length best =? k) then Crashed AssertionError else
    let middle := middle_of k best in
    let normalization := normalization_of best in
    let y := map i_pessimistic best in
    let X := map (fun b => vscale (1 / normalization) (vsub (i_x b) middle)) best in
    if negb (qlt (1 / inject_Z (10 ^ 20)) (lmax y - lmin y)) then Failed else
    let y := map (fun v => (v - lmin y) / (lmax y - lmin y))%Q y in
    let predict := fit X y in
    let outputs := map predict X in
    if negb (increasing (map (fun i => nth i outputs 0%Q) (argsort y))) then Failed else
    match minimise predict with
    | Err ValueError => Failed
    | Err e => Crashed e
    | Ok minimum =>
        if qlt (nth 0 y 0%Q) (predict minimum) then Failed else
        if qlt 1 (sumsq minimum) then Failed else
        Proposed (vadd middle (vscale normalization minimum))
    end.
End Learn.

(** optimizerlib.py:2150-2181 [_internal_ask_candidate]: where a candidate comes from *)
Inductive source : Type := FromModel (x : list Q) | FromOptimizer.
Definition meta_ask (ratio : nat -> nat) (d degree workers : nat) (learn : list item -> nat -> proposal)
    (archive : list item) (num_ask : nat) : result source :=
  if consults ratio d degree workers (length archive) num_ask then
    match learn archive (sample_size d degree) with
    | Proposed x => Ok (FromModel x)
    | Failed => Ok FromOptimizer
    | Crashed e => Err e
    end
  else Ok FromOptimizer.

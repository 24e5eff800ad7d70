(** Model of the structured mutations of arrays: nevergrad/parametrization/mutation.py. *)
From Coq Require Import Arith ZArith Bool Lia List.
From Verif.Model Require Import Prelude.
Import ListNotations.
Open Scope nat_scope.

(** An array with any number of axes: the list, along the first axis, of arrays with one axis
    less. *)
Inductive tensor {A : Type} : Type := TLeaf (a : A) | TNode (l : list tensor).
Arguments tensor : clear implicits.

Section S.
Context {A : Type}.
Notation tensor := (tensor A).

(** applies a function of the list of slices along an axis: what [AxisSlicedArray]
    (mutation.py:249-258) and [np.concatenate(axis=axis)] work on *)
Fixpoint along (axis : nat) (f : list tensor -> list tensor) (t : tensor) {struct t} : tensor :=
  match t with
  | TLeaf a => TLeaf a
  | TNode l => match axis with 0 => TNode (f l) | S axis => TNode (map (along axis f) l) end
  end.
(** [shape[axis]] *)
Fixpoint axis_size (axis : nat) (t : tensor) {struct t} : nat :=
  match t with
  | TLeaf _ => 0
  | TNode l => match axis with 0 => length l | S axis => match l with [] => 0 | x :: _ => axis_size axis x end end
  end.

(** [np.roll] by [k] along one axis: element [i] goes to [(i + k) mod n] *)
Definition roll {B} (k : nat) (l : list B) : list B :=
  let m := length l - (k mod length l) in skipn m l ++ firstn m l.
(** mutation.py:240-246 [Translation._apply_array]: the shifts are drawn in [0, shape[a]);
    [np.roll] on several axes rolls along each one *)
Definition translate (axes_shifts : list (nat * nat)) (t : tensor) : tensor :=
  fold_left (fun t ak => along (fst ak) (roll (snd ak)) t) axes_shifts t.

(** mutation.py:279-293 [Jumping._apply_array] on the slices along the axis; [size] is drawn in
    [1, self.size), [init] in [0, L) and [newpos] in [0, number of remaining slices) *)
Definition jump {B} (size init newpos : nat) (l : list B) : list B :=
  let chunk := firstn size (skipn init l) in
  let remain := firstn init l ++ skipn (init + size) l in
  firstn newpos remain ++ chunk ++ skipn newpos remain.
Definition jumping (axis size init newpos : nat) (t : tensor) : tensor := along axis (jump size init newpos) t.
(** numpy raises when an interval is empty *)
Definition jumping_draws (axis max_size : nat) (t : tensor) (size init newpos : nat) : result unit :=
  let L := axis_size axis t in
  if max_size <=? 1 then Err ValueError
  else if L =? 0 then Err ValueError
  else if (init + (L - (init + size))) =? 0 then Err ValueError
  else if (1 <=? size) && (size <? max_size) && (init <? L) && (newpos <? init + (L - (init + size))) then Ok tt
  else Err AssertionError.

(** mutation.py:212-225 [_make_slices] and mutation.py:181-183, the assignment of the block:
    one optional window (start, size) per axis *)
Fixpoint merge (windows : list (option (nat * nat))) (x y : tensor) : tensor :=
  match x, y with
  | TNode lx, TNode ly =>
      match windows with
      | [] => y
      | w :: windows =>
          TNode ((fix go (i : nat) (lx ly : list tensor) : list tensor :=
            match lx, ly with
            | a :: lx, b :: ly =>
                (if match w with None => true | Some (start, size) => (start <=? i) && (i <? start + size) end
                 then merge windows a b else a) :: go (S i) lx ly
            | _, _ => []
            end) 0 lx ly)
      end
  | _, _ => y
  end.
(** mutation.py:212-225 [_make_slices] with the draws of the starts *)
Fixpoint make_slices (a : nat) (shape : list nat) (axes : list Z) (size : nat) (starts : list nat)
  : result (list (option (nat * nat))) :=
  match shape with
  | [] => Ok []
  | s :: shape =>
      if existsb (Z.eqb (Z.of_nat a)) axes then
        if s <=? 1 then Err ValueError else
        (* randint(s - size) *)
        if s <=? size then Err ValueError else
        match starts with
        | [] => Err AssertionError
        | start :: starts =>
            if start <? s - size then bind (make_slices (S a) shape axes size starts) (fun r => Ok (Some (start, size) :: r))
            else Err AssertionError
        end
      else bind (make_slices (S a) shape axes size starts) (fun r => Ok (None :: r))
  end.
(** [shape[a]], where a negative index counts from the end *)
Definition py_index {B} (l : list B) (a : Z) : result B :=
  let i := if (a <? 0)%Z then (Z.of_nat (length l) + a)%Z else a in
  if (i <? 0)%Z then Err IndexError else
  match nth_error l (Z.to_nat i) with Some x => Ok x | None => Err IndexError end.
Fixpoint map_result {B C} (f : B -> result C) (l : list B) : result (list C) :=
  match l with [] => Ok [] | x :: l => bind (f x) (fun y => bind (map_result f l) (fun ys => Ok (y :: ys))) end.
(** mutation.py:153-187 [Crossover._apply_array] without Fourier transform; [default_max] is
    the integer part of the root of half the number of elements *)
Definition crossover (shape : list nat) (axes : option (list Z)) (max_size : option nat) (default_max : nat)
  (drawn_size : nat) (starts : list nat) (x y : tensor) : result tensor :=
  let axes := match axes with None => map Z.of_nat (seq 0 (length shape)) | Some axes => axes end in
  if match axes with [] => true | _ => false end
  then Err (match max_size with None => ZeroDivisionError | Some _ => TypeError end) else
  bind (map_result (py_index shape) axes) (fun sizes =>
  let m := fold_left (fun m s => Z.min m (Z.of_nat s - 1)) sizes (Z.of_nat (match max_size with None => default_max | Some m => m end)) in
  let size := if (m =? 1)%Z then Ok 1 else if (m <=? 1)%Z then Err ValueError
              else if (1 <=? drawn_size) && (Z.of_nat drawn_size <? m)%Z then Ok drawn_size else Err AssertionError in
  bind size (fun size =>
  bind (make_slices 0 shape axes size starts) (fun windows => Ok (merge windows x y)))).
End S.

(** Sets of points on the sphere: /repo/nevergrad/common/sphere.py:47-55 and 71-111. Simplification: real numbers. *)
From Coq Require Import Bool Arith List Reals Lia.
From Verif Require Import Model.Prelude.
Import ListNotations.
Open Scope nat_scope.
Open Scope list_scope.

(** an array, as the list of its slices along the axis *)
Definition point : Type := list (list R).
(** np.sqrt(np.sum(x ** 2.0)) *)
Definition norm (v : point) : R := sqrt (fold_right (fun a s => (a * a + s)%R) 0%R (concat v)).
(** x / c, -x *)
Definition div (c : R) (v : point) : point := map (map (fun a => (a / c)%R)) v.
Definition opp (v : point) : point := map (map Ropp) v.

Section PointSets.
(** the successive calls of np.random.randn of the shape *)
Variable draw : nat -> point.

(** sphere.py:49-54: one point; [i] is the next draw *)
Definition normalize1 (i : nat) (v : point) : nat * point :=
  if Rlt_dec 0 (norm v) then (i, div (norm v) v) else (S i, div (norm (draw i)) (draw i)).
(** sphere.py:47-55 *)
Fixpoint normalize (i : nat) (x : list point) : nat * list point :=
  match x with
  | [] => (i, [])
  | v :: x => let '(i, v) := normalize1 i v in let '(i, x) := normalize i x in (i, v :: x)
  end.
(** [np.random.randn( *shape) for i in range(n)] *)
Definition draws (n i : nat) : nat * list point := (i + n, map draw (seq i n)).
(** sphere.py:71-72 *)
Definition pure_random (n i : nat) : nat * list point := let '(i, x) := draws n i in normalize i x.
(** sphere.py:75-82 *)
Definition antithetic_pm (n i : nat) : nat * list point :=
  let '(i, x) := draws (n / 2) i in
  let '(i, x) := normalize i x in
  let x := x ++ map opp x in
  if length x <? n then (S i, x ++ [draw i]) else (i, x).

(** itertools.permutations(range(s)), and the k-th shuffle of the product of Booleans *)
Variable perms : list (list nat).
Variable order : nat -> list (list bool).
(** sphere.py:95: x[..., p, ...] along the axis *)
Definition take_slices (p : list nat) (v : point) : point := map (fun j => nth j v []) p.
(** sphere.py:102-105 *)
Definition flip (o : list bool) (v : point) : point :=
  map (fun bs => if fst bs : bool then map Ropp (snd bs) else snd bs) (combine o v).
(** sphere.py:100-106 *)
Fixpoint add_flips (n : nat) (os : list (list bool)) (cx : point) (x : list point) : list point :=
  match os with
  | [] => x
  | o :: os => add_flips n os cx (if existsb (fun b => b) o && (length x <? n) then x ++ [flip o cx] else x)
  end.
(** sphere.py:92-106; [k] counts the shuffles *)
Fixpoint add_perms (n : nat) (also_sym : bool) (ps : list (list nat)) (icx : point) (k : nat) (x : list point) : nat * list point :=
  match ps with
  | [] => (k, x)
  | p :: ps =>
      if length x <? n then
        let cx := take_slices p icx in
        let x := x ++ [cx] in
        if also_sym then add_perms n also_sym ps icx (S k) (add_flips n (order k) cx x)
        else add_perms n also_sym ps icx k x
      else add_perms n also_sym ps icx k x
  end.
(** sphere.py:85-107: the loop while len(x) < n *)
Fixpoint antithetic_order (fuel n : nat) (also_sym : bool) (i k : nat) (x : list point) : result (list point) :=
  if length x <? n then
    match fuel with
    | O => Err OutOfFuel
    | S fuel =>
        let '(i, icx) := normalize1 (S i) (draw i) in
        let '(k, x) := add_perms n also_sym perms icx k x in
        antithetic_order fuel n also_sym i k x
    end
  else Ok x.
End PointSets.

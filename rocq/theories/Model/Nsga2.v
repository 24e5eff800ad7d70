(** nevergrad/optimization/multiobjective/nsga2.py: non-dominated ranking and crowding distance. Losses are exact rationals; the
    candidates of a population (with distinct uids) are numbered by their position. *)
From Coq Require Import QArith ZArith Bool List.
From Verif.Model Require Import Prelude MultiValue.
Import ListNotations.
Open Scope nat_scope.

(** nsga2.py:121-122 [np.sum(a < b)], arrays of the same length *)
Definition wins (a b : list Q) : nat := length (filter (fun xy => qlt (fst xy) (snd xy)) (combine a b)).
(** nsga2.py:113-127 [compare] *)
Definition compare (a b : list Q) : Z :=
  let one_wins := wins a b in let two_wins := wins b a in
  if Nat.ltb two_wins one_wins then (-1)%Z else if Nat.ltb one_wins two_wins then 1%Z else 0%Z.

Definition at_ {A} (l : list A) (i : nat) (d : A) : A := nth i l d.
Fixpoint update {A} (i : nat) (f : A -> A) (l : list A) : list A :=
  match l, i with [], _ => [] | x :: l', O => f x :: l' | x :: l', S i' => x :: update i' f l' end.

(** nsga2.py:150-163, the nested loops on [c1 < c2] *)
Definition pairs (n : nat) : list (nat * nat) := flat_map (fun c1 => map (pair c1) (seq (S c1) (n - S c1))) (seq 0 (n - 1)).
Definition count_pair (cmp : nat -> nat -> Z) (st : list Z * list (list nat)) (c : nat * nat) : list Z * list (list nat) :=
  let '(cnt, dominated) := st in let '(c1, c2) := c in
  let r := cmp c1 c2 in
  if Z.eqb r (-1) then (update c2 (fun x => (x + 1)%Z) cnt, update c1 (fun l => l ++ [c2]) dominated)
  else if Z.eqb r 1 then (update c1 (fun x => (x + 1)%Z) cnt, update c2 (fun l => l ++ [c1]) dominated)
  else (cnt, dominated).
Definition count_all (cmp : nat -> nat -> Z) (n : nat) : list Z * list (list nat) :=
  fold_left (count_pair cmp) (pairs n) (repeat 0%Z n, repeat [] n).
(** nsga2.py:177-180 *)
Fixpoint release (ds : list nat) (cnt : list Z) (next : list nat) : list Z * list nat :=
  match ds with
  | [] => (cnt, next)
  | c2 :: ds' =>
      let cnt := update c2 (fun x => (x - 1)%Z) cnt in
      release ds' cnt (if Z.eqb (at_ cnt c2 0%Z) 0 then next ++ [c2] else next)
  end.
(** nsga2.py:169-180, the while loop from front number [n + 1 - slots]: there are [n + 1] slots for fronts *)
Fixpoint fronts_loop (slots : nat) (dominated : list (list nat)) (cnt : list Z) (front : list nat) : result (list (list nat)) :=
  match slots with
  | O => Err IndexError
  | S slots' =>
      match front with
      | [] => Ok []
      | _ =>
          if negb (Nat.leb (length front) (length dominated)) then Err AssertionError
          else
            let '(cnt, next) := release (flat_map (fun c1 => at_ dominated c1 []) front) cnt [] in
            bind (fronts_loop slots' dominated cnt next) (fun fs => Ok (front :: fs))
      end
  end.
(** nsga2.py:182-190 *)
Fixpoint trim (k : option nat) (count : nat) (fronts : list (list nat)) : list (list nat) :=
  match fronts with
  | [] => []
  | f :: fs =>
      let count := count + length f in
      f :: match k with Some k' => if Nat.leb k' count then [] else trim k count fs | None => trim k count fs end
  end.
(** nsga2.py:130-190 [compute_ranking] *)
Definition ranking (cmp : nat -> nat -> Z) (n : nat) (k : option nat) : result (list (list nat)) :=
  let '(cnt, dominated) := count_all cmp n in
  bind (fronts_loop (S n) dominated cnt (filter (fun c1 => Z.eqb (at_ cnt c1 0%Z) 0) (seq 0 n))) (fun fs => Ok (trim k 0 fs)).
Definition compute_ranking (pop : list (list Q)) (k : option nat) : result (list (list nat)) :=
  ranking (fun i j => compare (at_ pop i []) (at_ pop j [])) (length pop) k.

(** Crowding distances: a rational or infinity *)
Inductive dist : Type := Fin (q : Q) | Inf.
Definition dist_add (d : dist) (q : Q) : dist := match d with Fin x => Fin (x + q) | Inf => Inf end.
Definition dist_ge (a b : dist) : bool := match a, b with Inf, _ => true | Fin _, Inf => false | Fin x, Fin y => qle y x end.
(** [sorted]: stable *)
Fixpoint place {A} (le : A -> A -> bool) (x : A) (l : list A) : list A :=
  match l with [] => [x] | y :: l' => if le x y then x :: l else y :: place le x l' end.
Definition stable_sort {A} (le : A -> A -> bool) (l : list A) : list A := fold_right (place le) [] l.
(** the i-th loss of a candidate *)
Definition obj (pop : list (list Q)) (i c : nat) : Q := at_ (at_ pop c []) i 0%Q.
(** nsga2.py:37-50, 62-78: the candidates that are not first nor last; [a] precedes the first element of the list *)
Fixpoint interior (f : nat -> Q) (range : Q) (a : nat) (l : list nat) (meta : list dist) : list dist :=
  match l with
  | [] => meta
  | b :: r =>
      match r with
      | [] => meta
      | c :: _ =>
          let d := (f c - f a)%Q in
          let d := if Qeq_bool range 0 then d else (d / range)%Q in
          interior f range b r (update b (fun x => dist_add x d) meta)
      end
  end.
(** nsga2.py:19-78 [accumulate_distance_per_objective]. The assertion that the first loss is at most the last of a sorted list is omitted. With one
    objective [losses] has [loss] as only element, and the two branches are the same. *)
Definition accumulate (pop : list (list Q)) (front : list nat) (meta : list dist) (i : nat) : list dist :=
  let s := stable_sort (fun c c' => qle (obj pop i c) (obj pop i c')) front in
  match s with
  | [] => meta
  | a :: r =>
      let z := last s a in
      let meta := update z (fun _ => Inf) (update a (fun _ => Inf) meta) in
      interior (obj pop i) (obj pop i z - obj pop i a)%Q a r meta
  end.
(** nsga2.py:80-106 [compute_distance] *)
Definition compute_distance (pop : list (list Q)) (front : list nat) (meta : list dist) : list dist :=
  match front with
  | [] => meta
  | [a] => update a (fun _ => Inf) meta
  | [a; b] => update b (fun _ => Inf) (update a (fun _ => Inf) meta)
  | a :: _ =>
      let meta := fold_left (fun m c => update c (fun _ => Fin 0) m) front meta in
      fold_left (accumulate pop front) (seq 0 (length (at_ pop a []))) meta
  end.
(** nsga2.py:108-113 [sort] *)
Definition crowding_sort (meta : list dist) (front : list nat) : list nat :=
  stable_sort (fun c c' => dist_ge (at_ meta c (Fin 0)) (at_ meta c' (Fin 0))) front.
(** nsga2.py:193-231 [rank]: candidates in the order of insertion in [selected_pop], with rank, front and distance *)
Definition entry : Type := nat * (nat * nat * dist).
Fixpoint rank_loop (pop : list (list Q)) (n_selected : option nat) (fronts : list (list nat)) (front_i count next_rank : nat) (meta : list dist)
    (selected : list entry) : list entry :=
  match fronts with
  | [] => selected
  | f :: fs =>
      let count := count + length f in
      match n_selected with
      | None =>
          let meta := compute_distance pop f meta in
          let f := crowding_sort meta f in
          let new := map (fun ic => (snd ic, (next_rank + fst ic, front_i, at_ meta (snd ic) (Fin 0)))) (combine (seq 0 (length f)) f) in
          rank_loop pop n_selected fs (S front_i) count (next_rank + length f) meta (selected ++ new)
      | Some n =>
          if Nat.ltb n count then
            let meta := compute_distance pop f meta in
            let f := firstn (n - length selected) (crowding_sort meta f) in
            selected ++ map (fun ic => (snd ic, (next_rank + fst ic, front_i, at_ meta (snd ic) (Fin 0)))) (combine (seq 0 (length f)) f)
          else rank_loop pop n_selected fs (S front_i) count (S next_rank) meta (selected ++ map (fun c => (c, (next_rank, front_i, Inf))) f)
      end
  end.
Definition rank (pop : list (list Q)) (n_selected : option nat) : result (list entry) :=
  bind (compute_ranking pop None) (fun fronts => Ok (rank_loop pop n_selected fronts 0 0 0 (repeat (Fin 0) (length pop)) [])).

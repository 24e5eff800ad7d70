(** Model of [jittered] (nevergrad/common/sphere.py:593-626): points stratified by a class. The points which
    are drawn and the class of a point ([get_class], :569-590, for some blocks) are given. *)
From Coq Require Import Arith Bool List.
From Verif.Model Require Import Prelude.
Import ListNotations.
Open Scope nat_scope.

Section Jittered.
Context {A : Type}.
Variable draw : nat -> A.
Variable class_of : A -> nat.

(** [hash_to_set]: the classes in the order of their first point, with their points *)
Definition strata : Type := list (nat * list A).
(** hash_to_set[c] += [x], with a defaultdict *)
Fixpoint put (c : nat) (x : A) (h : strata) : strata :=
  match h with
  | [] => [(c, [x])]
  | (c', l) :: h' => if c =? c' then (c', l ++ [x]) :: h' else (c', l) :: put c x h'
  end.
(** sphere.py:596-599: [k] draws from the [i]-th one *)
Fixpoint fill (k i : nat) (h : strata) : strata :=
  match k with O => h | S k' => fill k' (S i) (put (class_of (draw i)) (draw i) h) end.
(** sphere.py:603-605 *)
Definition smallest_stratum (min_num : nat) (h : strata) : nat := fold_left (fun m s => Nat.min m (length (snd s))) h min_num.
(** sphere.py:602-612; [i] is the next draw. Dividing by the number of classes raises when there is none. *)
Fixpoint balance (fuel : nat) (n min_num i : nat) (h : strata) : result strata :=
  match fuel with
  | O => Err OutOfFuel
  | S fuel' =>
      let min_num := smallest_stratum min_num h in
      match h with
      | [] => Err ZeroDivisionError
      | _ => if min_num * length h <? n then balance fuel' n min_num (S i) (put (class_of (draw i)) (draw i) h) else Ok h
      end
  end.
(** sphere.py:616-620: one pass over the classes *)
Fixpoint pass (n num : nat) (h : strata) (x : list A) : strata * list A :=
  match h with
  | [] => ([], x)
  | (c, l) :: h' =>
      let x := if length x <? n then x ++ firstn num l else x in
      let '(h', x) := pass n num h' x in ((c, skipn num l) :: h', x)
  end.
(** sphere.py:613-621 *)
Fixpoint collect (fuel n : nat) (h : strata) (x : list A) : result (list A) :=
  if length x <? n then
    match fuel with
    | O => Err OutOfFuel
    | S fuel' =>
        let num := Nat.max 1 ((n - length x) / length h) in
        let '(h, x) := pass n num h x in collect fuel' n h x
    end
  else if length x =? n then Ok x else Err AssertionError.
(** sphere.py:593-623. The first value of [min_num] is 10000000, given as [huge]. Without blocks the default ones
    are bound to a misspelt name (:594-595), and [get_class] takes the length of None. *)
Definition jittered (huge : nat) (blocks_given : bool) (fuel n : nat) : result (list A) :=
  let first := Nat.sqrt n * n in
  if negb blocks_given && (0 <? first) then Err TypeError
  else bind (balance fuel n huge first (fill first 0 [])) (fun h => collect fuel n h []).
End Jittered.
Arguments strata : clear implicits.

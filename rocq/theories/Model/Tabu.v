(** The tabu list of a parameter: nevergrad/parametrization/core.py. Values are seen through their congruence class and
    hash (core.py:293-298), a number here. *)
From Coq Require Import Arith Bool List.
From Verif.Model Require Import Prelude.
Import ListNotations.

(** core.py:61-64: attributes of the reference; [tabu_set] is a Python set, here a list *)
Record tabu : Type := mktabu { tabu_length : nat; tabu_set : list nat; tabu_list : list nat; tabu_index : nat }.
Definition tabu_new (n : nat) : tabu := mktabu n [] [] 0.
(** core.py:320-324 [specify_tabu_length] *)
Definition specify_tabu_length (t : tabu) (n : nat) : tabu := mktabu n (tabu_set t) (tabu_list t) (tabu_index t).
Definition mem (v : nat) (l : list nat) : bool := existsb (Nat.eqb v) l.
Definition set_nth (i : nat) (v : nat) (l : list nat) : list nat := firstn i l ++ v :: skipn (S i) l.
Definition remove_one (v : nat) (l : list nat) : list nat := filter (fun x => negb (Nat.eqb x v)) l.
(** core.py:300-313: record the value *)
Definition tabu_record (t : tabu) (v : nat) : result tabu :=
  let s := v :: tabu_set t in
  match nth_error (tabu_list t) (tabu_index t) with
  | Some old =>
      if mem old s then
        Ok (mktabu (tabu_length t) (remove_one old s) (set_nth (tabu_index t) v (tabu_list t)) (Nat.modulo (tabu_index t + 1) (tabu_length t)))
      else Err KeyError
  | None =>
      if Nat.eqb (length (tabu_list t)) (tabu_index t) then
        Ok (mktabu (tabu_length t) s (tabu_list t ++ [v]) (Nat.modulo (tabu_index t + 1) (tabu_length t)))
      else Err AssertionError
  end.
(** core.py:274-318 [satisfies_constraints], with a reference. [fails]: the failures counted on the checked candidate;
    [inside]: the answer of its sub-parameters; [cheap]: the answer of its registered constraints. Returns the new state
    of the reference, the failures and the answer. *)
Definition check (t : tabu) (fails : nat) (no_tabu inside cheap : bool) (v : nat) : result (tabu * nat * bool) :=
  if negb inside then Ok (t, fails, false)
  else if negb no_tabu && Nat.ltb 0 (tabu_length t) && Nat.ltb fails 30 then
    if mem v (tabu_set t) then Ok (t, fails + 1, false)
    else bind (tabu_record t v) (fun t' => Ok (t', fails, cheap))
  else Ok (t, fails, cheap).

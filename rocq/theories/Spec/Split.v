(** Vocabulary about split and rescaled optimizers. *)
From Coq Require Import List Arith ZArith QArith Bool.
From Verif.Model Require Import Prelude Split.
Import ListNotations.
Open Scope nat_scope.

(** the coordinates of group number [i] *)
Definition group {X} (dims : list nat) (i : nat) (data : list X) : list X :=
  firstn (nth i dims 0) (skipn (list_sum (firstn i dims)) data).
(** the candidates made by the optimizer *)
Definition made {X} (ops : list (top X)) : list nat :=
  flat_map (fun o => match o with TAsk u _ => [u] | TSolved u' _ u => [u'; u] | TTell _ _ _ => [] end) ops.
(** group [i] of [n] is not optimized yet: i / n > sqrt(2 * num_ask / budget) *)
Definition not_yet (progressive : option nat) (n i num_ask : nat) : Prop :=
  exists budget, progressive = Some budget /\ 0 < i /\ 2 * num_ask * (n * n) < i * i * budget.
(** the point at another scale *)
Definition at_scale (k : Q) (x y : list Q) : Prop := Forall2 (fun a b => b == k * a)%Q x y.
(** candidates are told with the point they were asked with *)
Definition honest_r (ops : list rop) (rs : list (result (list Q))) : Prop :=
  forall n m u data noise noise' x l, nth_error ops n = Some (RAsk u noise') -> nth_error rs n = Some (Ok x) -> n < m ->
    nth_error ops m = Some (RTell u data noise l) -> Forall2 Qeq data x.
Definition made_r (ops : list rop) : list nat := flat_map (fun o => match o with RAsk u _ => [u] | _ => [] end) ops.

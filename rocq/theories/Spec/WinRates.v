(** Vocabulary for comparing optimizers. *)
From Coq Require Import Arith ZArith QArith Permutation Sorted List.
From Verif.Model Require Import MultiValue WinRates.
Import ListNotations.

(** The case of a run: the values of the categories. [cases]: each case present, once. *)
Definition case (categories : list nat) (r : run) : list Z := map (col r) categories.
Definition cases (df : list run) (categories : list nat) (l : list (list Z)) : Prop :=
  NoDup l /\ forall t, In t l <-> exists r, In r df /\ case categories r = t.
(** The losses of [i] in the case [t]. *)
Definition losses_of (df : list run) (categories : list nat) (t : list Z) (i : nat) : list (option Q) :=
  map loss (filter (fun r => if list_eq_dec Z.eq_dec (case categories r) t then Nat.eqb (who r) i else false) df).
Definition plays df categories t i : Prop := losses_of df categories t i <> [].
(** One point for a lower mean loss, half a point for the same one, none otherwise; an infinite loss is beaten by any finite mean. *)
Definition total_of (l : list (option Q)) : Q := fold_right (fun o s => match o with Some x => x + s | None => s end)%Q 0%Q l.
Definition infinite (l : list (option Q)) : bool := existsb (fun o => match o with None => true | _ => false end) l.
Definition points (a b : list (option Q)) : Q :=
  match a, b with
  | [], _ | _, [] => 0
  | _, _ =>
      if infinite a then 0 else if infinite b then 1
      else match (total_of a * qnat (length b) ?= total_of b * qnat (length a))%Q with Lt => 1 | Eq => 1 # 2 | Gt => 0 end
  end%Q.
Definition score df categories (l : list (list Z)) (i j : nat) : Q :=
  sumQ (map (fun t => points (losses_of df categories t i) (losses_of df categories t j)) l).
(** Number of cases in which [i] has a run. *)
Definition games df categories (l : list (list Z)) (i : nat) : nat :=
  length (filter (fun t => match losses_of df categories t i with [] => false | _ => true end) l).
Definition all_finite (df : list run) : Prop := forall r, In r df -> loss r <> None.

(** The table for the runs [df], with cases [l], between the optimizers [all]. *)
Definition val (o : option Q) : Q := match o with Some x => x | None => 0%Q end.
Definition row_sum (f : fight) (all : list nat) (i : nat) : Q := sumQ (map (fun j => val (rates f i j)) all).
Record table (df : list run) (categories : list nat) (l : list (list Z)) (all : list nat) (f : fight) : Prop := {
  t_ranked : Permutation (ranked f) all;
  t_sorted : StronglySorted (fun i j => row_sum f all j <= row_sum f all i)%Q (ranked f);
  t_total : total f = length l;
  t_played : forall i, played f i = Z.of_nat (games df categories l i);
  (** the points of [i] against [j], for each case in which [j] plays *)
  t_rates : forall i j, In j all -> exists x, rates f i j = Some x /\ (x * qnat (games df categories l j) == score df categories l i j)%Q }.
Definition optimizers (df : list run) (all : list nat) : Prop := NoDup all /\ forall i, In i all <-> In i (map who df).

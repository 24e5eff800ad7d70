(** Vocabulary for power systems: plants 0 to n-1 with capacities and prices. *)
From Coq Require Import List Arith ZArith QArith.
Import ListNotations.

Fixpoint total (f : nat -> Q) (n : nat) : Q := match n with O => 0%Q | S n' => (total f n' + f n')%Q end.

(** The productions [p] respect the capacities and, with what is not served, meet the demand. *)
Definition feasible (n : nat) (capacity p : nat -> Q) (unserved demand : Q) : Prop :=
  (forall i, (i < n)%nat -> 0 <= p i <= capacity i)%Q /\ (0 <= unserved)%Q /\ (total p n + unserved == demand)%Q.
(** A plant is used only when the cheaper ones are at full power; demand is left unserved only
    when all are. *)
Definition cheapest_first (n : nat) (price capacity p : nat -> Q) (unserved : Q) : Prop :=
  (forall i j, (i < n)%nat -> (j < n)%nat -> 0 < p i -> price j < price i -> p j == capacity j)%Q /\
  (0 < unserved -> forall i, (i < n)%nat -> p i == capacity i)%Q.
(** What is paid: the productions at their prices, and the failure cost of what is not served. *)
Definition bill (n : nat) (price p : nat -> Q) (failure unserved : Q) : Q :=
  (total (fun i => p i * price i) n + failure * unserved)%Q.
(** Plants below [num_dams] are dams, the others thermal plants. *)
Definition dams_then_thermal (num_dams : nat) (dam thermal : nat -> Q) (i : nat) : Q :=
  if (i <? num_dams)%nat then dam i else thermal (i - num_dams)%nat.
(** The marginal cost: the price of the most expensive thermal plant really used (0 without any),
    productions up to [eps] being neglected. *)
Definition marginal_of (num_dams n : nat) (price p : nat -> Q) (eps m : Q) : Prop :=
  (m = 0%Q /\ forall i, (num_dams <= i < n)%nat -> p i <= eps)%Q \/
  (exists i, (num_dams <= i < n)%nat /\ eps < p i /\ m = price i /\
     forall j, (num_dams <= j < n)%nat -> eps < p j -> price j <= price i)%Q.
Definition list_total (l : list Q) : Q := fold_right Qplus 0%Q l.

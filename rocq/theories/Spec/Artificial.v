(** Vocabulary for artificial functions *)
From Coq Require Import Reals Arith ZArith Bool List Sorted.
From Verif.Model Require Import Prelude.
From Verif.Model Require Artificial.
Import ListNotations.
Open Scope R_scope.

(** What [random_state.choice(n, k, replace=False)] returns. *)
Definition choice_without_replacement (n k : nat) (l : list nat) : Prop :=
  NoDup l /\ length l = k /\ forall i, In i l -> (i < n)%nat.

(** [m] (rows) is an orthogonal matrix of dimension [d]: its transpose is its inverse. *)
Definition entry (m : list (list R)) (i j : nat) : R := nth j (nth i m []) 0.
Fixpoint upto (n : nat) (f : nat -> R) : R := match n with O => 0 | S n => upto n f + f n end.
Definition delta (i j : nat) : R := if (i =? j)%nat then 1 else 0.
Definition square (d : nat) (m : list (list R)) : Prop := length m = d /\ forall row, In row m -> length row = d.
Definition orthogonal (d : nat) (m : list (list R)) : Prop :=
  square d m /\
  (forall i j, (i < d)%nat -> (j < d)%nat -> upto d (fun k => entry m i k * entry m j k) = delta i j) /\
  (forall i j, (i < d)%nat -> (j < d)%nat -> upto d (fun k => entry m k i * entry m k j) = delta i j).

(** How the value of the blocks makes the value of the function: the value when all blocks have value [v] *)
Definition combined (a : Artificial.aggregator) (blocks : nat) (v : R) : R :=
  match a with Artificial.ASum => INR blocks * v | _ => v end.

(** The draws of each of [blocks] blocks of dimension [d]: a vector and, if there are rotations, an orthogonal matrix. *)
Definition drawn_blocks (d blocks : nat) (rotation : bool) (rnd : nat -> list R * list (list R)) : Prop :=
  forall k, (k < blocks)%nat -> length (fst (rnd k)) = d /\ (rotation = true -> orthogonal d (snd (rnd k))).
(** The coordinate [j] of the point of a block which the transform (translation, then rotation) sends to [o]:
    the translation plus the inverse rotation of [o]. *)
Definition sent_to (d : nat) (t : Artificial.transform) (o : list R) (j : nat) : R :=
  nth j (Artificial.t_translation t) 0 +
  match Artificial.t_rotation t with None => nth j o 0 | Some m => upto d (fun k => entry m k j * nth k o 0) end.

(** dimension of a block, number of blocks, dimension of the function *)
Definition bd (s : Artificial.settings) : nat := Z.to_nat (Artificial.s_block_dimension s).
Definition nb (s : Artificial.settings) : nat := Z.to_nat (Artificial.s_num_blocks s).
Definition dim (s : Artificial.settings) : nat := (bd s * nb s + Z.to_nat (Artificial.s_useless s))%nat.

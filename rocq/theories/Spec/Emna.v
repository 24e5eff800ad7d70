(** Vocabulary for EMNA *)
From Coq Require Import List Arith QArith.
From Verif.Model Require Import Prelude MultiValue Emna.
Import ListNotations.
Open Scope nat_scope.

(** the sum over some points of the squared deviations from [c] in coordinate [i], and in all [d] coordinates *)
Definition deviation (pts : list (list Q)) (c : list Q) (i : nat) : Q :=
  fold_right Qplus 0%Q (map (fun p => (nth i p 0 - nth i c 0) * (nth i p 0 - nth i c 0))%Q pts).
Definition deviations (d : nat) (pts : list (list Q)) (c : list Q) : Q := fold_right Qplus 0%Q (map (deviation pts c) (seq 0 d)).
(** The scale of the mutations after a generation with parents [pts] and centre [c].  One would expect a single number
    for [isotropic] and a number for each coordinate otherwise; the code does the opposite. *)
Definition scaled (root : Q -> Q) (d mu : nat) (imp : Q) (isotropic : bool) (pts : list (list Q)) (c : list Q) (s : sigma) : Prop :=
  match s with
  | Vector v => isotropic = true /\ length v = d /\ forall i x, nth_error v i = Some x ->
      exists q, (q * (inject_Z (Z.of_nat mu) * inject_Z (Z.of_nat d)) == deviation pts c i)%Q /\ x = (root q / imp)%Q
  | Scalar x => isotropic = false /\ exists q, (q * inject_Z (Z.of_nat mu) == deviations d pts c)%Q /\ x = (root q / imp)%Q
  end.

(** Model of [smooth_copy] (nevergrad/optimization/optimizerlib.py:67-87). Values are exact rationals
    indexed by the lists of coordinates; the radii and the replaced cells are drawn, hence given.
    [ndimage.convolve] with the weights [np.ones(radii) / np.prod(radii)] is written out from its
    documentation: the mean of a window, with the array reflected at its borders (mode
    "reflect", the default), and centred as scipy does. *)
From Coq Require Import List Arith ZArith QArith Bool.
From Verif.Model Require Import Prelude MultiValue Planning.
Import ListNotations.
Open Scope nat_scope.

Definition index : Type := list nat.
(** mode "reflect": d c b a | a b c d | d c b a *)
Definition reflect (n : nat) (i : Z) : nat :=
  let m := Z.to_nat (i mod (2 * Z.of_nat n)) in if m <? n then m else 2 * n - 1 - m.
(** the window of one axis; with an even radius the extra cell is the next one *)
Definition window (n r i : nat) : list nat :=
  map (fun k => reflect n (Z.of_nat i + Z.of_nat k - Z.of_nat ((r - 1) / 2))) (seq 0 r).
Fixpoint neighbours (shape radii : list nat) (i : index) : list index :=
  match shape, radii, i with
  | n :: shape', r :: radii', x :: i' =>
      flat_map (fun a => map (cons a) (neighbours shape' radii' i')) (window n r x)
  | _, _, _ => [[]]
  end.
Definition prod (l : list nat) : nat := fold_right Nat.mul 1 l.
(** optimizerlib.py:74 *)
Definition convolved (shape radii : list nat) (value : index -> Q) (i : index) : Q :=
  (qsum (map value (neighbours shape radii i)) / qnat (prod radii))%Q.
(** optimizerlib.py:85-87: only the cells drawn are replaced *)
Definition smooth_copy (shape radii : list nat) (replaced : index -> bool) (value : index -> Q) (i : index) : Q :=
  if replaced i then convolved shape radii value i else value i.

(** C116: the smoothed copies which the smooth variants of OnePlusOne suggest. *)
From Coq Require Import List Arith ZArith QArith Bool Lia Lqa.
From Verif.Model Require Import Prelude MultiValue Planning Smooth.
From Verif.Spec Require Import Smooth.
From Verif.Proofs Require Import MultiValue Smooth.
Import ListNotations.
Open Scope nat_scope.

(** Each cell of a smoothed copy stays between the smallest and the largest value of the array,
    whatever the radii and the cells replaced: a candidate within bounds stays within them. *)
Theorem C116_between : forall shape radii replaced value i a b,
  Forall (lt 0) shape -> Forall (lt 0) radii -> length radii = length shape -> cell shape i ->
  (forall j, cell shape j -> a <= value j <= b)%Q ->
  (a <= smooth_copy shape radii replaced value i <= b)%Q.
Proof.
  intros. unfold smooth_copy. destruct (replaced i); [now apply convolved_between|auto].
Qed.
Print Assumptions C116_between.

(** The other cells are kept; arrays with equal values everywhere are kept entirely. *)
Theorem C116_kept : forall shape radii replaced value i,
  (replaced i = false -> smooth_copy shape radii replaced value i = value i) /\
  (forall c, Forall (lt 0) shape -> Forall (lt 0) radii -> length radii = length shape -> cell shape i ->
     (forall j, cell shape j -> value j == c)%Q -> smooth_copy shape radii replaced value i == c)%Q.
Proof.
  intros shape radii replaced value i. split; [intros H; unfold smooth_copy; now rewrite H|].
  intros c Hs Hr Hl Hi Hv. assert (X := C116_between shape radii replaced value i c c Hs Hr Hl Hi).
  assert (Y : (c <= smooth_copy shape radii replaced value i <= c)%Q) by (apply X; intros j Hj; rewrite (Hv j Hj); split; apply Qle_refl). lra.
Qed.
Print Assumptions C116_kept.

(** A replaced cell is the mean of the cells at a distance of at most the radius: away from the
    borders of an axis, of the cell and its [h] neighbours on each side. *)
Theorem C116_mean : forall n h f i, h <= i -> i + h < n ->
  (smooth_copy [n] [(2 * h + 1)%nat] (fun _ => true) (fun j => f (hd 0%nat j)) [i] * qnat (2 * h + 1) ==
   sum_below (fun k => f (i - h + k)%nat) (2 * h + 1))%Q.
Proof.
  intros n h f i H1 H2. unfold smooth_copy. rewrite convolved_axis.
  assert (P : (0 < qnat (2 * h + 1))%Q) by (apply qnat_pos; lia).
  rewrite Qmult_comm, Qmult_div_r by (intros E; rewrite E in P; apply (Qlt_irrefl _ P)).
  rewrite <- (window_sum_spec (ext n f) (Z.of_nat i) h).
  assert (G : forall m, (m <= 2 * h + 1)%nat -> (Planning.qsum (map (fun k => ext n f (Z.of_nat i + Z.of_nat k - Z.of_nat h)) (seq 0 m)) == sum_below (fun k => f (i - h + k)%nat) m)%Q).
  { induction m as [|m IH]; intros Hm; [reflexivity|]. rewrite seq_S, map_app, qsum_app', IH by lia. cbn [sum_below map plus].
    unfold ext at 1. replace (Z.of_nat i + Z.of_nat m - Z.of_nat h)%Z with (Z.of_nat (i - h + m)) by lia. rewrite reflect_id by lia.
    unfold Planning.qsum. cbn [fold_right]. ring. }
  apply G. lia.
Qed.
Print Assumptions C116_mean.

(** When every cell of an axis is replaced, with an odd radius, the sum of the values is kept,
    however large the radius. *)
Theorem C116_sum : forall n h f, 0 < n ->
  (sum_below (fun i => smooth_copy [n] [(2 * h + 1)%nat] (fun _ => true) (fun j => f (hd 0%nat j)) [i]) n == sum_below f n)%Q.
Proof.
  intros n h f H. unfold smooth_copy.
  rewrite (sum_below_ext _ (fun i => window_sum (ext n f) (Z.of_nat i) h / qnat (2 * h + 1))%Q) by (intros; apply convolved_axis).
  rewrite sum_below_div, sum_window_sum by auto. field.
  assert (P : (0 < qnat (2 * h + 1))%Q) by (apply qnat_pos; lia). intros E. rewrite E in P. apply (Qlt_irrefl _ P).
Qed.
Print Assumptions C116_sum.

(** A peak in a row of 4 and in a square of 3 by 3; a radius beyond the array. *)
Example C116_demo :
  let row := fun j => nth (hd 0%nat j) [0; 6; 0; 3]%Q 0%Q in
  let square := fun j => match j with [1; 1] => 9%Q | _ => 0%Q end in
  map (fun i => Qred (smooth_copy [4] [3] (fun j => negb (hd 0%nat j =? 2)) row [i])) (seq 0 4) = [2; 2; 0; 2]%Q /\
  map (fun i => Qred (smooth_copy [4] [4] (fun _ => true) row [i])) (seq 0 4) = [3#2; 9#4; 3; 3#2]%Q /\
  Qred (smooth_copy [3; 3] [3; 3] (fun _ => true) square [0; 2]) = 1%Q /\
  Qred (smooth_copy [3; 3] [3; 3] (fun _ => true) square [1; 1]) = 1%Q.
Proof. vm_compute. repeat split; reflexivity. Qed.

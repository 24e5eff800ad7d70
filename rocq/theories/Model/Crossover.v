(** Model of the crossovers of differential evolution
    (nevergrad/optimization/differentialevolution.py:15-103) and of the discrete mutations
    (nevergrad/optimization/mutations.py:129-159). The random draws are arguments. *)
From Coq Require Import Arith ZArith Bool Lia List.
From Verif.Model Require Import Prelude.
Import ListNotations.
Open Scope nat_scope.

Section DE.
Context {A : Type}.
Implicit Types donor individual : list A.

(** [x[lo:hi] = y] where [y] has the length of the slice *)
Definition put_slice (lo hi : nat) (y x : list A) : list A := firstn lo x ++ y ++ skipn hi x.
(** [x[lo:hi]] *)
Definition slice (lo hi : nat) (x : list A) : list A := firstn (hi - lo) (skipn lo x).
(** [x[mask] = y[mask]] *)
Definition put_mask (mask : list bool) (x y : list A) : list A :=
  map (fun m : bool * (A * A) => if fst m then snd (snd m) else fst (snd m)) (combine mask (combine x y)).

(** differentialevolution.py:52-58 [variablewise]: [u idx]: whether the uniform draw of [idx] is
    larger than CR; [R] is in [0, size). *)
Definition variablewise (R : nat) (u : nat -> bool) donor individual : list A :=
  put_mask (map (fun idx => negb (idx =? R) && u idx) (seq 0 (length donor))) donor individual.

(** differentialevolution.py:60-65 [onepoint]: [R] is in [1, size) *)
Definition onepoint (R : nat) (flip : bool) donor individual : list A :=
  let n := length donor in
  if flip then put_slice R n (slice R n individual) donor else put_slice 0 R (slice 0 R individual) donor.

(** the draws of the two points: two different values of [0, size], sorted; [which] and [r]
    repair the choice of everything (differentialevolution.py:68-70, 79-81); numpy raises
    when [1, size) is empty *)
Definition two_bounds (n c1 c2 : nat) (which : bool) (r : nat) : result (nat * nat) :=
  let b0 := min c1 c2 in let b1 := max c1 c2 in
  if (b1 =? n) && (b0 =? 0) then
    if n <=? 1 then Err ValueError else Ok (if which then (b0, r) else (r, b1))
  else Ok (b0, b1).
(** differentialevolution.py:67-76 [twopoints] *)
Definition twopoints (c1 c2 : nat) (which : bool) (r : nat) (flip : bool) donor individual : result (list A) :=
  let n := length donor in
  bind (two_bounds n c1 c2 which r) (fun '(b0, b1) =>
  Ok (if flip then put_slice b0 b1 (slice b0 b1 individual) donor
      else put_slice b1 n (slice b1 n individual) (put_slice 0 b0 (slice 0 b0 individual) donor))).

(** differentialevolution.py:78-86 [rotated_twopoints]; [s] is in [0, size + 1 - length) *)
Definition rotated_twopoints (c1 c2 : nat) (which : bool) (r s : nat) donor individual : result (list A) :=
  let n := length donor in
  bind (two_bounds n c1 c2 which r) (fun '(b0, b1) =>
  if b1 <? n + 1 then Ok (put_slice b0 b1 (slice s (s + b1 - b0) individual) donor) else Err AssertionError).

(** differentialevolution.py:88-110 [voronoi], with a shape of two axes at least. The
    positions of the flat array are listed with their indices, and distances are compared by
    their squares. *)
Fixpoint indices (shape : list nat) : list (list nat) :=
  match shape with [] => [[]] | n :: shape => flat_map (fun i => map (cons i) (indices shape)) (seq 0 n) end.
Fixpoint dist2 (x y : list nat) : Z :=
  match x, y with
  | a :: x, b :: y => ((Z.of_nat a - Z.of_nat b) * (Z.of_nat a - Z.of_nat b) + dist2 x y)%Z
  | _, _ => 0%Z
  end.
Definition closer (x1 x2 x3 x4 ix : list nat) : bool :=
  (dist2 ix x4 <? Z.min (dist2 ix x1) (Z.min (dist2 ix x2) (dist2 ix x3)))%Z.
Definition voronoi (shape : list nat) (x1 x2 x3 x4 : list nat) donor individual : list A :=
  put_mask (map (closer x1 x2 x3 x4) (indices shape)) donor individual.

(** differentialevolution.py:39-50 [apply] *)
Inductive mode : Type := Variablewise | Onepoint | Twopoints | Rotated | Voronoi (shape : option (list nat)).
Record draws : Type := Draws {
  dR : nat; du : nat -> bool; dflip : bool; dc1 : nat; dc2 : nat; dwhich : bool; dr : nat; ds : nat;
  dx1 : list nat; dx2 : list nat; dx3 : list nat; dx4 : list nat }.
Definition apply_crossover (m : mode) (d : draws) donor individual : result (list A) :=
  let dim := length donor in
  let two := twopoints (dc1 d) (dc2 d) (dwhich d) (dr d) (dflip d) donor individual in
  let default := Ok (variablewise (dR d) (du d) donor individual) in
  match m with
  | Variablewise => default
  | Twopoints => if 4 <=? dim then two else default
  | Rotated => if 4 <=? dim then rotated_twopoints (dc1 d) (dc2 d) (dwhich d) (dr d) (ds d) donor individual else default
  | Onepoint => if 3 <=? dim then Ok (onepoint (dR d) (dflip d) donor individual) else default
  | Voronoi (Some ((_ :: _ :: _) as shape)) => Ok (voronoi shape (dx1 d) (dx2 d) (dx3 d) (dx4 d) donor individual)
  | Voronoi _ => two
  end.
End DE.

(** ** mutations.py *)
Section Mix.
(** mutations.py:129-158 [Mutator.crossover]: the mixing part, before [discrete_mutation]. [pick i]: whether
    [choice([donor, parent])] gives the donor's value; points are given by their integer part
    (both sides are multiplied by two to avoid halves). *)
Inductive mix_kind : Type := MRotation (k : nat) | MMax | MMin | MOnepoint (sig : bool) (idx : nat)
  | MTwopoint (sig : bool) (idx idx2 : nat) | MUniform.
(** [(i - (idx + 1/2)) * (+-1) < 0] *)
Definition before (i idx : nat) : bool := i <=? idx.
Definition mix (kind : mix_kind) (pick : nat -> bool) (parent donor : list Z) : list Z :=
  let dim := length parent in
  let uniform := map (fun ipd => if pick (fst ipd) then snd (snd ipd) else fst (snd ipd)) (combine (seq 0 dim) (combine parent donor)) in
  match kind with
  | MRotation k => map (fun ip => if pick (fst ip) then nth ((fst ip + k) mod dim) donor 0%Z else snd ip) (combine (seq 0 dim) parent)
  | MMax => map (fun pd => Z.min (snd pd) (fst pd)) (combine parent donor)
  | MMin => map (fun pd => Z.max (snd pd) (fst pd)) (combine parent donor)
  | MOnepoint sig idx =>
      if 4 <? dim then
        map (fun ipd => if Bool.eqb (before (fst ipd) idx) sig then snd (snd ipd) else fst (snd ipd)) (combine (seq 0 dim) (combine parent donor))
      else uniform
  | MTwopoint sig idx idx2 =>
      if 6 <? dim then
        map (fun ipd => if Bool.eqb (xorb (before (fst ipd) idx) (before (fst ipd) idx2)) sig then snd (snd ipd) else fst (snd ipd))
            (combine (seq 0 dim) (combine parent donor))
      else uniform
  | MUniform => uniform
  end.
End Mix.

(** Vocabulary for the LSGO testbed *)
From Coq Require Import Reals Arith ZArith List.
From Verif.Model Require Import Prelude Lsgo.
From Verif.Model Require CoreFuncs.
Import ListNotations.
Open Scope R_scope.

(** [o] is the zero of [f] in dimension [d]: everywhere else the value is positive *)
Definition zero_at (f : vec -> result R) (d : nat) (o : vec) : Prop :=
  length o = d /\ f o = Ok 0 /\ forall x, length x = d -> x <> o -> exists v, f x = Ok v /\ 0 < v.
(** A rotation in dimension [d]: a square matrix which keeps the sum of the squares *)
Definition rotation (d : Z) (m : list vec) : Prop :=
  size m = d /\ Forall (fun r => size r = d) m /\
  forall x, size x = d -> CoreFuncs.sphere (map (fun r => dot r x) m) = CoreFuncs.sphere x.
Definition sizes_ok (z : sizes) : Prop :=
  (0 < z_total z /\ 0 <= z_overlap z <= z_rest z /\ 0 < z_rest z /\ 0 < z_25 z /\ 0 < z_50 z /\ 0 < z_100 z)%Z.
(** Data as in the files: positive weights, rotations, groups which are not smaller than the overlap *)
Definition data_ok (z : sizes) (d : data) : Prop :=
  match d with
  | DShift xopt => (2 <= length xopt)%nat
  | DParts xopt p s w r25 r50 r100 =>
      Forall (fun a => 0 < a) w /\ Forall (fun d => (z_overlap z <= d)%Z) s /\
      rotation (z_25 z) r25 /\ rotation (z_50 z) r50 /\ rotation (z_100 z) r100
  end.
(** The groups [gs] of the variables [p]: of the sizes [dims], each one starting with the last [overlap] variables of the
    one before *)
Definition groups (p dims : list Z) (overlap : Z) (gs : list (list Z)) : Prop :=
  map size gs = dims /\ (forall g, In g gs -> incl g p) /\ (forall i, In i p -> exists g, In g gs /\ In i g) /\
  (forall k g g', nth_error gs k = Some g -> nth_error gs (S k) = Some g' ->
    skipn (length g - Z.to_nat overlap) g = firstn (Z.to_nat overlap) g') /\
  (overlap = 0%Z -> concat gs = p).
(** [p] has each of the numbers below its length once *)
Definition numbering (p : list Z) : Prop := NoDup p /\ forall i, In i p <-> (0 <= i < size p)%Z.
(** the variables [g] of [x] *)
Definition part (x : vec) (g : list Z) : vec := map (fun i => nth (Z.to_nat i) x 0) g.

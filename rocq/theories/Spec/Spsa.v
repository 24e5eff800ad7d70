(** Vocabulary for simultaneous perturbations *)
From Coq Require Import List Arith QArith.
From Verif.Model Require Import Prelude MultiValue Spsa.
Import ListNotations.
Open Scope nat_scope.

(** One round: the direction, and the losses of the two candidates *)
Record round : Type := Round { r_dir : list Q; r_first : Q; r_second : Q }.
(** A round as the optimizer sees it; the draw offered at the second ask is not used *)
Definition events (unused : list Q) (r : round) : list spsa_event :=
  [Ask (r_dir r); Tell (r_first r); Ask unused; Tell (r_second r)].

(** [x == base + coef * dir], coordinate by coordinate *)
Definition on_line (base : list Q) (coef : Q) (dir : list Q) (x : list Q) : Prop :=
  length x = length base /\
  forall i b v y, nth_error base i = Some b -> nth_error dir i = Some v -> nth_error x i = Some y -> (y == b + coef * v)%Q.

(** The successive centres from round [j] on: each one follows from the round before it; [slope] is the estimate of the
    slope of the loss in the direction of the round *)
Inductive centres (a c : nat -> Q) : nat -> list round -> list Q -> list (list Q) -> Prop :=
| centres_nil : forall j t, centres a c j [] t [t]
| centres_cons : forall j r rs t t' ts,
    on_line t (- (a (S j) * ((r_second r - r_first r) / (2 * c (S j)))))%Q (r_dir r) t' ->
    centres a c (S j) rs t' ts -> centres a c j (r :: rs) t (t :: ts).

(** Each round evaluates two candidates on both sides of its centre, at the same distance. *)
Inductive perturbed (c : nat -> Q) : nat -> list (list Q) -> list round -> list arr -> Prop :=
| perturbed_nil : forall j ts, perturbed c j ts [] []
| perturbed_cons : forall j t ts r rs x1 x2 xs,
    on_line t (- c j) (r_dir r) x1 -> on_line t (c j) (r_dir r) x2 -> perturbed c (S j) ts rs xs ->
    perturbed c j (t :: ts) (r :: rs) (Some x1 :: Some x2 :: xs).
(** The losses of the rounds are those of a function on the candidates. *)
Inductive played (f : list Q -> Q) : list round -> list arr -> Prop :=
| played_nil : played f [] []
| played_cons : forall r rs x1 x2 xs, (r_first r == f x1)%Q -> (r_second r == f x2)%Q -> played f rs xs ->
    played f (r :: rs) (Some x1 :: Some x2 :: xs).

(** The mean of some points of dimension [d] *)
Definition mean_of (d : nat) (pts : list (list Q)) (m : list Q) : Prop :=
  length m = d /\ forall i y, nth_error m i = Some y ->
    (y * inject_Z (Z.of_nat (length pts)) == fold_right Qplus 0 (map (fun p => nth i p 0) pts))%Q.

Fixpoint dot (g x : list Q) : Q := match g, x with u :: g, v :: x => (u * v + dot g x)%Q | _, _ => 0%Q end.

(** The design of a one-shot optimizer: what its k-th point is, whatever is told. *)
From Coq Require Import List Arith QArith Bool.
From Verif.Model Require Import Prelude MultiValue Float Optimizer OneShot.
From Verif.Spec Require Import Optimizer.
Import ListNotations.
Open Scope nat_scope.

(** [y] is the opposite of [x], multiplied by [f] *)
Definition opposite_of (f : Q) (x y : list Q) : Prop := Forall2 (fun a b => (b == - (f * a))%Q) x y.
Definition origin (d : nat) : list Q := repeat 0%Q d.

(** the factors of a mode: 1 for "opposite", in [0, 1] otherwise *)
Definition mode_factor (m : opposition) (factor : nat -> Q) (j : nat) : Q :=
  match m with Opposite => 1%Q | _ => factor j end.

(** [design ... k x]: the [k]-th point is [x].  [middle]: the middle point is asked. *)
Inductive design (cfg : config) (middle : bool) (point : nat -> list Q) (factor : nat -> Q) : nat -> list Q -> Prop :=
(* no opposition: the middle point, then the points of the sampler in order *)
| d_middle : middle = true -> design cfg middle point factor 0 (origin (o_dim cfg))
| d_plain : forall k, o_mode cfg = None ->
    design cfg middle point factor (k + if middle then 1 else 0) (point k)
(* sampling with opposition: the middle point, then each point followed by its opposite *)
| d_first : forall j m, o_mode cfg = Some m -> o_kind cfg = Sampling ->
    design cfg middle point factor (2 * j + if middle then 1 else 0) (point j)
| d_second : forall j m y, o_mode cfg = Some m -> o_kind cfg = Sampling ->
    opposite_of (mode_factor m factor j) (point j) y ->
    design cfg middle point factor (2 * j + 1 + if middle then 1 else 0) y
(* random search with opposition: the middle point is followed by its opposite: itself *)
| d_again : forall m y, o_mode cfg = Some m -> o_kind cfg = Random -> middle = true ->
    Forall2 Qeq y (origin (o_dim cfg)) -> design cfg middle point factor 1 y
| d_rfirst : forall j m, o_mode cfg = Some m -> o_kind cfg = Random ->
    design cfg middle point factor (2 * j + if middle then 2 else 0) (point j)
| d_rsecond : forall j m y, o_mode cfg = Some m -> o_kind cfg = Random ->
    opposite_of (mode_factor m factor (j + if middle then 1 else 0)) (point j) y ->
    design cfg middle point factor (2 * j + 1 + if middle then 2 else 0) y.

(** the candidates of the algorithm, in the order in which they were returned *)
Definition proposed (h : history) : list nat :=
  flat_map (fun e => match e with (OAsk, RCand c false) => [c] | _ => [] end) h.
(** the first candidate returned was not a suggestion (or none was returned) *)
Fixpoint first_proposed (h : history) : bool :=
  match h with
  | [] => true
  | (OAsk, RCand _ suggested) :: _ => negb suggested
  | _ :: h' => first_proposed h'
  end.

(** how many points the optimizer can propose *)
Definition capacity (cfg : config) (middle : bool) (budget : option nat) : option nat :=
  match o_kind cfg, budget with
  | Sampling, Some b =>
      let samples := b - (if o_middle cfg then 1 else 0) in
      let pts := match o_mode cfg with Some _ => samples + samples mod 2 | None => samples end in
      Some (pts + if middle then 1 else 0)
  | _, _ => None
  end.

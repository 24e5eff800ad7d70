(** Model of [_EMNA] without adaptation of the population size (nevergrad/optimization/optimizerlib.py:3634-3753 with
    [population_size_adaptation=False]), with exact arithmetic.  A told candidate is its standardized data and its loss. *)
From Coq Require Import List Arith QArith Bool.
From Verif.Model Require Import Prelude MultiValue Nsga2 MetaModel.
Import ListNotations.
Open Scope nat_scope.

Definition emna_cand : Type := (list Q * Q)%type.

(** optimizerlib.py:3669-3678: [mu] and [llambda] *)
Definition emna_mu0 (d : nat) : nat := Nat.max 16 d.
Definition emna_sizes (d workers : nat) (budget : option nat) : nat * nat :=
  let llambda := Nat.max (4 * emna_mu0 d) workers in
  match budget with
  | Some b => if b <? llambda then (b / 4, b) else (emna_mu0 d, llambda)
  | None => (emna_mu0 d, llambda)
  end.

(** [sigma]: a number or an array *)
Inductive sigma : Type := Scalar (s : Q) | Vector (s : list Q).
Record emna : Type := Emna { em_center : list Q; em_sigma : sigma; em_parents : list emna_cand; em_children : list emna_cand }.

Section Emna.
  Variable root : Q -> Q.                      (* np.sqrt *)
  Variables (d mu llambda : nat) (isotropic : bool).
  (** optimizerlib.py:3749-3751: [imp], or 1 when num_workers / dimension is at most 32 *)
  Variable imp : Q.

  (** optimizerlib.py:3661-3664, 3684-3687; the list of parents which contains the parametrization is left empty *)
  Definition emna_init : emna := Emna (repeat 0%Q d) (if isotropic then Scalar 1 else Vector (repeat 1%Q d)) [] [].

  Definition vsum (pts : list (list Q)) : list Q := fold_left vadd pts (repeat 0%Q d).
  Definition vsquare (a : list Q) : list Q := map (fun x => x * x)%Q a.
  Definition total (a : list Q) : Q := fold_right Qplus 0%Q a.
  Definition sigma_map (f : Q -> Q) (s : sigma) : sigma := match s with Scalar x => Scalar (f x) | Vector v => Vector (map f v) end.

  (** optimizerlib.py:3699-3700: the data of a candidate, for the draws [z] *)
  Definition emna_ask (z : list Q) (s : emna) : list Q :=
    vadd (em_center s) (match em_sigma s with Scalar x => vscale x z | Vector v => map (fun xy => fst xy * snd xy)%Q (combine v z) end).

  (** optimizerlib.py:3708-3751 *)
  Definition emna_tell (c : emna_cand) (s : emna) : result emna :=
    let children := em_children s ++ [c] in
    if llambda <=? length children then
      let parents := firstn mu (stable_sort (fun a b => qle (snd a) (snd b)) children) in
      if mu =? 0 then Err ZeroDivisionError else
      let center := vscale (1 / qnat mu) (vsum (map fst parents)) in
      let stdd := map (fun p => vsquare (vsub (fst p) center)) parents in
      let sig :=
        if isotropic then Vector (map (fun v => root (v / qnat (mu * d))) (vsum stdd))%Q
        else Scalar (root (total (map total stdd) / qnat (mu * 1))) in
      Ok (Emna center (sigma_map (fun x => x / imp)%Q sig) parents [])
    else Ok (Emna (em_center s) (em_sigma s) (em_parents s) children).
  Fixpoint emna_run (cs : list emna_cand) (s : emna) : result emna :=
    match cs with [] => Ok s | c :: cs => bind (emna_tell c s) (emna_run cs) end.
End Emna.

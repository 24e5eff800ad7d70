(** Model of [_PopulationSizeController] (nevergrad/optimization/optimizerlib.py), the
    population sizes of TBPSA and of the estimation of distribution algorithms.
    Losses are exact rationals; [int(mu * 0.84)] is computed exactly. *)
From Coq Require Import List Arith ZArith QArith Bool.
From Verif.Model Require Import MultiValue.
Import ListNotations.
Open Scope nat_scope.

(** optimizerlib.py:1042-1048 fields (the dimension is only used by the constructor) *)
Record popsize : Type := PopSize {
  ps_lambda : nat; ps_mu : nat; ps_min_mu : nat; ps_workers : nat; ps_record : list Q }.

(** optimizerlib.py:1042-1048 [__init__] *)
Definition ps_init (llambda mu dimension num_workers : nat) : popsize :=
  PopSize (Nat.max llambda num_workers) mu (Nat.min mu dimension) num_workers [].

Definition qsum (l : list Q) : Q := fold_right Qplus 0%Q l.
Definition qmean (l : list Q) : Q := (qsum l / qnat (length l))%Q.
(** [np.std(l) ** 2] *)
Definition qvar (l : list Q) : Q := (qsum (map (fun x => (x - qmean l) * (x - qmean l)) l) / qnat (length l))%Q.

(** optimizerlib.py:1055-1058 [z < 2.0].  With [d] the difference of the means and [v] the
    sum of the squared [stds], [z] is [d / sqrt(v)]: it is below 2 when [d] is negative or
    [d * d < 4 * v].  When [v] is 0 Python gets -inf, nan or inf for a negative, zero or
    positive [d], which the same formula decides. *)
Definition no_progress (llambda : nat) (first last : list Q) : bool :=
  let d := (qmean first - qmean last)%Q in
  let v := (qvar first / qnat (llambda - 1) + qvar last / qnat (llambda - 1))%Q in
  qlt d 0 || qlt (d * d) (4 * v).

(** the last [n] elements ([l[-n:]], for n > 0) *)
Definition lastn {A : Type} (n : nat) (l : list A) : list A := skipn (length l - n) l.

(** optimizerlib.py:1050-1066 [add_value] *)
Definition ps_add (loss : Q) (s : popsize) : popsize :=
  let record := ps_record s ++ [loss] in
  if (5 * ps_lambda s <=? length record) then
    let mu := if no_progress (ps_lambda s) (firstn (ps_lambda s) record) (lastn (ps_lambda s) record)
              then 2 * ps_mu s
              else Nat.max (ps_min_mu s) (ps_mu s * 84 / 100) in
    let llambda := 4 * mu in
    if (1 <? ps_workers s) then
      let llambda := Nat.max llambda (ps_workers s) in
      PopSize llambda (llambda / 4) (ps_min_mu s) (ps_workers s) []
    else PopSize llambda mu (ps_min_mu s) (ps_workers s) []
  else PopSize (ps_lambda s) (ps_mu s) (ps_min_mu s) (ps_workers s) record.

Definition ps_run (s : popsize) (losses : list Q) : popsize := fold_left (fun s l => ps_add l s) losses s.

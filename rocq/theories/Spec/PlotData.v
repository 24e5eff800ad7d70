(** Vocabulary for the tables which are plotted *)
From Coq Require Import String List QArith.
From Verif.Model Require Import Float PlotData.
Import ListNotations.

(** Two rows of the same case: same values of the descriptors *)
Definition same_case (ds : list string) (r r' : row) : Prop := forall d, In d ds -> cell r d = cell r' d.
(** [a] is the smallest loss of the case of [r] *)
Definition smallest (ds : list string) (rows : list row) (r : row) (a : Q) : Prop :=
  (exists r', In r' rows /\ same_case ds r r' /\ r_loss r' = Fin a) /\
  forall r', In r' rows -> same_case ds r r' -> fl_le (Fin a) (r_loss r') = true.
(** [b] is the largest loss below the limit of the case of [r] *)
Definition largest (limit : fl) (ds : list string) (rows : list row) (r : row) (b : Q) : Prop :=
  (exists r', In r' rows /\ same_case ds r r' /\ r_loss r' = Fin b /\ fl_lt (Fin b) limit = true) /\
  forall r', In r' rows -> same_case ds r r' -> fl_lt (r_loss r') limit = true -> fl_le (r_loss r') (Fin b) = true.
(** All the cells of the descriptors are there; no loss is nan or minus infinity *)
Definition complete (t : table) (ds : list string) : Prop :=
  (forall d, In d ds -> In d (t_columns t)) /\
  (forall r d, In r (t_rows t) -> In d ds -> cell r d <> None) /\
  forall r, In r (t_rows t) -> exists q, r_loss r = Fin q \/ r_loss r = PosInf.

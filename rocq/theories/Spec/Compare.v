(** Vocabulary for comparisons *)
From Coq Require Import List QArith.
From Verif.Model Require Import Prelude MultiValue Archive.

(** what the archive knows about the data [key] *)
Definition known (s : archst) (key : nat) : option mv := option_map (hget (st_heap s)) (dget key (st_archive s)).

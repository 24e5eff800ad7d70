(** Model of [compare], the method which lets an optimizer learn from comparisons (nevergrad/optimization/base.py:748-772),
    on top of the archive of Model/Archive.v.  A candidate is given by its uid and by the number of its standardized data.
    The values which are told are finite, the candidates satisfy the constraints of the parametrization, and what the
    algorithm itself does with the values is left out. *)
From Coq Require Import List Arith QArith Bool.
From Verif.Model Require Import Prelude MultiValue Archive.
Import ListNotations.
Open Scope nat_scope.

Section Compare.
  Variable msqrt : Q -> Q.
  Variable pruning : list mv -> list (nat * nat) -> result (list (nat * nat)).
  (** base.py:755-759 *)
  Definition best_loser (s : archst) (losers : list nat) : Q :=
    fold_left (fun b key => match dget key (st_archive s) with Some id => qmin b (mv_mean (hget (st_heap s) id)) | None => b end) losers 0%Q.
  (** base.py:762-767; [first] is [best_fitness_value - len(winners)], [i] the rank of the first of the winners *)
  Fixpoint tell_winners (first : Q) (i : nat) (winners : list (nat * nat)) (s : archst) : archst * result unit :=
    match winners with
    | [] => (s, Ok tt)
    | (c, key) :: ws =>
        let v := (first + qnat i)%Q in
        match arch_tell msqrt pruning s (c, key, v) with
        | (s, Err e) => (s, Err e)
        | (s, Ok _) =>
            tell_winners first (S i) ws
              (ArchSt (st_heap s ++ [mv_new c v]) (dset key (length (st_heap s)) (st_archive s)) (st_bests s) (st_loss s))
        end
    end.
  Definition compare (s : archst) (winners : list (nat * nat)) (losers : list nat) : archst * result unit :=
    tell_winners (best_loser s losers - qnat (length winners))%Q 0 winners s.
  (** A user which tells losses and gives comparisons, in any order *)
  Inductive op : Type := Tell (c key : nat) (y : Q) | Compare (winners : list (nat * nat)) (losers : list nat).
  Definition run_op (s : archst) (o : op) : archst :=
    match o with Tell c key y => fst (arch_tell msqrt pruning s (c, key, y)) | Compare ws ls => fst (compare s ws ls) end.
  Definition run_ops (ops : list op) : archst := fold_left run_op ops arch_init.
End Compare.

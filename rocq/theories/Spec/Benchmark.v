(** Vocabulary for C45 and C46. *)
From Coq Require Import ZArith Bool List.
From Verif.Model Require Import Prelude Benchmark.
Import ListNotations.

(** The experiments of a benchmark: those of the first repetition, of the second one, ...; repetition [k] uses the
    seed plus [k] (if a seed is given), and the first [cap] experiments (at least one) of its plan (if a cap is given). *)
Definition repetition {X} (maker : option Z -> list X) (sd cap : option Z) (k : nat) : list X :=
  let l := maker (option_map (fun s => s + Z.of_nat k)%Z sd) in
  match cap with None => l | Some c => firstn (Z.to_nat (Z.max 1 c)) l end.
Definition all_experiments {X} (maker : option Z -> list X) (reps : nat) (sd cap : option Z) : list X :=
  concat (map (repetition maker sd cap) (seq 0 reps)).
Definition numbered {X} (l : list X) : list (nat * X) := combine (seq 0 (length l)) l.

(** [parts] is obtained from [c] by splitting, and splitting again the parts, any number of times. *)
Inductive division {X} (maker : option Z -> list X) : chunk -> list chunk -> Prop :=
| division_self c : division maker c [c]
| division_split c number cs parts : (0 < number)%nat -> chunk_split maker c number = Ok cs -> divisions maker cs parts -> division maker c parts
with divisions {X} (maker : option Z -> list X) : list chunk -> list chunk -> Prop :=
| divisions_nil : divisions maker [] []
| divisions_cons c cs parts parts' : division maker c parts -> divisions maker cs parts' -> divisions maker (c :: cs) (parts ++ parts').

(** The last event of an experiment. *)
Definition last_event {S} (i : nat) (t : list (event (S := S))) : option event := find (fun e => Nat.eqb (e_index e) i) (rev t).
Definition completed {S} (t : list (event (S := S))) : list event := filter e_processed t.

(** Vocabulary for the benchmarks from gym environments. *)
From Coq Require Import Arith List ZArith QArith.
From Verif Require Import Model.Prelude Model.MultiValue Model.Planning Model.GymMulti.
Import ListNotations.
Open Scope nat_scope.
Open Scope list_scope.

(** from [env], these actions are legal, give these rewards, and lead to [env']; the episode is over ([fin]) only after the last one *)
Inductive played {E} (step : E -> act -> result (obs * Q * bool * E)) : E -> list act -> list Q -> bool -> E -> Prop :=
| pl_none env : played step env [] [] false env
| pl_over env a o r env' : step env a = Ok (o, r, true, env') -> played step env [a] [r] true env'
| pl_more env a o r env1 acts rs fin env2 : step env a = Ok (o, r, false, env1) -> played step env1 acts rs fin env2 ->
    played step env (a :: acts) (r :: rs) fin env2.

Fixpoint power (g : Q) (n : nat) : Q := match n with 0 => 1 | S m => g * power g m end.
(** the rewards, each multiplied by gamma for every later step *)
Fixpoint late_sum (gamma : Q) (rs : list Q) : Q :=
  match rs with [] => 0 | r :: rs' => r * power gamma (List.length rs') + late_sum gamma rs' end.

(** the same observation *)
Definition same (a b : obs) : Prop := Forall2 Qeq a b.

(** the states of the archive: episodes end (with these rewards), suggestions are asked for *)
Inductive archived : list Q -> state -> Prop :=
| ar_start ext calls : archived [] (St ext [] 0 0 calls)
| ar_end rs s acts os r : archived rs s -> List.length acts = List.length os -> archived (rs ++ [r]) (archive_observations acts os r s)
| ar_ask rs s ex o os a s' : archived rs s -> heuristic ex o os s = Ok (a, s') -> archived rs s'
| ar_other rs s ext calls : archived rs s -> archived rs (St ext (f_archive s) (f_mean s) (f_num s) calls).

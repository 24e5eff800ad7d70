(** Episodes of a policy, and products of vectors with matrices. *)
From Coq Require Import Bool Arith List String ZArith QArith.
From Verif Require Import Model.Prelude Model.Control.
Import ListNotations.
Open Scope nat_scope.
Open Scope list_scope.

(** an episode without noise, from an observation to the first step which is done: the rewards *)
Inductive episode {E : Type} (step : E -> list Q -> result (E * (list Q * Q * bool))) (act : list Q -> result (list Q))
  : E -> list Q -> E -> list Q -> Prop :=
| episode_done e obs a e' obs' r :
    act obs = Ok a -> step e a = Ok (e', (obs', r, true)) -> episode step act e obs e' [r]
| episode_more e obs a e' obs' r e'' rs :
    act obs = Ok a -> step e a = Ok (e', (obs', r, false)) -> episode step act e' obs' e'' rs ->
    episode step act e obs e'' (r :: rs).
(** episodes one after the other, each from a reset *)
Inductive episodes {E : Type} (reset : E -> E * list Q) (step : E -> list Q -> result (E * (list Q * Q * bool)))
  (act : list Q -> result (list Q)) : E -> list (list Q) -> Prop :=
| episodes_nil e : episodes reset step act e []
| episodes_cons e e' rs rss :
    episode step act (fst (reset e)) (snd (reset e)) e' rs -> episodes reset step act e' rss ->
    episodes reset step act e (rs :: rss).

Definition total (l : list Q) : Q := fold_right Qplus 0%Q l.
(** coordinate j of the product of a vector with a matrix: the sum over i of v_i m_ij *)
Fixpoint product_from (i : nat) (v : list Q) (m : nat -> nat -> Q) (j : nat) : Q :=
  match v with [] => 0%Q | x :: v' => (x * m i j + product_from (S i) v' m j)%Q end.

(** Dispersed points of the sphere: /repo/nevergrad/common/sphere.py:176-234. *)
From Coq Require Import Bool Arith List QArith Lia.
From Verif Require Import Model.Prelude Model.MultiValue.
Import ListNotations.
Open Scope nat_scope.
Open Scope list_scope.

Section Dispersion.
(** a normalized point, and np.linalg.norm(convo(y, conv) - convo(x, conv)). Simplification: exact distances *)
Variable P : Type.
Variable dist : P -> P -> Q.

(** sphere.py:190 and 217: the distance to the nearest point, min of an empty sequence raises *)
Definition nearest (x : list P) (y : P) : result Q :=
  match map (dist y) x with [] => Err ValueError | q :: l => Ok (fold_left qmin l q) end.
(** the batch [r] of pairs of rand_and_dist, sphere.py:188-194 and 212-222; the draws of the threads are given, in the order of [r] *)
Fixpoint scored (x : list P) (cs : list P) : result (list (P * Q)) :=
  match cs with
  | [] => Ok []
  | c :: cs => bind (nearest x c) (fun q => bind (scored x cs) (fun l => Ok ((c, q) :: l)))
  end.
(** dist.index(max(dist)): the first of the largest ones *)
Fixpoint best (cur : P * Q) (l : list (P * Q)) : P :=
  match l with
  | [] => fst cur
  | c :: l => best (if qlt (snd cur) (snd c) then c else cur) l
  end.
(** sphere.py:195-197 and 223-225 *)
Definition choose (x : list P) (cs : list P) : result P :=
  bind (scored x cs) (fun l => match l with [] => Err ValueError | c :: l => Ok (best c l) end).

(** sphere.py:180-197: the loop on time; one batch for each iteration which the clock allows *)
Fixpoint batches (x : list P) (bs : list (list P)) (newy : option P) : result (option P) :=
  match bs with
  | [] => Ok newy
  | b :: bs => bind (choose x b) (fun y => batches x bs (Some y))
  end.
(** sphere.py:178-199: one list of batches for each point; [UserError 1] stands for the UnboundLocalError of newy *)
Fixpoint greedy (rounds : list (list (list P))) (x : list P) (newy : option P) : result (list P) :=
  match rounds with
  | [] => Ok x
  | bs :: rounds =>
      bind (batches x bs newy) (fun newy =>
      match newy with None => Err (UserError 1) | Some y => greedy rounds (x ++ [y]) (Some y) end)
  end.
(** sphere.py:176-199: [batches_of j] are the batches of the j-th iteration *)
Definition greedy_dispersion (n : nat) (first : P) (batches_of : nat -> list (list P)) : result (list P) :=
  greedy (map batches_of (seq 0 (n - 1))) [first] None.

(** sphere.py:208-228: the t-th replacement and the following ones, until the clock stops them; the candidates are the
    point itself, then draws. Simplification: any number of draws *)
Fixpoint improve (t : nat) (draws : list (list P)) (x : list P) : result (list P) :=
  match draws with
  | [] => Ok x
  | cs :: draws =>
      match nth_error x (t mod length x) with
      | None => Err IndexError
      | Some xj =>
          let j := t mod length x in
          bind (choose (firstn j x ++ skipn (S j) x) (xj :: cs)) (fun y =>
          improve (S t) draws (firstn j x ++ y :: skipn (S j) x))
      end
  end.
(** sphere.py:202-234; the score at the end is not used *)
Definition dispersion (n : nat) (first : P) (batches_of : nat -> list (list P)) (draws : list (list P)) : result (list P) :=
  bind (greedy_dispersion n first batches_of) (improve 0 draws).
End Dispersion.

(** Model of population based training (nevergrad/functions/pbt.py). Numbers are exact rationals; the functions, their
    gradients, the exponential and the norms are arbitrary functions. Arrays live in a heap, a list of arrays, an address being
    a position; workers hold addresses. *)
From Coq Require Import List Arith QArith Bool.
From Verif.Model Require Import Prelude MultiValue.
Import ListNotations.
Open Scope nat_scope.

(** l[i] = v *)
Fixpoint set_nth {A} (l : list A) (i : nat) (v : A) : list A :=
  match l, i with
  | [], _ => []
  | _ :: l', O => v :: l'
  | a :: l', S i' => a :: set_nth l' i' v
  end.
(** l[i] *)
Definition get {A} (l : list A) (i : nat) : result A :=
  match nth_error l i with Some a => Ok a | None => Err IndexError end.

(** Comparison of fitnesses and distances, [None] being the infinity. *)
Definition dist_lt (a b : option Q) : bool :=
  match a, b with Some x, Some y => qlt x y | Some _, None => true | None, _ => false end.
(** pbt.py:105 [min((val, idx) ...)]: the first of the least *)
Fixpoint argmin_from (best : nat) (bv : option Q) (i : nat) (l : list (option Q)) : nat :=
  match l with
  | [] => best
  | v :: l' => if dist_lt v bv then argmin_from i v (S i) l' else argmin_from best bv (S i) l'
  end.
Definition argmin (l : list (option Q)) : result nat :=
  match l with [] => Err ValueError | v :: l' => Ok (argmin_from 0 v 1 l') end.

Section Pbt.
  Variable dims : list nat.
  (** the functions, on blocks from which the optimum is subtracted (pbt.py:57), and their gradients there (62-75) *)
  Variable func : nat -> list Q -> Q.
  Variable grad : nat -> list Q -> list Q.
  Variable qexp : Q -> Q.
  (** pbt.py:102, 104: the two norms of a difference *)
  Variable norm : bool -> list Q -> list Q -> Q.

  (** pbt.py:46-51 the blocks of an array *)
  Fixpoint blocks (ds : list nat) (x : list Q) : list (list Q) :=
    match ds with [] => [] | d :: ds' => firstn d x :: blocks ds' (skipn d x) end.
  (** pbt.py:46-53 [unflatten] *)
  Definition unflatten (x : list Q) : result (list (list Q)) :=
    if length x =? list_sum dims then Ok (blocks dims x) else Err AssertionError.
  (** pbt.py:55-57 [value] *)
  Fixpoint values_from (j : nat) (bs : list (list Q)) : Q :=
    match bs with [] => 0%Q | b :: bs' => (func j b + values_from (S j) bs')%Q end.
  Definition value (x : list Q) : result Q := bind (unflatten x) (fun bs => Ok (values_from 0 bs)).

  (** pbt.py:85-87 for block [j] of dimension [d]: [np.random.normal(d)] is one number, [d + z] where [z] is a standard draw *)
  Definition descend (j d : nat) (p z : Q) (b : list Q) : list Q :=
    map (fun yg => (fst yg - qexp p * (snd yg + (qnat d + z)))%Q) (combine b (grad j b)).
  Fixpoint descend_all (j : nat) (ds : list nat) (ps zs : list Q) (bs : list (list Q)) : list (list Q) :=
    match ds, ps, zs, bs with
    | d :: ds', p :: ps', z :: zs', b :: bs' => descend j d p z b :: descend_all (S j) ds' ps' zs' bs'
    | _, _, _, _ => []
    end.
  (** pbt.py:59-92 [evolve]: the new content of the array *)
  Definition evolve (x pp zs : list Q) : result (list Q) :=
    if length pp =? length dims then
      bind (unflatten x) (fun bs => Ok (concat (descend_all 0 dims pp zs bs)))
    else Err AssertionError.

  Record pbt : Type := mkPbt {
    heap : list (list Q); checkpoints : list nat; parameters : list (list Q); fitness : list (option Q) }.
  (** pbt.py:38-42: [[a] * n] holds [n] times the same array *)
  Definition pbt_init (num_workers : nat) : pbt :=
    mkPbt [repeat 0%Q (list_sum dims)] (repeat 0 num_workers) (repeat (repeat 0%Q (length dims)) num_workers)
      (repeat None num_workers).

  (** The draws of a call: by fitness, or by one of the norms; the target; the noises. *)
  Record draws : Type := mkDraws { by_fitness : bool; which_norm : bool; target : nat; noises : list Q }.
  (** pbt.py:98-104 *)
  Definition distances (d : draws) (x : list Q) (s : pbt) : list (option Q) :=
    if by_fitness d then fitness s else map (fun i => Some (norm (which_norm d) i x)) (parameters s).
  (** pbt.py:94-118 [_func] *)
  Definition train (d : draws) (x : list Q) (s : pbt) : result (Q * pbt) :=
    if negb (length x =? length dims) then Err AssertionError else
    bind (argmin (distances d x s)) (fun source =>
    let idx := target d in
    if negb (idx <? length (fitness s)) then Err IndexError else
    bind (get (checkpoints s) source) (fun sa =>
    bind (get (heap s) sa) (fun content =>
    bind (get (fitness s) source) (fun sf =>
    let s := if idx =? source then s
             else mkPbt (heap s ++ [content]) (set_nth (checkpoints s) idx (length (heap s))) (parameters s)
                    (set_nth (fitness s) idx sf) in
    let s := mkPbt (heap s) (checkpoints s) (set_nth (parameters s) idx x) (fitness s) in
    bind (get (checkpoints s) idx) (fun a =>
    bind (get (heap s) a) (fun content =>
    bind (evolve content x (noises d)) (fun content' =>
    let s := mkPbt (set_nth (heap s) a content') (checkpoints s) (parameters s) (fitness s) in
    bind (value content') (fun v =>
    Ok (v, mkPbt (heap s) (checkpoints s) (parameters s) (set_nth (fitness s) idx (Some v))))))))))).

  (** several calls *)
  Fixpoint trains (l : list (draws * list Q)) (s : pbt) : result pbt :=
    match l with [] => Ok s | (d, x) :: l' => bind (train d x s) (fun r => trains l' (snd r)) end.
End Pbt.

(** Model of NoisyBandit (nevergrad/optimization/optimizerlib.py:1334-1349), on top of
    the archive and current bests of Model/Archive.v. *)
From Coq Require Import List Arith QArith Bool.
From Verif.Model Require Import Prelude MultiValue Archive.
Import ListNotations.
Local Open Scope nat_scope.

(** State of the optimizer: archive and current bests, [num_ask], and the data (a number
    standing for its bytes) of every candidate object by uid.  Uids are given in order of creation. *)
Record nb_state : Type := NB {
  nb_arch : archst;
  nb_asks : nat;
  nb_data : list nat         (* data of the candidate of uid i at position i *) }.

Definition nb_init : nb_state := NB arch_init 0 [].

(** What one ask reads from the random state: a normal draw (its bytes), a coin, and
    an index below the number of archived points (numpy's contract for [choice]). *)
Record nb_rnd : Type := Rnd { r_draw : nat; r_coin : bool; r_idx : nat }.

(** How the data of a candidate was obtained. *)
Inductive nb_source : Type := New | Arm | Best.

Section NB.
  Variable msqrt : Q -> Q.
  Variable pruning : list mv -> list (nat * nat) -> result (list (nat * nat)).

  (** optimizerlib.py:1342-1349 [_internal_ask].  The [x] of a current best
      (utils.py:59-62) is the data of its candidate; the initial object, whose
      candidate is the parametrization, has no uid here: reading it is the error
      case, and so is an index outside the archive. *)
  Definition nb_internal_ask (r : nb_rnd) (s : nb_state) : result (nb_source * nat) :=
    let a := st_archive (nb_arch s) in
    if length a ^ 3 <=? 20 * nb_asks s then Ok (New, r_draw r)
    else if r_coin r then
      match nth_error a (r_idx r) with
      | Some (key, _) => Ok (Arm, key)
      | None => Err IndexError
      end
    else
      match st_bests (nb_arch s) Optimistic with
      | None => Err RuntimeError
      | Some b =>
          match nth_error (nb_data s) (mv_param (hget (st_heap (nb_arch s)) b)) with
          | Some key => Ok (Best, key)
          | None => Err RuntimeError
          end
      end.

  (** base.py:481-547 [ask] without constraints nor suggestions: a candidate with a new
      uid and the data of the internal ask, [num_ask] grows by one. *)
  Definition nb_ask (r : nb_rnd) (s : nb_state) : result (nb_source * nat * nb_state) :=
    bind (nb_internal_ask r s) (fun '(src, key) =>
      let uid := length (nb_data s) in
      Ok (src, key, NB (nb_arch s) (nb_asks s + 1) (nb_data s ++ [key]))).

  (** base.py:300-437 [tell] of an asked candidate, for the first time or again: archive and bests
      are updated, [_internal_tell] does nothing (base.py:613-614). *)
  Definition nb_tell (uid : nat) (loss : Q) (s : nb_state) : result nb_state :=
    match nth_error (nb_data s) uid with
    | None => Err RuntimeError
    | Some key => Ok (NB (fst (arch_tell msqrt pruning (nb_arch s) (uid, key, loss))) (nb_asks s) (nb_data s))
    end.

  (** [tell] of a candidate created by the user from data [key] (not asked). *)
  Definition nb_tell_new (key : nat) (loss : Q) (s : nb_state) : nb_state :=
    let uid := length (nb_data s) in
    NB (fst (arch_tell msqrt pruning (nb_arch s) (uid, key, loss))) (nb_asks s)
       (nb_data s ++ [key]).

  (** A history: what the user does.  [EAsk] carries the random draws of the ask. *)
  Inductive nb_event : Type :=
  | EAsk (r : nb_rnd)
  | ETell (uid : nat) (loss : Q)
  | ENew (key : nat) (loss : Q).

  (** What an observer sees: a point asked and where it comes from, or a point told. *)
  Inductive nb_obs : Type :=
  | Asked (src : nb_source) (key : nat)
  | Told (uid key : nat) (loss : Q).

  Definition nb_step (e : nb_event) (s : nb_state) : result (nb_obs * nb_state) :=
    match e with
    | EAsk r => bind (nb_ask r s) (fun '(src, key, s') => Ok (Asked src key, s'))
    | ETell uid loss =>
        bind (nb_tell uid loss s) (fun s' =>
          match nth_error (nb_data s) uid with
          | Some key => Ok (Told uid key loss, s')
          | None => Err RuntimeError
          end)
    | ENew key loss => Ok (Told (length (nb_data s)) key loss, nb_tell_new key loss s)
    end.

  Fixpoint nb_run (es : list nb_event) (s : nb_state) : result (list nb_obs * nb_state) :=
    match es with
    | [] => Ok ([], s)
    | e :: es' =>
        bind (nb_step e s) (fun '(o, s') =>
        bind (nb_run es' s') (fun '(os, s2) => Ok (o :: os, s2)))
    end.

  (** The loop of [minimize] with one worker (base.py:686-741): ask, evaluate, tell. *)
  Fixpoint nb_rounds (uid : nat) (rs : list (nb_rnd * Q)) : list nb_event :=
    match rs with
    | [] => []
    | (r, loss) :: rs' => EAsk r :: ETell uid loss :: nb_rounds (S uid) rs'
    end.
End NB.

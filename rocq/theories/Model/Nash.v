(** Model of [_get_nash], [sample_nash], [DelayedJob] and [SequentialExecutor]
    (nevergrad/optimization/utils.py:102-156). Powers and probabilities are exact. *)
From Coq Require Import Arith QArith Bool List.
From Verif.Model Require Import Prelude MultiValue.
Import ListNotations.
Open Scope nat_scope.

Section Nash.
Context {A : Type}.
(** the points and how many times each was evaluated, in the order of the archive *)
Definition tried : Type := list (A * nat).
Definition max_count (l : tried) : nat := fold_left (fun m p => Nat.max m (snd p)) l 0.
Definition sum_count (l : tried) : nat := fold_left (fun m p => m + snd p) l 0.
(** sorted(..., key=itemgetter(1)): a stable sort *)
Fixpoint insert (x : A * nat) (l : tried) : tried :=
  match l with [] => [x] | y :: l' => if snd x <=? snd y then x :: l else y :: insert x l' end.
Definition sort (l : tried) : tried := fold_right insert [] l.
(** utils.py:102-117. The comparisons of max^0.5 and sum^0.25, and of a count and max^0.5, are those of their powers. *)
Definition get_nash (archive : tried) (pessimistic recommendation : A) : tried :=
  match archive with
  | [] => [(pessimistic, 1)]
  | _ =>
      let m := max_count archive in
      if m * m <=? sum_count archive then [(recommendation, 1)]
      else sort (filter (fun p => m <=? snd p * snd p) archive)
  end.
(** utils.py:125-126 *)
Definition probabilities (nash : tried) : list Q :=
  let prob := map (fun p => qnat (snd p)) nash in
  map (fun x => (x / fold_left Qplus prob 0)%Q) prob.
(** np.random.choice(np.arange(n), p=prob): the first index whose cumulated probability is over the draw *)
Fixpoint choose (u cumulated : Q) (prob : list Q) (i : nat) : result nat :=
  match prob with
  | [] => Err IndexError
  | p :: prob' => if qlt u (cumulated + p)%Q then Ok i else choose u (cumulated + p)%Q prob' (S i)
  end.
(** utils.py:120-128 *)
Definition sample_nash (u : Q) (archive : tried) (pessimistic recommendation : A) : result A :=
  let nash := get_nash archive pessimistic recommendation in
  match nash with
  | [p] => Ok (fst p)
  | _ => bind (choose u 0%Q (probabilities nash) 0)
              (fun i => match nth_error nash i with Some p => Ok (fst p) | None => Err IndexError end)
  end.
End Nash.
Arguments tried : clear implicits.

Section Jobs.
Context {B : Type}.
(** what the function does the k-th time it is called *)
Variable func : nat -> result B.
(** utils.py:130-148: the result once computed, and the number of calls *)
Record job := mkjob { j_result : option B; j_calls : nat }.
(** utils.py:150-156 *)
Definition submit : job := mkjob None 0.
Definition done (j : job) : bool := true.
Definition get_result (j : job) : job * result B :=
  match j_result j with
  | Some b => (j, Ok b)
  | None =>
      match func (j_calls j) with
      | Ok b => (mkjob (Some b) (S (j_calls j)), Ok b)
      | Err e => (mkjob None (S (j_calls j)), Err e)
      end
  end.
(** [n] successive requests *)
Fixpoint requests (n : nat) (j : job) : job * list (result B) :=
  match n with
  | O => (j, [])
  | S n' => let '(j, r) := get_result j in let '(j, rs) := requests n' j in (j, r :: rs)
  end.
End Jobs.

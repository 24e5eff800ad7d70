(** nevergrad/benchmark/execution.py: the executor with simulated time. Times are exact rationals. *)
From Coq Require Import QArith Bool List.
From Verif.Model Require Import Prelude MultiValue.
Import ListNotations.
Open Scope Q_scope.

Section Exec.
Context {V : Type}.
(** The function submitted as job number [j]: what its evaluation returns or raises, and the pseudotime it computes if it is an
    ExperimentFunction. *)
Variable eval : nat -> result (V * option Q).
(** execution.py:11-34 [MockedTimedJob]: [_time], [_output] with [_delay], [_is_read]. Jobs are numbered in the order
    of submission. *)
Record job : Type := mkjob { j_time : Q; j_value : option (V * Q); j_read : bool }.
(** execution.py:76-90 [MockedTimedExecutor]. The heap is the list sorted by release time then order of its entries, see
    [heappush]. [evaluated] records the calls of the functions. *)
Record exec : Type := mkexec { batch_mode : bool; jobs : list job; to_be_processed : list nat;
  heap : list (Q * nat * nat); order : nat; time : Q; evaluated : list nat }.
Definition new_exec (b : bool) : exec := mkexec b [] [] [] 0 0 [].
Definition set_job (st : exec) (j : nat) (x : job) : exec :=
  mkexec (batch_mode st) (firstn j (jobs st) ++ x :: skipn (S j) (jobs st)) (to_be_processed st) (heap st) (order st) (time st) (evaluated st).
(** execution.py:96-99 [submit] *)
Definition submit (st : exec) : exec * nat :=
  let j := length (jobs st) in
  (mkexec (batch_mode st) (jobs st ++ [mkjob (time st) None false]) (to_be_processed st ++ [j]) (heap st) (order st) (time st) (evaluated st), j).
(** execution.py:45-51 [process]. A job that does not exist cannot be given in Python: IndexError stands for it everywhere.
    [compute_pseudotime] is assumed not to raise (if it did, the default delay of 1 would be kept). *)
Definition process (st : exec) (j : nat) : exec * option exn :=
  match nth_error (jobs st) j with
  | None => (st, Some IndexError)
  | Some x =>
      match j_value x with
      | Some _ => (st, None)
      | None =>
          let st := mkexec (batch_mode st) (jobs st) (to_be_processed st) (heap st) (order st) (time st) (evaluated st ++ [j]) in
          match eval j with
          | Err e => (st, Some e)
          | Ok (v, pseudotime) =>
              let delay := match pseudotime with None => 1 | Some t => qmax 0 t end in
              (set_job st j (mkjob (j_time x) (Some (v, delay)) (j_read x)), None)
          end
      end
  end.
(** execution.py:36-40 [release_time] of a processed job *)
Definition release_time (st : exec) (j : nat) : result Q :=
  match nth_error (jobs st) j with
  | Some x => match j_value x with Some (_, d) => Ok (d + j_time x) | None => Err AssertionError end
  | None => Err IndexError
  end.
(** [heapq.heappush] as far as the least entry is concerned: entries are compared by release time, then by order, which
    are all distinct *)
Definition entry_lt (a b : Q * nat * nat) : bool :=
  let '(r, o, _) := a in let '(r', o', _) := b in qlt r r' || (Qeq_bool r r' && Nat.ltb o o').
Fixpoint heappush (h : list (Q * nat * nat)) (a : Q * nat * nat) : list (Q * nat * nat) :=
  match h with [] => [a] | b :: h' => if entry_lt a b then a :: h else b :: heappush h' a end.
(** execution.py:101-109 [_process_submissions]; the loop runs once for each of the jobs to be processed *)
Fixpoint submissions_loop (n : nat) (st : exec) : exec * option exn :=
  match n with
  | O => (st, None)
  | S n' =>
      match to_be_processed st with
      | [] => (st, None)
      | j :: rest =>
          match process st j with
          | (st, Some e) => (st, Some e)
          | (st, None) =>
              match release_time st j with
              | Err e => (st, Some e)
              | Ok r =>
                  let h := if batch_mode st then heap st else heappush (heap st) (r, order st, j) in
                  submissions_loop n' (mkexec (batch_mode st) (jobs st) rest h (S (order st)) (time st) (evaluated st))
              end
          end
      end
  end.
Definition process_submissions (st : exec) : exec * option exn := submissions_loop (length (to_be_processed st)) st.
(** execution.py:111-117 [check_is_done], also [MockedTimedJob.done] *)
Definition done (st : exec) (j : nat) : exec * result bool :=
  match process_submissions st with
  | (st, Some e) => (st, Err e)
  | (st, None) =>
      match nth_error (jobs st) j with
      | None => (st, Err IndexError)
      | Some x =>
          if batch_mode st || j_read x then (st, Ok true)
          else match heap st with [] => (st, Err IndexError) | (_, _, j') :: _ => (st, Ok (Nat.eqb j j')) end
      end
  end.
(** execution.py:119-130 [notify_read] *)
Definition set_time (st : exec) (h : list (Q * nat * nat)) (t : Q) : exec :=
  mkexec (batch_mode st) (jobs st) (to_be_processed st) h (order st) t (evaluated st).
Definition notify_read (st : exec) (j : nat) : exec * option exn :=
  match process_submissions st with
  | (st, Some e) => (st, Some e)
  | (st, None) =>
      let update h := match release_time st j with Ok r => (set_time st h (qmax (time st) r), None) | Err e => (st, Some e) end in
      if batch_mode st then update (heap st)
      else match heap st with
           | [] => (st, Some IndexError)
           | (_, _, j') :: h => if negb (Nat.eqb j j') then (st, Some AssertionError) else update h
           end
  end.
(** execution.py:53-62 [result] *)
Definition read (st : exec) (j : nat) : exec * result V :=
  match process st j with
  | (st, Some e) => (st, Err e)
  | (st, None) =>
      match done st j with
      | (st, Err e) => (st, Err e)
      | (st, Ok false) => (st, Err RuntimeError)
      | (st, Ok true) =>
          match nth_error (jobs st) j with
          | None => (st, Err IndexError)
          | Some x =>
              let st := set_job st j (mkjob (j_time x) (j_value x) true) in
              match notify_read st j with
              | (st, Some e) => (st, Err e)
              | (st, None) => match j_value x with Some (v, _) => (st, Ok v) | None => (st, Err AssertionError) end
              end
          end
      end
  end.
(** Histories of calls *)
Inductive op : Type := Submit | Done (j : nat) | Result (j : nat).
Inductive out : Type := Submitted (j : nat) | IsDone (j : nat) (r : result bool) | Read (j : nat) (r : result V).
Definition step (st : exec) (o : op) : exec * out :=
  match o with
  | Submit => let '(st', j) := submit st in (st', Submitted j)
  | Done j => let '(st', r) := done st j in (st', IsDone j r)
  | Result j => let '(st', r) := read st j in (st', Read j r)
  end.
Fixpoint history (st : exec) (l : list op) : exec * list out :=
  match l with
  | [] => (st, [])
  | o :: l' => let '(st1, x) := step st o in let '(st2, xs) := history st1 l' in (st2, x :: xs)
  end.
End Exec.

(** nevergrad/benchmark/core.py: splitting and running the experiments of a benchmark. *)
From Coq Require Import ZArith Bool List.
From Verif.Model Require Import Prelude.
Import ListNotations.
Open Scope Z_scope.

(** core.py:51-71 [Moduler] *)
Record moduler : Type := mkmoduler { modulo : Z; index : Z; total_length : option Z }.
Definition new_moduler (m i : Z) (total : option Z) : result moduler :=
  if negb (0 <? m) then Err AssertionError else if negb (i <? m) then Err AssertionError else Ok (mkmoduler m i total).
(** core.py:84-85 [__call__] *)
Definition accepts (m : moduler) (i : Z) : bool := (i mod modulo m) =? index m.
(** core.py:79-82 [__len__] *)
Definition moduler_len (m : moduler) : result Z :=
  match total_length m with
  | None => Err RuntimeError
  | Some t => Ok (t / modulo m + (if index m <? t mod modulo m then 1 else 0))
  end.
Fixpoint collect {A} (l : list (result A)) : result (list A) :=
  match l with [] => Ok [] | r :: l' => bind r (fun a => bind (collect l') (fun l'' => Ok (a :: l''))) end.
(** core.py:73-77 [split] *)
Definition moduler_split (m : moduler) (number : nat) : result (list moduler) :=
  collect (map (fun k => new_moduler (modulo m * Z.of_nat number) (index m + Z.of_nat k * modulo m) (total_length m)) (seq 0 number)).

Section Chunks.
Context {X S D : Type}.
(** [registry[name](seed=...)]: the experiments generated, as a list *)
Variable maker : option Z -> list X.
(** core.py:91-126 [BenchmarkChunk]: here the settings and the moduler (None: not created yet). *)
Record chunk : Type := mkchunk { repetitions : nat; seed : option Z; cap_index : option nat; ch_moduler : option moduler }.
(** core.py:108-126: the cap is at least one *)
Definition new_chunk (reps : nat) (sd : option Z) (cap : option Z) : chunk :=
  mkchunk reps sd (match cap with None => None | Some c => Some (Z.to_nat (Z.max 1 c)) end) None.
Definition islice (cap : option nat) {A} (l : list A) : list A := match cap with None => l | Some n => firstn n l end.
(** core.py:128-135 [moduler] *)
Definition get_moduler (c : chunk) : moduler :=
  match ch_moduler c with
  | Some m => m
  | None => mkmoduler 1 0 (Some (Z.of_nat (length (islice (cap_index c) (maker None)) * repetitions c)))
  end.
(** core.py:144-151: the experiments of all repetitions *)
Definition seeds (c : chunk) : list (option Z) :=
  match seed c with None => repeat None (repetitions c) | Some s => map (fun k => Some (s + Z.of_nat k)) (seq 0 (repetitions c)) end.
Definition plan (c : chunk) : list X := flat_map (fun s => islice (cap_index c) (maker s)) (seeds c).
(** core.py:142-156 [__iter__] *)
Definition enumerated (l : list X) : list (nat * X) := combine (seq 0 (length l)) l.
Definition chunk_iter (c : chunk) : list (nat * X) := filter (fun kx => accepts (get_moduler c) (Z.of_nat (fst kx))) (enumerated (plan c)).
(** core.py:184-185 [__len__] *)
Definition chunk_len (c : chunk) : result Z := moduler_len (get_moduler c).
(** core.py:158-179 [split] *)
Definition chunk_split (c : chunk) (number : nat) : result (list chunk) :=
  bind (moduler_split (get_moduler c) number)
    (fun ms => Ok (map (fun m => mkchunk (repetitions c) (seed c) (match cap_index c with None => None | Some n => Some (Nat.max 1 n) end) (Some m)) ms)).

(** core.py:187-219 [compute]. An experiment object has a state in [S]; [run] may complete (None) or be interrupted; it and [process] (the
    process function) also depend on the number of calls so far, standing for all that the environment does.
    The events are recorded in [trace]. *)
Variable fresh : X -> S.
Variable run : nat -> S -> S * option exn.
Variable process : nat -> S -> option exn.
Variable describe : S -> D.
Variable same : X -> X -> bool.
Record event : Type := mkevent { e_index : nat; e_before : S; e_after : S; e_error : option exn; e_processed : bool }.
Record progress : Type := mkprogress { summaries : list D; current : option (X * S); trace : list event }.
Definition one_experiment (p : progress) (k : nat) (x : X) : progress * option exn :=
  let '(x0, s0) := match current p with
                   | None => (x, fresh x)
                   | Some (x', s') => if negb (same x x') then (x, fresh x) else (x', s')
                   end in
  let '(s1, r) := run (length (trace p)) s0 in
  match r with
  | Some e => (mkprogress (summaries p) (Some (x0, s1)) (trace p ++ [mkevent k s0 s1 (Some e) false]), Some e)
  | None =>
      let summary := describe s1 in
      match process (length (trace p)) s1 with
      | Some e => (mkprogress (summaries p) (Some (x0, s1)) (trace p ++ [mkevent k s0 s1 None false]), Some e)
      | None => (mkprogress (summaries p ++ [summary]) None (trace p ++ [mkevent k s0 s1 None true]), None)
      end
  end.
Fixpoint compute_loop (local : nat) (p : progress) (l : list (nat * X)) : progress * result (list D) :=
  match l with
  | [] => (p, Ok (summaries p))
  | (k, x) :: l' =>
      if Nat.ltb local (length (summaries p)) then compute_loop (Datatypes.S local) p l'
      else match one_experiment p k x with
           | (p', Some e) => (p', Err e)
           | (p', None) => compute_loop (Datatypes.S local) p' l'
           end
  end.
Definition compute (c : chunk) (p : progress) : progress * result (list D) := compute_loop 0 p (chunk_iter c).
(** A worker that calls compute [n] times on the chunk, whatever the results. *)
Fixpoint attempts (n : nat) (c : chunk) (p : progress) : progress :=
  match n with O => p | Datatypes.S n' => fst (compute c (attempts n' c p)) end.
End Chunks.

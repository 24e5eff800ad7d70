(** nevergrad/optimization/sequences.py: samplers of [0,1]^d. Floats are exact rationals here. *)
From Coq Require Import ZArith QArith Bool List.
From Verif.Model Require Import Prelude MultiValue.
Import ListNotations.
Open Scope Q_scope.

Definition qnat (n : nat) : Q := inject_Z (Z.of_nat n).
Fixpoint map2 {A B C} (f : A -> B -> C) (a : list A) (b : list B) : list C :=
  match a, b with x :: a', y :: b' => f x y :: map2 f a' b' | _, _ => [] end.

(** sequences.py:35-66 [Sampler.__call__, reinitialize]: the calls made since the (re)initialization are counted; [point i] is what
    [_internal_sampler] returns at index [i]. *)
Record sampler : Type := mksampler { budget : option nat; index : nat }.
Definition call {P} (point : nat -> P) (s : sampler) : sampler * result P :=
  match budget s with
  | Some b => if Nat.ltb (index s) b then (mksampler (Some b) (S (index s)), Ok (point (index s))) else (s, Err AssertionError)
  | None => (mksampler None (S (index s)), Ok (point (index s)))
  end.
Definition reinitialize (s : sampler) : sampler := mksampler (budget s) 0.
(** A history: true for a call, false for a reinitialization; the results of the calls *)
Fixpoint history {P} (point : nat -> P) (s : sampler) (l : list bool) : sampler * list (result P) :=
  match l with
  | [] => (s, [])
  | true :: l' => let '(s', r) := call point s in let '(s'', rs) := history point s' l' in (s'', r :: rs)
  | false :: l' => history point (reinitialize s) l'
  end.

(** sequences.py:88-112 [LHSSampler]: [perms] has a permutation for each coordinate; [draws i] are the uniform draws of
    the [i]-th call since the generator was seeded, which reinitializing does again *)
Definition lhs_point (b : nat) (perms : list (list nat)) (draws : nat -> list Q) (i : nat) : list Q :=
  map2 (fun p u => (qnat (nth i p 0%nat) + u) / qnat b) perms (draws i).

(** sequences.py:171-180 [HaltonSampler.vdc]: the loop; the fuel is the number of digits at most *)
Fixpoint vdc_loop (fuel : nat) (permut : list nat) (n : nat) (denom : nat) (vdc : Q) : result Q :=
  match n with
  | O => Ok vdc
  | _ =>
      match fuel with
      | O => Err OutOfFuel
      | S fuel' =>
          let base := length permut in
          let denom := (denom * base)%nat in
          match nth_error permut (n mod base) with
          | None => Err IndexError
          | Some remainder => vdc_loop fuel' permut (n / base) denom (vdc + qnat remainder / qnat denom)
          end
      end
  end.
Definition vdc (n : nat) (permut : list nat) : result Q := vdc_loop (S n) permut (S n) 1 0.
(** sequences.py:182-185 [_internal_sampler] *)
Fixpoint halton_point (permuts : list (list nat)) (i : nat) : result (list Q) :=
  match permuts with
  | [] => Ok []
  | p :: permuts' => bind (vdc i p) (fun x => bind (halton_point permuts' i) (fun xs => Ok (x :: xs)))
  end.
(** sequences.py:200-202 [HammersleySampler._internal_sampler] *)
Definition hammersley_point (b : nat) (permuts : list (list nat)) (i : nat) : result (list Q) :=
  bind (halton_point permuts i) (fun xs => Ok ((qnat i + (1 # 2)) / qnat b :: xs)).
(** sequences.py:148-156 [get_permutations_generator]; [chosen]: the draws of [choice] without replacement, which are
    permutations of 1, ..., p - 1 *)
Definition plain_permutation (p : nat) : list nat := seq 0 p.
Definition scrambled_permutation (chosen : list nat) : list nat := 0%nat :: chosen.

(** sequences.py:17-32 [_get_first_primes]. [size num]: the number int(1 + num * (log(log(num)) + log(num))) *)
Definition clear_multiples (index : nat) (is_prime : list bool) : list bool :=
  map (fun p => if Nat.leb (2 * index) (fst p) && Nat.eqb ((fst p - 2 * index) mod index) 0 then false else snd p)
      (combine (seq 0 (length is_prime)) is_prime).
Definition sieve_step (is_prime : result (list bool)) (index : nat) : result (list bool) :=
  bind is_prime (fun t => match nth_error t index with
                          | None => Err IndexError
                          | Some true => Ok (clear_multiples index t)
                          | Some false => Ok t
                          end).
Definition sieve (n : nat) : result (list bool) :=
  let is_prime := map (fun i => negb (Nat.ltb i 2)) (seq 0 n) in
  fold_left sieve_step (seq 0 (1 + Nat.sqrt n)) (if Nat.ltb n 2 then Err IndexError else Ok is_prime).
Definition where_true (l : list bool) : list nat := map fst (filter snd (combine (seq 0 (length l)) l)).
Definition get_first_primes (size : nat -> nat) (num : nat) : result (list nat) :=
  if Nat.ltb num 6 then Ok (firstn num [2; 3; 5; 7; 11]%nat)
  else bind (sieve (size num)) (fun t =>
    let primes := where_true t in
    if Nat.ltb (length primes) num then Err RuntimeError else Ok (firstn num primes)).

(** sequences.py:205-221 [Rescaler] *)
Record rescaler : Type := mkrescaler { mins : list Q; maxs : list Q; epsilon : Q }.
Definition qmin_list (x : Q) (l : list Q) : Q := fold_left qmin l x.
Definition new_rescaler (points : list (list Q)) : result rescaler :=
  match points with
  | [] => Err StopIteration
  | p :: points' =>
      let mi := fold_left (map2 qmin) points' p in
      let ma := fold_left (map2 qmax) points' p in
      let e := qmin_list (1 # 1000000000000000) (mi ++ map (fun s => 1 - s) ma) in
      if qlt 0 e then Ok (mkrescaler mi ma e) else Err AssertionError
  end.
(** [None]: numpy divides by zero (the result is nan or infinite) *)
Definition rescale (r : rescaler) (point : list Q) : list (option Q) :=
  map2 (fun p x => let '(mi, ma) := p in
                   if Qeq_bool (ma - mi) 0 then None else Some (epsilon r + (1 - 2 * epsilon r) / (ma - mi) * (x - mi)))
       (combine (mins r) (maxs r)) point.

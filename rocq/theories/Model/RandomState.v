(** Random states of parameters: lazy initialization, propagation to the sub-parameters, copies, and the draws of
    mutation and sampling. A generator is a number; generator [h] is [RandomState(seed h)], of which [count h] numbers were
    drawn. Numbers are integers: only sums and products with them matter. *)
From Coq Require Import List ZArith Arith.
From Verif.Model Require Import Prelude.
Import ListNotations.
Open Scope Z_scope.

(** A parameter: constant, array (whose kids are its internal parameters) or container; its random state, its data and its
    sub-parameters by key, in the order of the keys. *)
Inductive kind : Type := Const | Data | Container.
Inductive tree : Type := Tree (k : kind) (st : option nat) (data : list Z) (kids : list (nat * tree)).
(** The generators, the next unused number and the number of seeds drawn from numpy's global generator. *)
Record world : Type := { seed : nat -> Z; count : nat -> nat; fresh : nat; used : nat }.

Section Draws.
(** [stream s n] is the [n]-th number of the generator with seed [s]; [glob n] is the [n]-th seed drawn from the global
    generator; [sig] reads the standard deviation in the internal parameters of an array. *)
Variable stream : Z -> nat -> Z.
Variable glob : nat -> Z.
Variable sig : list (nat * tree) -> Z.

(** a new generator *)
Definition new_gen (s : Z) (w : world) : nat * world :=
  (fresh w, {| seed := fun h => if Nat.eqb h (fresh w) then s else seed w h;
               count := fun h => if Nat.eqb h (fresh w) then 0%nat else count w h;
               fresh := S (fresh w); used := used w |}).
(** core.py:371 the seed from the global generator *)
Definition global_gen (w : world) : nat * world :=
  let (h, w1) := new_gen (glob (used w)) w in
  (h, {| seed := seed w1; count := count w1; fresh := fresh w1; used := S (used w1) |}).
(** one number of a generator *)
Definition draw (h : nat) (w : world) : Z * world :=
  (stream (seed w h) (count w h),
   {| seed := seed w; count := fun h' => if Nat.eqb h' h then S (count w h') else count w h'; fresh := fresh w; used := used w |}).
Fixpoint draws (n : nat) (h : nat) (w : world) : list Z * world :=
  match n with
  | O => ([], w)
  | S n' => let (z, w1) := draw h w in let (zs, w2) := draws n' h w1 in (z :: zs, w2)
  end.

(** core.py:380-382 [_set_random_state] *)
Fixpoint set_state (s : option nat) (t : tree) : tree :=
  match t with Tree k _ d kids => Tree k s d (map (fun p => (fst p, set_state s (snd p))) kids) end.
Definition state_of (t : tree) : option nat := match t with Tree _ st _ _ => st end.
(** core.py:365-374 [random_state] *)
Definition read_state (t : tree) (w : world) : tree * nat * world :=
  match state_of t with
  | Some h => (t, h, w)
  | None => let (h, w1) := global_gen w in (set_state (Some h) t, h, w1)
  end.
(** threading a function through the sub-parameters *)
Definition through (f : tree -> world -> tree * world) : list (nat * tree) -> world -> list (nat * tree) * world :=
  fix go kids w := match kids with
                   | [] => ([], w)
                   | (k, t) :: kids' => let (t1, w1) := f t w in let (ks, w2) := go kids' w1 in ((k, t1) :: ks, w2)
                   end.
(** core.py:457-467 [_check_frozen] on a parameter that is not frozen: once the state is set on the whole subtree, there is
    nothing left to initialize in it *)
Fixpoint check (t : tree) (w : world) : tree * world :=
  match t with
  | Tree k (Some h) d kids => let (ks, w1) := through check kids w in (Tree k (Some h) d ks, w1)
  | Tree _ None _ _ => let '(t1, _, w1) := read_state t w in (t1, w1)
  end.
(** data.py:136-137, container.py:43-45, core.py:107-117 [dimension] *)
Fixpoint dim (t : tree) : nat :=
  match t with
  | Tree Const _ _ _ => 0%nat
  | Tree Data _ d _ => length d
  | Tree Container _ _ kids => list_sum (map (fun p => dim (snd p)) kids)
  end.
(** data.py:300-306, container.py:89-103: [set_standardized_data] with the parameter as its own reference *)
Fixpoint shift (zs : list Z) (t : tree) : tree :=
  match t with
  | Tree Const _ _ _ => t
  | Tree Data st d kids => Tree Data st (map (fun p => fst p + sig kids * snd p) (combine d zs)) kids
  | Tree Container st d kids =>
      Tree Container st d
        ((fix go kids zs := match kids with
                            | [] => []
                            | (k, t) :: kids' => (k, shift (firstn (dim t) zs) t) :: go kids' (skipn (dim t) zs)
                            end) kids zs)
  end.
(** core.py:123-130 [mutate] and [_layered_mutate], after [_check_frozen] (so that all states are set); core.py:528-529
    for constants *)
Fixpoint move (t : tree) (w : world) : tree * world :=
  match t with
  | Tree Const _ _ _ | Tree _ None _ _ => (t, w)
  | Tree k (Some h) d kids =>
      let (ks, w1) := through move kids w in
      let t1 := Tree k (Some h) d ks in
      let (zs, w2) := draws (dim t1) h w1 in
      (shift zs t1, w2)
  end.
Definition mutate (t : tree) (w : world) : tree * world :=
  match t with
  | Tree Const _ _ _ => (t, w)
  | _ => let (t1, w1) := check t w in move t1 w1
  end.
(** core.py:384-406 [spawn_child], :520-523 for constants: the parameter and its child *)
Definition spawn (t : tree) (w : world) : tree * tree * world :=
  match t with
  | Tree Const _ _ _ => (t, t, w)
  | _ => let '(t1, _, w1) := read_state t w in (t1, t1, w1)
  end.
(** core.py:132-144 [sample] with data.py:159-165, container.py:105-108 and core.py:512-513 [_layered_sample]: the parameter
    and the sample. [o] is the state just given to all the tree by an enclosing parameter. Uniform sampling within
    bounds (_datalayers.py:114-128) draws as many numbers, and is not distinguished here. *)
Fixpoint sample_in (o : option nat) (t : tree) (w : world) : tree * tree * world :=
  match t with
  | Tree k st d kids =>
      let '(h, o1, w1) := match o, st with
                          | Some h, _ => (h, Some h, w)
                          | None, Some h => (h, None, w)
                          | None, None => let (h, w1) := global_gen w in (h, Some h, w1)
                          end in
      let t1 := match o1 with Some h' => set_state (Some h') t | None => t end in
      match k with
      | Const => (t1, t1, w1)
      | Data => let (c, w2) := mutate t1 w1 in (t1, c, w2)
      | Container =>
          let '(ks, cs, w2) :=
            (fix go kids w := match kids with
                              | [] => ([], [], w)
                              | (key, t) :: kids' =>
                                  let '(p, c, w1) := sample_in o1 t w in
                                  let '(ps, cs, w2) := go kids' w1 in ((key, p) :: ps, (key, c) :: cs, w2)
                              end) kids w1 in
          (Tree Container (Some h) d ks, Tree Container (Some h) d cs, w2)
      end
  end.
Definition sample (t : tree) (w : world) : tree * tree * world := sample_in None t w.

(** the sub-parameter with a key, and at a path *)
Fixpoint on_kid {A} (f : tree -> result (A * tree * world)) (key : nat) (kids : list (nat * tree)) : result (A * list (nat * tree) * world) :=
  match kids with
  | [] => Err KeyError
  | (key', t) :: kids' =>
      if Nat.eqb key key' then bind (f t) (fun r => let '(a, t1, w1) := r in Ok (a, (key', t1) :: kids', w1))
      else bind (on_kid f key kids') (fun r => let '(a, ks, w1) := r in Ok (a, (key', t) :: ks, w1))
  end.
Fixpoint on_path {A} (f : tree -> world -> result (A * tree * world)) (path : list nat) (t : tree) (w : world) : result (A * tree * world) :=
  match path with
  | [] => f t w
  | key :: path' =>
      match t with
      | Tree k st d kids => bind (on_kid (fun t' => on_path f path' t' w) key kids) (fun r => let '(a, ks, w1) := r in Ok (a, Tree k st d ks, w1))
      end
  end.
(** container.py:60-65 [__setitem__]: the new sub-parameter gets the random state of the container, if it has one *)
Fixpoint put (key : nat) (t : tree) (kids : list (nat * tree)) : list (nat * tree) :=
  match kids with
  | [] => [(key, t)]
  | (key', t') :: kids' => if Nat.eqb key key' then (key, t) :: kids' else (key', t') :: put key t kids'
  end.
Definition set_item (key : nat) (sub : tree) (t : tree) : result tree :=
  match t with
  | Tree Container st d kids => Ok (Tree Container st d (put key (match st with Some h => set_state (Some h) sub | None => sub end) kids))
  | _ => Err TypeError
  end.
(** data.py:257-262 [set_mutation] with a parameter as standard deviation: it is written directly in the content of the
    internal parameters (the only sub-parameter of an array, under key 0) *)
Definition set_sigma (sub : tree) (t : tree) : result tree :=
  match t with
  | Tree Data st d [(key, Tree Container st' d' content)] => Ok (Tree Data st d [(key, Tree Container st' d' (put 0 sub content))])
  | _ => Err AttributeError
  end.

(** * Programs *)
(** The individuals, the generators, and the numbers given to the user (or to the optimizer). *)
Record state : Type := { pop : list tree; gens : world; out : list Z }.
(** What can be done with the sub-parameter at a path of the [i]-th individual, or with an individual: *)
Inductive op : Type :=
| ReadState (i : nat) (path : list nat)                 (* read its random state, or its value (_layering.py:183-186) *)
| Seed (i : nat) (path : list nat) (s : Z)              (* [random_state = RandomState(s)] (core.py:376-378) *)
| Use (i : nat) (path : list nat) (n : nat)             (* draw [n] numbers of its random state *)
| Mutate (i : nat) (path : list nat)
| Spawn (i : nat)
| Sample (i : nat)
| Copy (i : nat)                                        (* core.py:408-439 *)
| ResetCopy (i : nat)                                   (* functions/base.py:22-26 [_reset_copy] *)
| SetItem (i : nat) (path : list nat) (key : nat) (sub : tree)
| SetSigma (i : nat) (path : list nat) (sub : tree).
Definition on_individual {A} (i : nat) (f : tree -> world -> result (A * tree * world)) (s : state) : result (A * state) :=
  match nth_error (pop s) i with
  | None => Err IndexError
  | Some t => bind (f t (gens s)) (fun r => let '(a, t1, w1) := r in
                Ok (a, {| pop := firstn i (pop s) ++ t1 :: skipn (S i) (pop s); gens := w1; out := out s |}))
  end.
Definition add (s : state) (t : tree) : state := {| pop := pop s ++ [t]; gens := gens s; out := out s |}.
Definition step (o : op) (s : state) : result state :=
  match o with
  | ReadState i path => bind (on_individual i (on_path (fun t w => let '(t1, _, w1) := read_state t w in Ok (tt, t1, w1)) path) s) (fun r => Ok (snd r))
  | Seed i path z => bind (on_individual i (on_path (fun t w => let (h, w1) := new_gen z w in Ok (tt, set_state (Some h) t, w1)) path) s) (fun r => Ok (snd r))
  | Use i path n =>
      bind (on_individual i (on_path (fun t w => let '(t1, h, w1) := read_state t w in let (zs, w2) := draws n h w1 in Ok (zs, t1, w2)) path) s)
        (fun r => Ok {| pop := pop (snd r); gens := gens (snd r); out := out (snd r) ++ fst r |})
  | Mutate i path => bind (on_individual i (on_path (fun t w => let (t1, w1) := mutate t w in Ok (tt, t1, w1)) path) s) (fun r => Ok (snd r))
  | Spawn i => bind (on_individual i (fun t w => let '(t1, c, w1) := spawn t w in Ok (c, t1, w1)) s) (fun r => Ok (add (snd r) (fst r)))
  | Sample i => bind (on_individual i (fun t w => let '(t1, c, w1) := sample t w in Ok (c, t1, w1)) s) (fun r => Ok (add (snd r) (fst r)))
  | Copy i => bind (on_individual i (fun t w => Ok (t, t, w)) s) (fun r => Ok (add (snd r) (fst r)))
  | ResetCopy i => bind (on_individual i (fun t w => Ok (set_state None t, t, w)) s) (fun r => Ok (add (snd r) (fst r)))
  | SetItem i path key sub => bind (on_individual i (on_path (fun t w => bind (set_item key sub t) (fun t1 => Ok (tt, t1, w))) path) s) (fun r => Ok (snd r))
  | SetSigma i path sub => bind (on_individual i (on_path (fun t w => bind (set_sigma sub t) (fun t1 => Ok (tt, t1, w))) path) s) (fun r => Ok (snd r))
  end.
Fixpoint run (prog : list op) (s : state) : result state :=
  match prog with [] => Ok s | o :: prog' => bind (step o s) (run prog') end.
End Draws.

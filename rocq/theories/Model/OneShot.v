(** Model of the one-shot optimizers (nevergrad/optimization/oneshot.py:120-351
    [_RandomSearch], [_SamplingSearch]) and of the averages of the best points
    (oneshot.py:59-93). Points are standardized data, floats exact rationals. *)
From Coq Require Import List Arith QArith Bool.
From Verif.Model Require Import Prelude MultiValue Float Optimizer.
From Verif.Model Require Nsga2 Sequences.
Import ListNotations.
Open Scope nat_scope.

Inductive opposition : Type := Quasi | Opposite | Special.
Inductive kind : Type := Random | Sampling.

(** oneshot.py:121-146, 244-274: the options which matter here. *)
Record config : Type := Config { o_kind : kind; o_middle : bool; o_mode : option opposition; o_dim : nat }.

(** [_opposable_data]; the sampler (its number of calls; for [Random] the number of
    points drawn); the number of factors drawn by [_rng]. *)
Record one_shot : Type := OneShot { os_opposable : option (list Q); os_sampler : Sequences.sampler; os_factors : nat }.

(** oneshot.py:277-301 property [sampler]: the budget of the sampler.  It is created at
    the first use; rescaling uses it up and reinitializes it (:298-300), which leaves it
    as created. *)
Definition sampler_budget (cfg : config) (budget : option nat) : option nat :=
  match budget with
  | None => None
  | Some b =>
      let b := b - (if o_middle cfg then 1 else 0) in
      match o_mode cfg with
      | Some _ => if b =? 0 then Some b else Some ((b + 1) / 2)
      | None => Some b
      end
  end.
Definition os_init (cfg : config) (budget : option nat) : one_shot :=
  OneShot None (Sequences.mksampler (match o_kind cfg with Random => None | Sampling => sampler_budget cfg budget end) 0) 0.

Section Asks.
  Variable cfg : config.
  (** [point i]: the [i]-th point drawn, scaled (oneshot.py:161-179), or the [i]-th point of
      the sampler, rescaled and mapped to the standardized space (:320-340).
      [factor j]: the [j]-th uniform draw in [0, 1] of the mode "quasi", or
      exp(-uniform(0, 5)) for "special". *)
  Variable point : nat -> list Q.
  Variable factor : nat -> Q.

  (** oneshot.py:152-159, 311-318: the symmetric of the pending point. *)
  Definition opposed (m : opposition) (st : one_shot) (data : list Q) : one_shot * list Q :=
    let '(f, n) := match m with Opposite => (1%Q, os_factors st) | _ => (factor (os_factors st), S (os_factors st)) end in
    (OneShot None (os_sampler st) n, map (fun x => x * - f)%Q data).

  (** oneshot.py:161-180, 319-342: a new point. The sampler raises over its budget. *)
  Definition fresh (st : one_shot) : one_shot * result (list Q) :=
    let '(sm, r) := Sequences.call point (os_sampler st) in
    match r with
    | Ok x => (OneShot (Some x) sm (os_factors st), Ok x)
    | Err e => (OneShot (os_opposable st) sm (os_factors st), Err e)
    end.

  (** oneshot.py:149-180 and 303-342 [_internal_ask]. *)
  Definition internal_ask (num_ask : nat) (st : one_shot) : one_shot * result (list Q) :=
    let middle := o_middle cfg && (num_ask =? 0) in
    match o_kind cfg with
    | Random =>
        match os_opposable st, o_mode cfg with
        | Some data, Some m => let '(st, x) := opposed m st data in (st, Ok x)
        | _, _ =>
            if middle then
              let zero := repeat 0%Q (o_dim cfg) in
              (OneShot (Some zero) (os_sampler st) (os_factors st), Ok zero)
            else fresh st
        end
    | Sampling =>
        if middle then (st, Ok (repeat 0%Q (o_dim cfg)))
        else match os_opposable st, o_mode cfg with
             | Some data, Some m => let '(st, x) := opposed m st data in (st, Ok x)
             | _, _ => fresh st
             end
    end.

  (** The algorithm of the generic optimizer: the state above and the points proposed
      so far, which are the candidates 0, 1, 2, ...  Tells do nothing (base.py:450-466). *)
  Definition oneshot_alg : Type := (one_shot * list (list Q))%type.
  Section Env.
    Context {ARC HV : Type}.
    Variable E0 : env oneshot_alg ARC HV.
    Definition oneshot_env : env oneshot_alg ARC HV :=
      {| e_callbacks_ask := fun s => (o_alg _ _ _ s, snd (e_callbacks_ask _ _ _ E0 s));
         e_callbacks_tell := fun s c l => (o_alg _ _ _ s, snd (e_callbacks_tell _ _ _ E0 s c l));
         e_ask := fun s => let '(st, pts) := o_alg _ _ _ s in
                           let '(st, r) := internal_ask (o_num_ask _ _ _ s) st in
                           match r with
                           | Ok x => ((st, pts ++ [x]), Ok (length pts))
                           | Err e => ((st, pts), Err e)
                           end;
         e_tell := fun s _ _ => (o_alg _ _ _ s, Ok tt);
         e_tell_not_asked := fun s _ _ => (o_alg _ _ _ s, Ok tt);
         e_spawn := fun s => (o_alg _ _ _ s, snd (e_spawn _ _ _ E0 s));
         e_satisfies := fun s c => (o_alg _ _ _ s, snd (e_satisfies _ _ _ E0 s c));
         e_satisfies_no_tabu := fun s c => (o_alg _ _ _ s, snd (e_satisfies_no_tabu _ _ _ E0 s c));
         e_can_skip := e_can_skip _ _ _ E0;
         e_solver := fun s c => (o_alg _ _ _ s, snd (e_solver _ _ _ E0 s c));
         e_penalty := e_penalty _ _ _ E0;
         e_update := e_update _ _ _ E0;
         e_hv_ref := e_hv_ref _ _ _ E0;
         e_hv_auto := e_hv_auto _ _ _ E0;
         e_hv_add := e_hv_add _ _ _ E0;
         e_hv_num_obj := e_hv_num_obj _ _ _ E0;
         e_has_checkers := e_has_checkers _ _ _ E0;
         e_tabu_length := e_tabu_length _ _ _ E0;
         e_max_trials := e_max_trials _ _ _ E0;
         e_budget := e_budget _ _ _ E0;
         e_penalize := e_penalize _ _ _ E0;
         e_no_hypervolume := true;
         e_pow := e_pow _ _ _ E0 |}.
  End Env.
End Asks.

(** ** Recommendations *)
Inductive rule : Type := Pessimistic | AverageBest | AverageExpBest | AverageHullBest | OtherRule.

Fixpoint vsum (d : nat) (l : list (list Q)) : list Q :=
  match l with [] => repeat 0%Q d | x :: l' => Sequences.map2 (fun a b => a + b)%Q x (vsum d l') end.

(** oneshot.py:59-93 [avg_of_k_best]: the archive as the list of its points with their
    pessimistic estimations, in order; [limit] is what [convex_limit] returns. The method
    "exp" divides by 1.1 ** dimension. *)
Definition method_k (m : rule) (limit : nat) (n d : nat) : result nat :=
  match m with
  | AverageBest => Ok (Nat.min (n / 4) d)
  | AverageExpBest => Ok (Nat.max 1 ((n * 10 ^ d) / 11 ^ d))
  | AverageHullBest => Ok (Nat.min (n / 4) (Nat.min limit ((n * 10 ^ d) / 11 ^ d)))
  | _ => Err ValueError
  end.
Definition avg_of_k_best (m : rule) (limit : nat) (archive : list (list Q * Q)) : result (list Q) :=
  match archive with
  | [] => Err IndexError
  | first :: _ =>
      let d := length (fst first) in
      bind (method_k m limit (length archive) d) (fun k =>
        let k := if k <? 1 then 1 else k in
        let best := firstn k (Nsga2.stable_sort (fun a b => qle (snd a) (snd b)) archive) in
        if length best =? k then Ok (map (fun x => x / qnat k)%Q (vsum d (map fst best))) else Err AssertionError)
  end.

(** oneshot.py:182-192 and 344-347 [_internal_provide_recommendation]: None is the
    recommendation of the base class.  [stupid] (a new point instead) is left out. *)
Definition provide_recommendation (k : kind) (m : rule) (limit : nat) (archive : list (list Q * Q)) : result (option (list Q)) :=
  match archive with
  | [] => Ok None
  | _ =>
      match k, m with
      | Random, (AverageBest | AverageExpBest | AverageHullBest) =>
          bind (avg_of_k_best m limit archive) (fun x => Ok (Some x))
      | Sampling, AverageBest => bind (avg_of_k_best m limit archive) (fun x => Ok (Some x))
      | _, _ => Ok None
      end
  end.

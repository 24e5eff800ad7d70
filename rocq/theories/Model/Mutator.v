(** Model of the discrete mutations: nevergrad/optimization/mutations.py:13-170. Coordinates are only compared and
    discretized, so they are integers here; [bin arity v] is the index of [v] among the [arity] quantiles
    (discretization.py:17-39 [threshold_discretization], modelled in Discretization.v). The random state is the list
    of the values it will give. *)
From Coq Require Import Arith ZArith QArith Qround Bool List.
From Verif.Model Require Import Prelude MultiValue Crossover.
Import ListNotations.
Open Scope nat_scope.

(** what the random state gives: [normal()], [rand(n)], an integer ([randint], [choice]) *)
Inductive draw : Type := DNormal (v : Z) | DRand (u : list Q) | DInt (k : nat).

Section S.
Variable bin : nat -> Z -> Z.
(** a computation drawing values: the error [OutOfFuel] is for a list which does not hold the requested draw *)
Definition random (A : Type) : Type := list draw -> result A * list draw.
Definition rbind {A B} (x : random A) (f : A -> random B) : random B :=
  fun ds => match x ds with (Ok a, ds) => f a ds | (Err e, ds) => (Err e, ds) end.
Definition give {A} (a : A) : random A := fun ds => (Ok a, ds).
Definition fail {A} (e : exn) : random A := fun ds => (Err e, ds).
Definition normal : random Z := fun ds => match ds with DNormal v :: ds => (Ok v, ds) | _ => (Err OutOfFuel, ds) end.
Definition unit_interval (x : Q) : bool := qle 0 x && qlt x 1.
Definition rand (n : nat) : random (list Q) := fun ds =>
  match ds with
  | DRand u :: ds' => if (length u =? n) && forallb unit_interval u then (Ok u, ds') else (Err OutOfFuel, ds)
  | _ => (Err OutOfFuel, ds)
  end.
(** [randint(low, high)] *)
Definition randint (low high : nat) : random nat := fun ds =>
  if high <=? low then (Err ValueError, ds) else
  match ds with
  | DInt k :: ds' => if (low <=? k) && (k <? high) then (Ok k, ds') else (Err OutOfFuel, ds)
  | _ => (Err OutOfFuel, ds)
  end.

(** mutations.py:27-30: normal draws until one is in another bin than [b] *)
Fixpoint redraw (arity : nat) (b : Z) (ds : list draw) : result Z * list draw :=
  match ds with
  | DNormal w :: ds' => if Z.eqb (bin arity w) b then redraw arity b ds' else (Ok w, ds')
  | _ => (Err OutOfFuel, ds)
  end.
(** mutations.py:19-31 *)
Definition significantly_mutate (v : Z) (arity : nat) : random Z :=
  if 499 <? arity then normal
  else if 1 <? arity then redraw arity (bin arity v)
  else rbind normal (fun _ => fail AssertionError).

(** [[s if b else self.significantly_mutate(s, arity) for (b, s) in zip(boolean_vector, parent)]] *)
Fixpoint mutate_where (arity : nat) (keep : list bool) (parent : list Z) : random (list Z) :=
  match keep, parent with
  | b :: keep, s :: parent =>
      rbind (if b then give s else significantly_mutate s arity) (fun w =>
      rbind (mutate_where arity keep parent) (fun out => give (w :: out)))
  | _, _ => give []
  end.
(** [while all(boolean_vector): boolean_vector = rand(dimension) > rate] *)
Fixpoint draw_mask (dimension : nat) (rate : Q) (ds : list draw) : result (list bool) * list draw :=
  match ds with
  | DRand u :: ds' =>
      if (length u =? dimension) && forallb unit_interval u then
        let mask := map (fun x => qlt rate x) u in
        if forallb (fun b => b) mask then draw_mask dimension rate ds' else (Ok mask, ds')
      else (Err OutOfFuel, ds)
  | _ => (Err OutOfFuel, ds)
  end.

(** mutations.py:121-127; the division by a null dimension raises (after a draw of no number) *)
Definition discrete_mutation (parent : list Z) (arity : nat) : random (list Z) :=
  let dimension := length parent in
  if dimension =? 0 then rbind (rand 0) (fun _ => fail ZeroDivisionError)
  else rbind (draw_mask dimension (1 / inject_Z (Z.of_nat dimension))) (fun keep => mutate_where arity keep parent).

(** mutations.py:80-98; [intensity] may be any number *)
Definition portfolio_mutation (parent : list Z) (intensity : option Q) (arity : nat) : random (list Z) :=
  let dimension := length parent in
  rbind (match intensity with
         | Some i => give i
         | None => if dimension =? 1 then give 1%Q else rbind (randint 1 dimension) (fun k => give (inject_Z (Z.of_nat k)))
         end) (fun intensity =>
  if dimension =? 1 then rbind normal (fun w => give [w])
  else if dimension =? 0 then rbind (rand 0) (fun _ => fail ZeroDivisionError)
  else rbind (draw_mask dimension (intensity / inject_Z (Z.of_nat dimension))) (fun keep => mutate_where arity keep parent)).

(** mutations.py:40-60; the index of [choice] in [1, max_mutations) *)
Definition doubledoerr_mutation (parent : list Z) (max_ratio : Q) (arity : nat) : random (list Z) :=
  if qle 0 max_ratio && qle max_ratio 1 then
    let max_mutations := max 2 (Z.to_nat (Qfloor (max_ratio * inject_Z (Z.of_nat (length parent))))) in
    rbind (randint 1 max_mutations) (fun u => portfolio_mutation parent (Some (inject_Z (Z.of_nat u))) arity)
  else fail AssertionError.
(** mutations.py:33-38 *)
Definition doerr_mutation (parent : list Z) (arity : nat) : random (list Z) :=
  if length parent <? 5 then discrete_mutation parent 2 else doubledoerr_mutation parent (1 # 2) arity.

(** mutations.py:62-78 *)
Definition rls_mutation (parent : list Z) (arity : nat) : random (list Z) :=
  let dimension := length parent in
  if dimension =? 1 then rbind normal (fun w => give [w])
  else rbind (randint 0 dimension) (fun ind =>
       rbind (significantly_mutate (nth ind parent 0%Z) arity) (fun w =>
       give (firstn ind parent ++ w :: skipn (Datatypes.S ind) parent))).

(** mutations.py:129-159: the mixing is [mix] of Crossover.v, whose draws are given apart *)
Definition crossover (kind : mix_kind) (pick : nat -> bool) (parent donor : list Z) : random (list Z) :=
  discrete_mutation (mix kind pick parent donor) 2.

(** mutations.py:100-119: the indices before the final [inverse_threshold_discretization(discrete_data)]; the
    [boolean_vector] of the caller is not read. [signs] are the drawn directions. *)
Fixpoint draw_some (dimension : nat) (rate : Q) (ds : list draw) : result (list bool) * list draw :=
  match ds with
  | DRand u :: ds' =>
      if (length u =? dimension) && forallb unit_interval u then
        let mask := map (fun x => qlt x rate) u in
        if existsb (fun b => b) mask then (Ok mask, ds') else draw_some dimension rate ds'
      else (Err OutOfFuel, ds)
  | _ => (Err OutOfFuel, ds)
  end.
Definition coordinatewise_indices (parent : list Z) (velocity : list Q) (signs : list bool) (arity : nat) : random (list Q) :=
  let dimension := length parent in
  if dimension =? 0 then rbind (rand 0) (fun _ => fail ZeroDivisionError)
  else rbind (draw_some dimension (1 / inject_Z (Z.of_nat dimension))) (fun mask =>
       give (map (fun x : (bool * Z) * (Q * bool) =>
                    let i := inject_Z (bin arity (snd (fst x))) in
                    if fst (fst x) then (if snd (snd x) then (i + fst (snd x))%Q else (i - fst (snd x))%Q) else i)
                 (combine (combine mask parent) (combine velocity signs)))).
(** the returned coordinates: [inverse i] is the centre of bin [i] of {e two} bins, the default arity of
    discretization.py:43-51 *)
Definition coordinatewise_mutation (inverse : nat -> Q -> Z) (parent : list Z) (velocity : list Q) (signs : list bool)
  (arity : nat) : random (list Z) :=
  rbind (coordinatewise_indices parent velocity signs arity) (fun is => give (map (inverse 2) is)).
End S.

(** mutations.py:161-170 [get_roulette], on the archive's points in the order of their keys, with their pessimistic
    bounds *)
Section Roulette.
Context {K : Type}.
(** [int(0.999 + np.sqrt(n))] *)
Definition default_num (n : nat) : nat :=
  let m := Z.of_nat (Nat.sqrt n) in
  Z.to_nat (if (((1000 * m + 1) * (1000 * m + 1)) <=? 1000000 * Z.of_nat n)%Z then (m + 1)%Z else m).
(** [min(keys, key=...)]: the first smallest *)
Fixpoint min_by (best : K * Q) (l : list (K * Q)) : K * Q :=
  match l with [] => best | x :: l => min_by (if qlt (snd x) (snd best) then x else best) l end.
(** [indices]: the draw without replacement *)
Definition get_roulette (archive : list (K * Q)) (num : option nat) (indices : list nat) : result K :=
  let num := match num with Some k => k | None => default_num (length archive) end in
  if match archive with [] => true | _ => false end then Err ValueError (* [choice] of nothing *)
  else if (length indices =? min num (length archive)) && (length (nodup Nat.eq_dec indices) =? length indices) then
    bind ((fix sel (is : list nat) : result (list (K * Q)) :=
             match is with
             | [] => Ok []
             | i :: is => match nth_error archive i with Some x => bind (sel is) (fun l => Ok (x :: l)) | None => Err OutOfFuel end
             end) indices) (fun chosen =>
    match chosen with [] => Err ValueError (* [min] of nothing *) | x :: l => Ok (fst (min_by x l)) end)
  else Err OutOfFuel.
End Roulette.

(** Model of the adaptation of the (1+1) optimizers: nevergrad/optimization/optimizerlib.py:90-524 [_OnePlusOne]
    (step size, mutation rates, annealing). Archived points are natural numbers, losses are finite; the first
    [_previous_best_loss] is infinite ([None]). Not modelled: smoothing, Pareto sampling, sparsity. *)
From Coq Require Import Arith ZArith QArith Qround Bool Lia List.
From Verif.Model Require Import Prelude MultiValue.
Import ListNotations.
Open Scope nat_scope.

(** the mutations with a state (optimizerlib.py:168-194) *)
Inductive mutation : Type := Gaussian | Adaptive | Coordinatewise | Lognormal | Doerr | OtherMutation.

(** optimizerlib.py:239-255: the attributes of the doerr mutation *)
Record doerr : Type := DoerrState {
  d_rates : list nat; d_rewards : list Q; d_counters : list Q; d_best : option Q; d_index : option nat }.
Record oneplusone : Type := OPO {
  o_sigma : Q;                 (* _sigma *)
  o_prev : option Q;           (* _previous_best_loss *)
  o_mr : Q;                    (* _adaptive_mr *)
  o_velocity : list Q;         (* _velocity *)
  o_global : Q;                (* _global_mr *)
  o_memory : nat;              (* _memory_index *)
  o_recent : option Q;         (* _best_recent_loss *)
  o_recent_mr : Q;             (* _best_recent_mr *)
  o_base : option nat;         (* _annealing_base *)
  o_max : option Q;            (* _max_loss, None: minus infinity *)
  o_doerr : doerr }.

(** optimizerlib.py:247-255: the loop building the rates; [fuel] bounds its steps (the dimension is enough) *)
Fixpoint doerr_rates (fuel i j dimension : nat) : list nat :=
  match fuel with
  | 0 => []
  | S fuel => if i <? dimension then i :: doerr_rates fuel (i + j) (j + 2) dimension else []
  end.
(** optimizerlib.py:136-148 and 195-255, in dimension one at least; [velocity]: the initial draws, [global_mr]: 0.2, 0.8 or 0.01 *)
Definition opo_init (dimension : nat) (velocity : list Q) (global_mr : Q) : oneplusone :=
  let rates := [1; 2] ++ doerr_rates dimension 3 2 dimension in
  OPO 1 None (1 # 2) velocity global_mr 0 None (1 # 5) None None
    (DoerrState rates (map (fun _ => 0%Q) rates) (map (fun _ => 0%Q) rates) None None).

Definition below (x : Q) (best : option Q) : bool := match best with None => true | Some b => qlt x b end.
Definition below_eq (x : Q) (best : option Q) : bool := match best with None => true | Some b => qle x b end.
Definition different (x : Q) (best : option Q) : bool := match best with None => true | Some b => negb (Qeq_bool b x) end.

(** optimizerlib.py:444-465, annealing; [accept]: whether the uniform draw is below exp(delta / T), for a positive
    temperature *)
Definition anneal (annealing : bool) (before_budget accept : bool) (x : nat) (loss : Q) (s : oneplusone) : option nat * option Q :=
  if annealing then
    let m := match o_max s with None => Some loss | Some m => if qlt m loss then Some loss else Some m end in
    (if below_eq loss (o_prev s) then Some x else if before_budget && accept then Some x else o_base s, m)
  else (o_base s, o_max s).

(** optimizerlib.py:469-481: the rewards of the rates. Divisions by zero raise. *)
Definition upd (i : nat) (f : Q -> Q) (l : list Q) : list Q :=
  map (fun jx : nat * Q => if Nat.eqb (fst jx) i then f (snd jx) else snd jx) (combine (seq 0 (length l)) l).
Definition gamma (dimension : nat) : Q := 1 - 2 / inject_Z (Z.of_nat dimension).
Definition doerr_tell (dimension : nat) (loss : Q) (d : doerr) : result doerr :=
  let best := Some (match d_best d with None => loss | Some b => qmin b loss end) in
  match d_best d, d_index d with
  | Some b, Some i =>
      let improvement := qmax 0 (b - loss) in
      let counter := nth i (d_counters d) 0%Q in
      let den := (gamma dimension * counter + 1)%Q in
      if Qeq_bool den 0 then Err ZeroDivisionError else
      Ok (DoerrState (d_rates d)
            (upd i (fun r => (gamma dimension * counter * r + improvement) / den)%Q (d_rewards d))
            (upd i (fun c => c + 1)%Q (map (fun c => gamma dimension * c)%Q (d_counters d)))
            best None)
  | _, _ => Ok (DoerrState (d_rates d) (d_rewards d) (d_counters d) best (d_index d))
  end.
(** [l.index(max(l))] *)
Fixpoint argmax_q (i ibest : nat) (best : Q) (l : list Q) : nat :=
  match l with [] => ibest | x :: l => if qlt best x then argmax_q (S i) i x l else argmax_q (S i) ibest best l end.
Definition index_max (l : list Q) : nat := match l with [] => 0 | x :: l => argmax_q 1 0 x l end.
(** optimizerlib.py:404-418: the intensity of the next mutation. [explore]: the drawn index when the uniform draw is
    below epsilon *)
Definition doerr_ask (explore : option nat) (d : doerr) : doerr * result nat :=
  match d_index d with
  | Some _ => (d, Err AssertionError)
  | None =>
      let index := match explore with Some i => i | None => index_max (d_rewards d) end in
      match nth_error (d_rates d) index with
      | Some r => (DoerrState (d_rates d) (d_rewards d) (d_counters d) (d_best d) explore, Ok r)
      | None => (d, Err IndexError)
      end
  end.

(** [np.clip(v, low, high)] *)
Definition clip (low high v : Q) : Q := qmin (qmax v low) high.

(** what a tell brings: the point, its loss, the mean of the best pessimistic point after the archive's update, whether
    asks remain before the budget, the acceptance draw, and the rate of the candidate's meta data (0.2 by default) *)
Record told : Type := Told { t_x : nat; t_loss : Q; t_best : Q; t_before_budget : bool; t_accept : bool; t_rate : Q }.

(** optimizerlib.py:443-505 [_internal_tell]. The velocities of all the coordinates are updated: the recorded
    [modified_variables] are all true (optimizerlib.py:357, 436). *)
Definition opo_tell (m : mutation) (annealing : bool) (dimension arity memory_size : nat) (t : told) (s : oneplusone) : result oneplusone :=
  let loss := t_loss t in
  let '(base, mx) := anneal annealing (t_before_budget t) (t_accept t) (t_x t) loss s in
  let sigma := if different loss (o_prev s) then (o_sigma s * (if below loss (o_prev s) then 2 else 84 # 100))%Q else o_sigma s in
  let s1 := OPO sigma (o_prev s) (o_mr s) (o_velocity s) (o_global s) (o_memory s) (o_recent s) (o_recent_mr s) base mx (o_doerr s) in
  bind (match m with
        | Doerr => bind (doerr_tell dimension loss (o_doerr s)) (fun d =>
            Ok (OPO sigma (o_prev s) (o_mr s) (o_velocity s) (o_global s) (o_memory s) (o_recent s) (o_recent_mr s) base mx d))
        | Adaptive =>
            let factor := if below_eq loss (o_prev s) then 12 # 10 else 731 # 1000 in
            Ok (OPO sigma (o_prev s) (qmin 1 (factor * o_mr s)) (o_velocity s) (o_global s) (o_memory s) (o_recent s) (o_recent_mr s) base mx (o_doerr s))
        | Coordinatewise =>
            let factor := if below loss (o_prev s) then 12 # 10 else 731 # 1000 in
            Ok (OPO sigma (o_prev s) (o_mr s)
                  (map (fun v => clip 1 (inject_Z (Z.of_nat arity) / 4) (v * factor)) (o_velocity s))
                  (o_global s) (o_memory s) (o_recent s) (o_recent_mr s) base mx (o_doerr s))
        | Lognormal =>
            let index := (o_memory s + 1) mod memory_size in
            let recent := if below loss (o_recent s) then Some loss else o_recent s in
            let recent_mr := if below loss (o_recent s) then t_rate t else o_recent_mr s in
            Ok (OPO sigma (o_prev s) (o_mr s) (o_velocity s)
                  (if index =? 0 then recent_mr else o_global s) index (if index =? 0 then None else recent) recent_mr base mx (o_doerr s))
        | Gaussian | OtherMutation => Ok s1
        end) (fun s2 =>
  Ok (OPO (o_sigma s2) (Some (t_best t)) (o_mr s2) (o_velocity s2) (o_global s2) (o_memory s2) (o_recent s2) (o_recent_mr s2)
        (o_base s2) (o_max s2) (o_doerr s2))).

Fixpoint opo_run (m : mutation) (annealing : bool) (dimension arity memory_size : nat) (ts : list told) (s : oneplusone) : result oneplusone :=
  match ts with
  | [] => Ok s
  | t :: ts => bind (opo_tell m annealing dimension arity memory_size t s) (opo_run m annealing dimension arity memory_size ts)
  end.

(** optimizerlib.py:340-345: the number of mutated coordinates aimed at by the adaptive mutation *)
Definition adaptive_intensity (dimension : nat) (s : oneplusone) : nat :=
  max 1 (Z.to_nat (Qfloor (o_mr s * inject_Z (Z.of_nat dimension)))).
(** optimizerlib.py:346-355: that of discreteBSO; python's [int] truncates *)
Definition bso_intensity (dimension num_ask budget : nat) : Z :=
  let x := (inject_Z (Z.of_nat dimension) - inject_Z (Z.of_nat (num_ask * dimension)) / inject_Z (Z.of_nat budget))%Q in
  let i := if qle 0 x then Qfloor x else Qceiling x in
  if (i <? 1)%Z then 1%Z else i.

(** alternate asks and tells of the doerr mutation: each step is an ask then the tell of its loss *)
Fixpoint doerr_run (dimension : nat) (steps : list (option nat * Q)) (d : doerr) : result (list nat * doerr) :=
  match steps with
  | [] => Ok ([], d)
  | (explore, loss) :: steps =>
      let '(d1, r) := doerr_ask explore d in
      bind r (fun rate => bind (doerr_tell dimension loss d1) (fun d2 =>
      bind (doerr_run dimension steps d2) (fun '(rates, d3) => Ok (rate :: rates, d3))))
  end.

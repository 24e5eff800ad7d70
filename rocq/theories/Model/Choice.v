(** nevergrad/parametrization/choice.py: parameters choosing among options.
    The options are constants or parameters: their joint state is [S], [try_set k v s] is what setting the value of
    the k-th option does (possibly a failure), [read k s] its value. *)
From Coq Require Import Reals ZArith Bool List.
From Verif.Model Require Import Prelude Discretization RTransforms.
Import ListNotations.
Open Scope R_scope.

Section Options.
Context {S V : Type}.
Variable nopts : nat.
Variable try_set : nat -> V -> S -> S * bool.
Variable read : nat -> S -> V.

(** choice.py:81-87 [_layered_set_value]: the loop over the options, for one value *)
Fixpoint place (ks : list nat) (v : V) (s : S) : S * option nat :=
  match ks with
  | [] => (s, None)
  | k :: ks' => let '(s', ok) := try_set k v s in if ok then (s', Some k) else place ks' v s'
  end.
(** choice.py:80-89 [_layered_set_value]: the loop over the values; without repetitions there is one *)
Fixpoint place_all (vs : list V) (s : S) : S * option (list nat) :=
  match vs with
  | [] => (s, Some [])
  | v :: vs' =>
      let '(s', k) := place (seq 0 nopts) v s in
      match k with
      | None => (s', None)
      | Some k => let '(s'', ks) := place_all vs' s' in (s'', option_map (cons k) ks)
      end
  end.

(** choice.py:97-153 [Choice]: the weights of the options (a row for each repetition), and the indices kept by the
    layer [SoftmaxSampling] *)
Record choice : Type := mkchoice {
  options : S;
  weights : list (list weight);
  cache : option (list nat);
  frozen : bool
}.
Fixpoint encode_rows (rows : list (list weight)) (deterministic : bool) (rands : list R) : result (list nat) :=
  match rows with
  | [] => Ok []
  | row :: rows' =>
      let rand := match rands with r :: _ => r | [] => 0 end in
      bind (encode row deterministic rand) (fun i => bind (encode_rows rows' deterministic (tl rands)) (fun is_ => Ok (i :: is_)))
  end.
Variable deterministic : bool.
(** _datalayers.py:292-299 [SoftmaxSampling._layered_get_value]; [rands]: the draws used if nothing is kept *)
Definition get_indices (c : choice) (rands : list R) : choice * result (list nat) :=
  match cache c with
  | Some ks => (c, Ok ks)
  | None =>
      match encode_rows (weights c) deterministic rands with
      | Ok ks => (mkchoice (options c) (weights c) (Some ks) (frozen c), Ok ks)
      | Err e => (c, Err e)
      end
  end.
(** choice.py:66-69 [_layered_get_value] *)
Definition get_value (c : choice) (rands : list R) : choice * result (list V) :=
  let '(c', r) := get_indices c rands in (c', bind r (fun ks => Ok (map (fun k => read k (options c')) ks))).
(** choice.py:71-89 [_layered_set_value]; _datalayers.py:301-310 [SoftmaxSampling._layered_set_value], which keeps
    the indices before the array refuses a wrong shape (data.py:332-338) *)
Definition set_value (c : choice) (vs : list V) : choice * result unit :=
  if frozen c then (c, Err RuntimeError)
  else
    let '(s', ks) := place_all vs (options c) in
    match ks with
    | None => (mkchoice s' (weights c) (cache c) (frozen c), Err ValueError)
    | Some ks =>
        if Nat.eqb (length ks) (length (weights c))
        then (mkchoice s' (map (reset_row nopts) ks) (Some ks) (frozen c), Ok tt)
        else (mkchoice s' (weights c) (Some ks) (frozen c), Err ValueError)
    end.
(** core.py:197-224 [set_standardized_data], data.py:293-300: new weights and options; the kept indices are dropped
    and drawn again *)
Definition set_raw (c : choice) (ws : list (list weight)) (s : S) (rands : list R) : choice * result unit :=
  if frozen c then (c, Err RuntimeError)
  else let '(c', r) := get_indices (mkchoice s ws None false) rands in (c', bind r (fun _ => Ok tt)).
(** choice.py:147-153 [mutate]: the array of weights mutates to [ws] then the chosen options mutate ([mut]) *)
Definition mutate (c : choice) (ws : list (list weight)) (mut : nat -> S -> S) (rands : list R) : choice * result unit :=
  let '(c', r) := set_raw c ws (options c) rands in
  match r, cache c' with
  | Ok _, Some ks => (mkchoice (fold_left (fun s k => mut k s) ks (options c')) (weights c') (cache c') (frozen c'), Ok tt)
  | Ok _, None => (c', Ok tt)
  | Err e, _ => (c', Err e)
  end.
(** choice.py:133-145 [__init__] *)
Definition new_choice (s : S) (reps : nat) : choice := mkchoice s (repeat (repeat (WFin 0) nopts) reps) None false.

(** A history of calls. *)
Inductive call : Type :=
| CRead (rands : list R)
| CSet (vs : list V)
| CRaw (ws : list (list weight)) (s : S) (rands : list R)
| CMutate (ws : list (list weight)) (mut : nat -> S -> S) (rands : list R)
| CFreeze.
Definition step (c : choice) (o : call) : choice :=
  match o with
  | CRead rands => fst (get_value c rands)
  | CSet vs => fst (set_value c vs)
  | CRaw ws s rands => fst (set_raw c ws s rands)
  | CMutate ws mut rands => fst (mutate c ws mut rands)
  | CFreeze => mkchoice (options c) (weights c) (cache c) true
  end.
Definition run (c : choice) (l : list call) : choice := fold_left step l c.

(** choice.py:156-246 [TransitionChoice]: a number for each repetition; the cache of the integer layer is not
    modelled, as what it keeps is computed from the number. [cdf], [ppf]: the normal distribution. *)
Variables cdf ppf : R -> R.
(** [np.round]: to the nearest integer, to an even one in the middle *)
Definition rne (x : R) : Z :=
  let f := Int_part x in
  if Rlt_dec (x - IZR f) (1 / 2) then f
  else if Rlt_dec (1 / 2) (x - IZR f) then (f + 1)%Z
  else if Z.even f then f else (f + 1)%Z.
(** choice.py:189-193 [__init__]: normal cdf to [0, nopts], minus 1/2, then _layering.py:272-285 [Int] *)
Definition eps12 : R := / 10 ^ 12.
Definition eps9 : R := / 10 ^ 9.
Definition transition_transform : transform := TCdf cdf ppf 0 (INR nopts) eps9 1.
Definition index_of (raw : R) : Z :=
  let v := match apply false transition_transform raw with Fin v => v | _ => 0 end in
  let lower := 0 + - (1 / 2) in
  let upper := INR nopts + - (1 / 2) in
  Z.min (rne (upper - 1 / 2 + eps12)) (Z.max (rne (lower + 1 / 2 - eps12)) (rne (v + - (1 / 2)))).
(** setting an index: minus 1/2 backward then the bounding transform backward *)
Definition raw_of (k : Z) : result R :=
  let y := IZR k - - (1 / 2) in
  if in_range false transition_transform y then
    match apply true transition_transform y with Fin x => Ok x | _ => Err ValueError end
  else Err ValueError.
Fixpoint raws_of (ks : list Z) : result (list R) :=
  match ks with
  | [] => Ok []
  | k :: ks' => bind (raw_of k) (fun x => bind (raws_of ks') (fun xs => Ok (x :: xs)))
  end.
Record tchoice : Type := mktchoice { toptions : S; raws : list R }.
Definition tindices (c : tchoice) : list Z := map index_of (raws c).
Definition tget (c : tchoice) : list V := map (fun k => read (Z.to_nat k) (toptions c)) (tindices c).
Definition set_indices (c : tchoice) (ks : list Z) : tchoice * result unit :=
  match raws_of ks with
  | Err e => (c, Err e)
  | Ok xs => if Nat.eqb (length xs) (length (raws c)) then (mktchoice (toptions c) xs, Ok tt) else (c, Err ValueError)
  end.
(** choice.py:71-89 [_layered_set_value] *)
Definition tset (c : tchoice) (vs : list V) : tchoice * result unit :=
  let '(s', ks) := place_all vs (toptions c) in
  match ks with
  | None => (mktchoice s' (raws c), Err ValueError)
  | Some ks => set_indices (mktchoice s' (raws c)) (map Z.of_nat ks)
  end.
(** choice.py:209-213 [_internal_set_standardized_data]: [xs], [s] are the raw numbers and options obtained from the
    data *)
Definition tset_raw (xs : list R) (s : S) : tchoice * result unit :=
  let c := mktchoice s xs in tset c (tget c).
(** [np.log] *)
Definition log_weight (w : R) : weight := if Rlt_dec 0 w then WFin (ln w) else if Req_EM_T w 0 then WMInf else WNan.
Definition zclip (x lo hi : Z) : Z := Z.min hi (Z.max lo x).
(** choice.py:223-246 [mutate] of an ordered choice; [transitions]: after their own mutation; [ups]: the drawn signs
    (true for +1); [mut]: the mutation of an option. The options mutate once each (a set of indices). *)
Definition tmutate (c : tchoice) (transitions : list R) (rands : list R) (ups : list bool) (mut : nat -> S -> S) : tchoice * result unit :=
  match encode_rows (repeat (map log_weight transitions) (length (raws c))) false rands with
  | Err e => (c, Err e)
  | Ok moves =>
      let shift := map2 (fun (up : bool) (m : nat) => if up then Z.of_nat m else (- Z.of_nat m)%Z) ups moves in
      let '(c', r) := set_indices c (map2 (fun k d => zclip (k + d) 0 (Z.of_nat nopts - 1)) (tindices c) shift) in
      match r with
      | Err e => (c', Err e)
      | Ok _ => (mktchoice (fold_left (fun s k => mut (Z.to_nat k) s) (nodup Z.eq_dec (tindices c')) (toptions c')) (raws c'), Ok tt)
      end
  end.
(** choice.py:223-227 [mutate] of an unordered choice: [draws] has one number for each repetition, but
    container.py:84-92 wants [size_options] more, the dimension of the options (and transitions); the raw numbers
    become [sigma * (draw + ref)] for the sigma 1 and the value 0 of the reference made at initialization *)
Definition tmutate_unordered (c : tchoice) (size_options : nat) (draws : list R) : tchoice * result unit :=
  if Nat.eqb (length draws) (length (raws c) + size_options) then tset_raw draws (toptions c) else (c, Err ValueError).
End Options.
Arguments choice : clear implicits.
Arguments tchoice : clear implicits.
Arguments call : clear implicits.

(** Options that are constants (core.py:471-529 [Constant]): setting another value is refused. [same]: equality
    of Python *)
Definition const_set {V} (same : V -> V -> bool) (opts : list V) (k : nat) (v : V) (s : unit) : unit * bool :=
  (s, match nth_error opts k with Some w => same v w | None => false end).
(** Options that are constants or scalars of lower bound 0, which refuse negative numbers (transforms.py:214-222) *)
Definition mixed_set (constant : nat -> bool) (k : nat) (v : Z) (s : list Z) : list Z * bool :=
  match nth_error s k with
  | None => (s, false)
  | Some w => if constant k then (s, Z.eqb v w)
              else if Z.ltb v 0 then (s, false) else (firstn k s ++ v :: skipn (Datatypes.S k) s, true)
  end.
Definition mixed_read (k : nat) (s : list Z) : Z := nth k s 0%Z.

(** Model of the exchanges with the packages of Bayesian optimization (nevergrad/optimization/optimizerlib.py:3019-3205,
    [_FakeFunction] and [_BO]; :3208-3346, [_BayesOptim]).  The statistical models of the packages are arbitrary functions;
    what [_BO] needs from the package bayes_opt (its queue, its cache of values, its sorted keys) is written out.
    Constraints on the parametrization are left out. *)
From Coq Require Import List Arith ZArith QArith Qabs Bool.
From Verif.Model Require Import Prelude MultiValue Layers Nsga2.
Import ListNotations.
Open Scope nat_scope.

(** * [_BayesOptim] (PCABO, BayesOptimBO...) *)
(** :3234-3237: the size of the first batch; [prop]: [prop_doe_factor]; :3246, :3266: 5 by default *)
Definition doe_size (init_budget : option nat) (prop : option Q) (budget : option nat) : Z :=
  let init := match init_budget with Some n => Z.of_nat n | None => 5%Z end in
  match prop, budget with
  | Some f, Some b => if Qeq_bool f 0 then init else if 10 <=? b then round_half_even (f * qnat b) else 5%Z
  | _, _ => init
  end.

Section BayesOptim.
  Variable P : Type.                       (* points of the unit cube *)
  Variable S : Type.                       (* the algorithm of the package *)
  Variable alg_ask : S -> list P * S.
  Variable alg_tell : list P -> list Q -> S -> S.

  (** The calls to the package, as they are made *)
  Inductive call : Type := CAsk (batch : list P) | CTell (xs : list P) (losses : list Q).
  Record bstate : Type := BState { b_buffer : list P; b_newX : list P; b_losses : list Q; b_alg : S }.
  Definition last_and_rest (l : list P) : option (P * list P) := match rev l with [] => None | x :: r => Some (x, rev r) end.
  (** :3271-3281 [_internal_ask_candidate]; [self._buffer.pop()] takes the last point *)
  Definition internal_ask (s : bstate) : bstate * list call * result P :=
    let '(s, calls) := match b_buffer s with
                       | [] => let (batch, a) := alg_ask (b_alg s) in (BState batch (b_newX s) (b_losses s) a, [CAsk batch])
                       | _ => (s, [])
                       end in
    match last_and_rest (b_buffer s) with
    | Some (x, rest) => (BState rest (b_newX s) (b_losses s) (b_alg s), calls, Ok x)
    | None => (s, calls, Err IndexError)
    end.
  (** :3283-3295 [_internal_tell_candidate]; [x_probe]: that of the candidate's [_meta], if it has one.  The second
      branch ("Tell not asked") comes after the KeyError. *)
  Definition internal_tell (x_probe : option P) (loss : Q) (s : bstate) : bstate * list call * result unit :=
    match x_probe with
    | None => (s, [], Err KeyError)
    | Some x =>
        let newX := b_newX s ++ [x] in
        let losses := b_losses s ++ [loss] in
        match b_buffer s with
        | [] => (BState [] [] [] (alg_tell newX losses (b_alg s)), [CTell newX losses], Ok tt)
        | _ => (BState (b_buffer s) newX losses (b_alg s), [], Ok tt)
        end
    end.

  (** errors.TellNotAskedNotSupportedError, :3297-3298 *)
  Definition TellNotAsked : exn := UserError 1.
  (** The optimizer around it: base.py:425-431, :482-551.  Candidates are numbered as they are handed out, with their
      [x_probe] (None for a suggestion); [o_asked]: those whose loss is awaited (not the suggestions, :544-550). *)
  Record ostate : Type := OState { o_b : bstate; o_given : list (option P); o_asked : list nat }.
  Inductive event : Type := Ask | AskSuggested (* suggest, then ask *) | Tell (c : nat) (loss : Q).
  (** What the user sees *)
  Inductive seen : Type := Given (c : nat) (x : option P) | Done (c : nat) (loss : Q) | Raised (e : exn).
  Definition step (e : event) (s : ostate) : ostate * list call * seen :=
    match e with
    | Ask =>
        match internal_ask (o_b s) with
        | (b, calls, Ok x) => (OState b (o_given s ++ [Some x]) (length (o_given s) :: o_asked s), calls, Given (length (o_given s)) (Some x))
        | (b, calls, Err e) => (OState b (o_given s) (o_asked s), calls, Raised e)
        end
    | AskSuggested => (OState (o_b s) (o_given s ++ [None]) (o_asked s), [], Given (length (o_given s)) None)
    | Tell c loss =>
        if existsb (Nat.eqb c) (o_asked s) then
          match internal_tell (match nth_error (o_given s) c with Some x => x | None => None end) loss (o_b s) with
          | (b, calls, Ok _) => (OState b (o_given s) (filter (fun i => negb (i =? c)) (o_asked s)), calls, Done c loss)
          | (b, calls, Err e) => (OState b (o_given s) (o_asked s), calls, Raised e)
          end
        else (s, [], Raised TellNotAsked)
    end.
  Fixpoint run (es : list event) (s : ostate) : ostate * list call * list seen :=
    match es with
    | [] => (s, [], [])
    | e :: es => let '(s, c, o) := step e s in let '(s, cs, os) := run es s in (s, c ++ cs, o :: os)
    end.
  Definition start (a : S) : ostate := OState (BState [] [] [] a) [] [].
End BayesOptim.
Arguments CAsk {P}. Arguments CTell {P}. Arguments BState {P S}. Arguments OState {P S}. Arguments Given {P}. Arguments Done {P}. Arguments Raised {P}.
Arguments b_buffer {P S}. Arguments b_newX {P S}. Arguments b_losses {P S}. Arguments b_alg {P S}.
Arguments o_b {P S}. Arguments o_given {P S}. Arguments o_asked {P S}.

(** * [_BO] *)
(** A string is the list of its character codes, which is what Python compares *)
Definition str : Type := list nat.
(** str(num): "0" is 48 *)
Fixpoint digits (fuel num : nat) : str :=
  match fuel with 0 => [] | S fuel => if num <? 10 then [48 + num] else digits fuel (num / 10) ++ [48 + num mod 10] end.
Definition to_str (num : nat) : str := digits (S num) num.
Definition zfill (s : str) (width : nat) : str := repeat 48 (width - length s) ++ s.
(** :3028-3032 [_FakeFunction.key], with [num_digits=len(str(self.dimension))] (:3066); "x" is 120 *)
Definition key (dim num : nat) : str := 120 :: zfill (to_str num) (length (to_str dim)).
(** Python's [<=] of strings *)
Fixpoint str_le (a b : str) : bool :=
  match a, b with
  | [], _ => true
  | _ :: _, [] => false
  | x :: a, y :: b => if x =? y then str_le a b else x <? y
  end.
Fixpoint str_eqb (a b : str) : bool :=
  match a, b with [], [] => true | x :: a, y :: b => (x =? y) && str_eqb a b | _, _ => false end.
(** bayes_opt: the keys of the bounds are sorted, an array is read in this order *)
Definition keys (dim : nat) : list str := stable_sort str_le (map (key dim) (seq 0 dim)).
Definition lookup (k : str) (d : list (str * Q)) : option Q :=
  option_map snd (find (fun kv => str_eqb (fst kv) k) d).
Definition point : Type := list Q.
Definition same_point (a b : point) : bool := (length a =? length b) && forallb (fun p => Qeq_bool (fst p) (snd p)) (combine a b).
(** [np.testing.assert_array_almost_equal] (6 decimals) *)
Definition almost_equal (a b : point) : bool :=
  (length a =? length b) && forallb (fun p => qlt (Qabs (fst p - snd p)) (15 # 10000000)) (combine a b).

(** [f_registered]: [_FakeFunction._registered]; [f_space]: the points known to the package and their targets, in order;
    [f_queue]: its queue; [f_created]: whether [_bo] is set *)
Record fstate : Type := FState { f_registered : list (point * Q); f_space : list (point * Q); f_queue : list point; f_created : bool }.
Definition fstart : fstate := FState [] [] [] false.
(** :3034-3037 [register] *)
Definition register (x : point) (loss : Q) (s : fstate) : fstate * result unit :=
  match f_registered s with
  | [] => (FState [(x, loss)] (f_space s) (f_queue s) (f_created s), Ok tt)
  | _ => (s, Err RuntimeError)
  end.
Fixpoint reads (dim i n : nat) (kwargs : list (str * Q)) : result point :=
  match n with
  | 0 => Ok []
  | S n => match lookup (key dim i) kwargs with
           | Some v => bind (reads dim (S i) n kwargs) (fun l => Ok (v :: l))
           | None => Err KeyError
           end
  end.
(** :3039-3046 [__call__] *)
Definition fake_call (dim : nat) (kwargs : list (str * Q)) (s : fstate) : fstate * result Q :=
  match f_registered s with
  | [] => (s, Err RuntimeError)
  | (xr, loss) :: _ =>
      match reads dim 0 (length kwargs) kwargs with
      | Err e => (s, Err e)
      | Ok x => if almost_equal x xr then (FState [] (f_space s) (f_queue s) (f_created s), Ok loss) else (s, Err AssertionError)
      end
  end.
(** bayes_opt, [probe(params, lazy=False)]: a point which is already known is not evaluated again (see :3142-3144) *)
Definition probe_now (dim : nat) (x : point) (s : fstate) : fstate * result unit :=
  if negb (length x =? dim) then (s, Err ValueError) else
  if existsb (fun p => same_point (fst p) x) (f_space s) then (s, Ok tt) else
  match fake_call dim (combine (keys dim) x) s with
  | (s, Ok target) => (FState (f_registered s) (f_space s ++ [(x, target)]) (f_queue s) (f_created s), Ok tt)
  | (s, Err e) => (s, Err e)
  end.

Section BO.
  Variable dim : nat.
  Variable budget : option nat.
  Variable init_budget : option nat.
  Variable middle_point : bool.
  Variable sample : nat -> point.            (* the [k]-th point of the initialization *)
  Variable suggest : list (point * Q) -> point.   (* what the package suggests, as an array in the order of the keys *)

  (** :3095-3126 [bo]; an assertion which fails comes after the attribute is set *)
  Definition design (n : nat) : list point :=
    let n := Nat.max 2 n in
    if middle_point then repeat (1 # 2)%Q dim :: map sample (seq 0 (n - 1)) else map sample (seq 0 n).
  Definition get_bo (s : fstate) : fstate * result unit :=
    if f_created s then (s, Ok tt) else
    match init_budget, budget with
    | None, None => (FState (f_registered s) [] [] true, Err AssertionError)
    | None, Some b => (FState (f_registered s) [] (design (Nat.sqrt b)) true, Ok tt)
    | Some n, _ => (FState (f_registered s) [] (design n) true, Ok tt)
    end.
  (** the suggestion of the package is a dict, read by key at :3133 *)
  Definition suggested (s : fstate) : result point :=
    let x := suggest (f_space s) in reads dim 0 (length x) (combine (keys dim) x).
  (** :3128-3137 [_internal_ask_candidate] *)
  Definition bo_ask (s : fstate) : fstate * result point :=
    let (s, r) := get_bo s in
    match r with
    | Err e => (s, Err e)
    | Ok _ =>
        match f_queue s with
        | x :: q => (FState (f_registered s) (f_space s) q (f_created s), Ok x)
        | [] => (s, suggested s)
        end
    end.
  (** :3139-3152 [_internal_tell_candidate], also for points which were not asked (base.py:593-597); [y]: the point in the
      unit cube *)
  Definition bo_tell (y : point) (loss : Q) (s : fstate) : fstate * result unit :=
    let (s, r) := register y (- loss) s in
    match r with
    | Err e => (s, Err e)
    | Ok _ =>
        let (s, r) := get_bo s in
        match r with
        | Err e => (s, Err e)
        | Ok _ =>
            match probe_now dim y s with
            | (s, Ok _) => (FState [] (f_space s) (f_queue s) (f_created s), Ok tt)
            | (s, Err e) => (s, Err e)
            end
        end
    end.
  (** :3154-3159 [_internal_provide_recommendation]: [bo.max], the first point of largest target *)
  Definition best_of (l : list (point * Q)) : option (point * Q) :=
    fold_left (fun b p => match b with None => Some p | Some q => if qlt (snd q) (snd p) then Some p else b end) l None.
  Definition bo_recommend (s : fstate) : option point := option_map fst (best_of (f_space s)).

  Inductive bevent : Type := BAsk | BTell (y : point) (loss : Q).
  Inductive bseen : Type := BGiven (x : point) | BDone | BRaised (e : exn).
  Definition bstep (e : bevent) (s : fstate) : fstate * bseen :=
    match e with
    | BAsk => match bo_ask s with (s, Ok x) => (s, BGiven x) | (s, Err e) => (s, BRaised e) end
    | BTell y l => match bo_tell y l s with (s, Ok _) => (s, BDone) | (s, Err e) => (s, BRaised e) end
    end.
  Fixpoint brun (es : list bevent) (s : fstate) : fstate * list bseen :=
    match es with
    | [] => (s, [])
    | e :: es => let (s, o) := bstep e s in let (s, os) := brun es s in (s, o :: os)
    end.
End BO.

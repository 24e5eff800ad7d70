(** Tuning of learning algorithms: /repo/nevergrad/functions/ml/mlfunctionlib.py. *)
From Coq Require Import Bool Arith List String ZArith QArith Lia.
From Verif Require Import Model.Prelude Model.Planning.
Import ListNotations.
Open Scope nat_scope.
Open Scope list_scope.

(** values of keyword arguments *)
Inductive val : Type := VInt (z : Z) | VFloat (q : Q) | VStr (s : string) | VBool (b : bool).

(** dictionaries: the first entry of a key counts; [update d e]: d.update(e), or the call of a partial *)
Definition dict : Type := list (string * val).
Fixpoint get (d : dict) (k : string) : option val :=
  match d with
  | [] => None
  | (k', v) :: d' => if String.eqb k k' then Some v else get d' k
  end.
Definition update (d e : dict) : dict := e ++ d.

(** mlfunctionlib.py:44-55 the arguments of _ml_parametrization *)
Definition arguments : list string :=
  ["depth"; "criterion"; "min_samples_split"; "solver"; "activation"; "alpha"; "learning_rate"; "regressor";
   "noise_free"]%string.
(** python's check of a call with keywords *)
Definition accepted (d : dict) : bool :=
  forallb (fun k => match get d k with Some _ => true | None => false end) arguments &&
  forallb (fun kv => existsb (String.eqb (fst kv)) arguments) d.

Definition row : Type := list Q.
Record fold : Type := Fold { f_x : list row; f_y : list Q; f_vx : list row; f_vy : list Q }.
(** the stored data; [d_test] is None when X_test and y_test were never assigned *)
Record tables : Type := Tables {
  d_x : list row; d_y : list Q; d_folds : list fold; d_test : option (list row * list Q) }.

(** mlfunctionlib.py:60-83 the learner which is created, with what is passed to it *)
Inductive learner : Type :=
| Tree (depth criterion min_samples_split : val)
| Mlp (alpha activation solver learning_rate : val)
| Keras (activation solver : val).

(** np.arange(0., 1., 1. / n), exactly *)
Definition grid (n : nat) : list Q := map (fun i => (inject_Z (Z.of_nat i) / inject_Z (Z.of_nat n))%Q) (seq 0 n).
(** reshape(-1, d) *)
Definition reshape (d : nat) (l : list Q) : result (list row) :=
  if (d =? 0) || negb (List.length l mod d =? 0) then Err ValueError
  else Ok (map (fun i => firstn d (skipn (i * d) l)) (seq 0 (List.length l / d))).
(** mlfunctionlib.py:327, 336, 343, 351: np.sum(f(X), axis=1).ravel() *)
Definition labels (f : Q -> Q) (x : list row) : list Q := map (fun r => qsum (map f r)) x.

(** mlfunctionlib.py:332-345 X[np.arange(n) % folds != cv] and its complement *)
Definition keep (p : nat -> bool) (x : list row) : list row :=
  map snd (filter (fun ir => p (fst ir)) (combine (seq 0 (List.length x)) x)).
Definition make_fold (cvn : nat) (f : Q -> Q) (x : list row) (cv : nat) : fold :=
  let a := keep (fun i => negb (i mod cvn =? cv)) x in
  let b := keep (fun i => i mod cvn =? cv) x in
  Fold a (labels f a) b (labels f b).

(** mlfunctionlib.py:120-121, 348 *)
Definition num_data : nat := 120.
Definition cross_val_num : nat := 10.
Definition num_tests : nat := Z.to_nat 60000.

(** mlfunctionlib.py:104: what a fold with a ValueError of mean_squared_error counts *)
Definition penalty : Q := inject_Z (5 * 10 ^ 20).

(** mlfunctionlib.py:139-231: keys of the parametrization, parameters of the loss and of the evaluation *)
Record setting : Type := Setting { s_keys : list string; s_params : dict; s_eval : dict }.
Definition f5 : val := VFloat (1 # 100000).
Definition setting_of (regressor : string) (overfitter : bool) : result setting :=
  bind
    (if String.eqb regressor "decision_tree_depth" then
       Ok (["depth"]%string,
           [("noise_free", VBool false); ("criterion", VStr "friedman_mse"); ("min_samples_split", f5);
            ("regressor", VStr "decision_tree"); ("alpha", VFloat 1); ("learning_rate", VStr "no");
            ("activation", VStr "no"); ("solver", VStr "no")]%string, [])
     else if String.eqb regressor "any" then
       Ok (["depth"; "criterion"; "min_samples_split"; "regressor"; "activation"; "solver"; "learning_rate"; "alpha"]%string,
           [("noise_free", VBool false)]%string, [])
     else if String.eqb regressor "decision_tree" then
       let params := [("noise_free", VBool false); ("alpha", VFloat 1); ("learning_rate", VStr "no");
            ("regressor", VStr "decision_tree"); ("activation", VStr "no"); ("solver", VStr "no")]%string in
       Ok (["depth"; "criterion"; "min_samples_split"; "regressor"]%string, params,
           update params [("criterion", VStr "friedman_mse"); ("min_samples_split", f5)]%string)
     else if String.eqb regressor "mlp" then
       Ok (["activation"; "solver"; "regressor"; "learning_rate"; "alpha"]%string,
           [("noise_free", VBool false); ("regressor", VStr "mlp"); ("depth", VInt (-3)); ("criterion", VStr "no");
            ("min_samples_split", VFloat (1 # 10))]%string, [])
     else if String.eqb regressor "keras_dense_nn" then
       Ok (["activation"; "solver"; "regressor"]%string,
           [("noise_free", VBool false); ("regressor", VStr "keras_dense_nn"); ("depth", VInt (-3)); ("criterion", VStr "no");
            ("min_samples_split", VFloat (1 # 10)); ("alpha", VFloat (1 # 10)); ("learning_rate", VStr "constant")]%string, [])
     else Err AssertionError)
    (fun kpe => let '(ks, ps, ev) := kpe in
       let ev' := match ev with [] => ps | _ => ev end in
       Ok (Setting ks ps (update ev' [("noise_free", VBool (negb overfitter))]%string))).

(** mlfunctionlib.py:60-83 *)
Definition learner_of (d : dict) : result learner :=
  match get d "regressor", get d "depth", get d "criterion", get d "min_samples_split",
        get d "alpha", get d "activation", get d "solver", get d "learning_rate" with
  | Some r, Some dp, Some cr, Some ms, Some al, Some ac, Some so, Some lr =>
      match r with
      | VStr s =>
          if String.eqb s "decision_tree" then Ok (Tree dp cr ms)
          else if String.eqb s "mlp" then Ok (Mlp al ac so lr)
          else if String.eqb s "keras_dense_nn" then Ok (Keras ac so)
          else Err ValueError
      | _ => Err ValueError
      end
  | _, _, _, _, _, _, _, _ => Err TypeError
  end.

Definition is_int (v : option val) : bool :=
  match v with Some (VInt _) => true | Some (VBool _) => true | _ => false end.
Definition truthy (v : option val) : bool :=
  match v with
  | Some (VBool b) => b
  | Some (VInt z) => negb (Z.eqb z 0)
  | Some (VFloat q) => negb (Qeq_bool q 0)
  | Some (VStr s) => negb (String.eqb s "")
  | None => false
  end.

Section Functions.
(** sin and cos, the two shuffles of the random state, the data of the named datasets (sklearn, keras, csv files).
    Simplification: arbitrary functions on exact numbers *)
Variables (fsin fcos : Q -> Q) (shuffle : list row -> list row) (shuffle_tests : list Q -> list Q).
Variable named : string -> result tables.

(** mlfunctionlib.py:322-326 *)
Definition target (dataset : string) : option (Q -> Q) :=
  if String.eqb dataset "artificial" then Some fsin
  else if String.eqb dataset "artificialcos" then Some fcos
  else if String.eqb dataset "artificialsquare" then Some (fun q => (q * q)%Q)
  else None.

(** mlfunctionlib.py:240-353: what is stored and the outcome.  Simplification: the reshape of the training points, whose
    number is a multiple of the dimension, is exact, and np.arange has its exact length *)
Definition make_dataset (dimension : option nat) (dataset : string) : option tables * result unit :=
  if negb (String.prefix "artificial" dataset) then
    match named dataset with Ok tb => (Some tb, Ok tt) | Err e => (None, Err e) end
  else
    match dimension with
    | None => (None, Err AssertionError)
    | Some d =>
        if d =? 0 then (None, Err ZeroDivisionError)
        else
          match reshape d (grid (num_data * d)) with
          | Err e => (None, Err e)
          | Ok x0 =>
              let x := shuffle x0 in
              match target dataset with
              | None => (None, Err KeyError)
              | Some f =>
                  let y := labels fsin x in
                  let folds := map (make_fold cross_val_num f x) (seq 0 cross_val_num) in
                  match reshape d (shuffle_tests (grid num_tests)) with
                  | Err e => (Some (Tables x y folds None), Err e)
                  | Ok xt => (Some (Tables x y folds (Some (xt, labels f xt))), Ok tt)
                  end
              end
          end
    end.

(** a learner: its state when created, after fit, its predictions; mean_squared_error *)
Variable St : Type.
Variables (create : learner -> St) (fit : St -> list row -> list Q -> result St)
  (predict : St -> list row -> result (list Q)) (mse : list Q -> list Q -> result Q).

(** mlfunctionlib.py:94-104: the same object is fitted on each of the folds *)
Fixpoint cross_validation (dp : bool) (s : St) (acc : Q) (folds : list fold) : result Q :=
  match folds with
  | [] => Ok acc
  | fo :: folds' =>
      if negb dp then Err AssertionError
      else
        bind (fit s (f_x fo) (f_y fo)) (fun s' =>
        bind (predict s' (f_vx fo)) (fun pr =>
        match mse (f_vy fo) pr with
        | Ok e => cross_validation dp s' (acc + e)%Q folds'
        | Err ValueError => cross_validation dp s' (acc + penalty)%Q folds'
        | Err e => Err e
        end))
  end.

(** mlfunctionlib.py:44-106 _ml_parametrization *)
Definition ml_call (dimension : option nat) (dataset : string) (st : option tables) (d : dict)
  : option tables * result Q :=
  if negb (accepted d) then (st, Err TypeError)
  else
    let '(st', made) := match st with Some tb => (Some tb, Ok tt) | None => make_dataset dimension dataset end in
    (st',
     bind made (fun _ =>
     match st' with
     | None => Err RuntimeError (* not reached: the data is stored *)
     | Some tb =>
         bind (learner_of d) (fun l =>
         if truthy (get d "noise_free") then
           match d_test tb with
           | None => Err AttributeError
           | Some (xt, yt) =>
               bind (fit (create l) (d_x tb) (d_y tb)) (fun s =>
               bind (predict s xt) (fun pr => mse yt pr))
           end
         else
           bind (cross_validation (is_int (get d "depth")) (create l) 0%Q (d_folds tb))
             (fun r => Ok (r / inject_Z (Z.of_nat cross_val_num))%Q))
     end)).

(** mlfunctionlib.py:123 and :139-230: an instance *)
Record instance : Type := Instance { i_dim : option nat; i_data : string; i_set : setting }.
Fixpoint contains (sub s : string) : bool :=
  String.prefix sub s || match s with EmptyString => false | String _ s' => contains sub s' end.
Definition new (regressor : string) (dimension : option nat) (dataset : string) (overfitter : bool) : result instance :=
  if Bool.eqb (contains "artificial" dataset) (match dimension with Some _ => true | None => false end)
  then bind (setting_of regressor overfitter) (fun s => Ok (Instance dimension dataset s))
  else Err AssertionError.

(** mlfunctionlib.py:229 the loss: partial(self._ml_parametrization, **params), called with the keywords of a candidate *)
Definition loss (i : instance) (st : option tables) (kw : dict) : option tables * result Q :=
  ml_call (i_dim i) (i_data i) st (update (s_params (i_set i)) kw).
(** mlfunctionlib.py:232-238 *)
Definition evaluation (i : instance) (st : option tables) (kw : dict) : option tables * result Q :=
  ml_call (i_dim i) (i_data i) st (update kw (s_eval (i_set i))).

(** a sequence of calls: true for evaluations *)
Fixpoint calls (i : instance) (st : option tables) (l : list (bool * dict)) : option tables * list (result Q) :=
  match l with
  | [] => (st, [])
  | (ev, kw) :: l' =>
      let '(st', r) := (if ev then evaluation else loss) i st kw in
      let '(st'', rs) := calls i st' l' in (st'', r :: rs)
  end.
End Functions.

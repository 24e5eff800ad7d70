(** Model of the optimizers which look for the nearest entry of a table: NGOptF, NGOptF2, NGOptF3 and NGOptF5
    (nevergrad/optimization/optimizerlib.py:4397-4806).  Simplification: the floating point numbers are exact rationals. *)
From Coq Require Import String.
From Coq Require Import ZArith QArith Bool Arith List.
From Verif.Model Require Import Prelude MultiValue.
Import ListNotations.
Open Scope string_scope.
Open Scope list_scope.
Open Scope nat_scope.

(** A line [best[d][nod] += [name]] *)
Definition row : Type := (nat * Q * string)%type.
(** :4403-4451 NGOptF, and :4482-4530 NGOptF2 *)
Definition table_F : list row :=
  [(12, 833333 # 1000, "MemeticDE"); (12, 833333 # 10000, "MemeticDE"); (12, 833333 # 100000, "RealSpacePSO");
   (12, 833333 # 1000000, "CauchyOnePlusOne"); (12, 833333 # 1000, "VLPCMA"); (12, 833333 # 10000, "NLOPT_LN_SBPLX");
   (12, 833333 # 100000, "NLOPT_LN_SBPLX"); (12, 833333 # 1000000, "NLOPT_LN_SBPLX"); (12, 833333 # 1000, "VLPCMA");
   (12, 833333 # 10000, "MemeticDE"); (12, 833333 # 100000, "SMAC3"); (12, 833333 # 1000000, "Cobyla");
   (24, 416667 # 1000, "VLPCMA"); (24, 416667 # 10000, "Wiz"); (24, 416667 # 100000, "NLOPT_LN_SBPLX");
   (24, 416667 # 1000000, "Cobyla"); (24, 416667 # 1000, "NLOPT_LN_SBPLX"); (24, 416667 # 10000, "Wiz");
   (24, 416667 # 100000, "NLOPT_LN_SBPLX"); (24, 416667 # 1000000, "NLOPT_LN_SBPLX");
   (24, 416667 # 1000, "ChainDiagonalCMAPowell"); (24, 416667 # 10000, "NLOPT_LN_SBPLX");
   (24, 416667 # 100000, "QORealSpacePSO"); (24, 416667 # 1000000, "Cobyla"); (2, 5000 # 1, "NGOpt16");
   (2, 500 # 1, "LhsDE"); (2, 50 # 1, "SODE"); (2, 5 # 1, "Carola2"); (2, 5000 # 1, "MetaModelQODE");
   (2, 500 # 1, "MetaModelQODE"); (2, 50 # 1, "PCABO"); (2, 5 # 1, "HammersleySearchPlusMiddlePoint");
   (2, 5000 # 1, "QORealSpacePSO"); (2, 500 # 1, "ChainDiagonalCMAPowell"); (2, 50 # 1, "MetaModelQODE");
   (2, 5 # 1, "Cobyla"); (5, 2000 # 1, "MemeticDE"); (5, 200 # 1, "MemeticDE"); (5, 20 # 1, "LhsDE"); (5, 2 # 1, "MultiSQP");
   (5, 2000 # 1, "MemeticDE"); (5, 200 # 1, "LhsDE"); (5, 20 # 1, "LhsDE"); (5, 2 # 1, "NLOPT_LN_SBPLX");
   (5, 2000 # 1, "LhsDE"); (5, 200 # 1, "VLPCMA"); (5, 20 # 1, "BayesOptimBO"); (5, 2 # 1, "NLOPT_LN_SBPLX");
   (96, 104167 # 1000000, "PCABO")].
(** :4565-4648 NGOptF3 *)
Definition table_F3 : list row :=
  [(12, 833333 # 1000, "MemeticDE"); (12, 833333 # 10000, "NGOptRW"); (12, 833333 # 100000, "RealSpacePSO");
   (12, 833333 # 1000000, "ASCMADEthird"); (12, 833333 # 100, "GeneticDE"); (12, 833333 # 1000, "TripleCMA");
   (12, 833333 # 10000, "NLOPT_LN_SBPLX"); (12, 833333 # 100000, "NLOPT_LN_SBPLX"); (12, 833333 # 1000000, "NLOPT_LN_SBPLX");
   (12, 833333 # 100, "GeneticDE"); (12, 833333 # 1000, "VLPCMA"); (12, 833333 # 10000, "MemeticDE");
   (12, 833333 # 100000, "SMAC3"); (12, 833333 # 1000000, "Cobyla"); (24, 416667 # 1000, "VLPCMA");
   (24, 416667 # 10000, "Wiz"); (24, 416667 # 100000, "NLOPT_LN_SBPLX"); (24, 416667 # 1000000, "Cobyla");
   (24, 416667 # 100, "NGOptF"); (24, 416667 # 1000, "NLOPT_LN_SBPLX"); (24, 416667 # 10000, "ChainNaiveTBPSAPowell");
   (24, 416667 # 100000, "NLOPT_LN_SBPLX"); (24, 416667 # 1000000, "NLOPT_LN_NELDERMEAD"); (24, 416667 # 100, "Carola1");
   (24, 416667 # 1000, "ChainDiagonalCMAPowell"); (24, 416667 # 10000, "NLOPT_LN_SBPLX");
   (24, 416667 # 100000, "NLOPT_GN_CRS2_LM"); (24, 416667 # 1000000, "Cobyla"); (2, 500000 # 1, "NGOptF2");
   (2, 50000 # 1, "NeuralMetaModelDE"); (2, 5000 # 1, "ASCMADEthird"); (2, 500 # 1, "LQODE"); (2, 50 # 1, "SODE");
   (2, 5 # 1, "Carola2"); (2, 500000 # 1, "NLOPT_GN_CRS2_LM"); (2, 50000 # 1, "NGOptF2"); (2, 5000 # 1, "MetaModelQODE");
   (2, 500 # 1, "MetaModelQODE"); (2, 50 # 1, "PCABO"); (2, 5 # 1, "HammersleySearchPlusMiddlePoint");
   (2, 500000 # 1, "NGOptF"); (2, 50000 # 1, "NGOptF"); (2, 5000 # 1, "LQODE"); (2, 500 # 1, "ChainDiagonalCMAPowell");
   (2, 50 # 1, "NLOPT_GN_DIRECT"); (2, 5 # 1, "Cobyla"); (48, 208333 # 10000, "RLSOnePlusOne");
   (48, 208333 # 100000, "NGOptF"); (48, 208333 # 1000000, "NGOptF2"); (48, 208333 # 1000, "MetaModelQODE");
   (48, 208333 # 10000, "DiscreteLengler2OnePlusOne"); (48, 208333 # 100000, "NGOptF"); (48, 208333 # 1000000, "NGOptF2");
   (48, 208333 # 100, "NGOptF2"); (48, 208333 # 1000, "ChainNaiveTBPSAPowell");
   (48, 208333 # 10000, "ChainNaiveTBPSAPowell"); (48, 208333 # 100000, "NLOPT_LN_NELDERMEAD");
   (48, 208333 # 1000000, "BOBYQA"); (5, 20000 # 1, "NGOptF"); (5, 2000 # 1, "MemeticDE"); (5, 200 # 1, "TwoPointsDE");
   (5, 20 # 1, "NGOptF2"); (5, 2 # 1, "MultiSQP"); (5, 20000 # 1, "CmaFmin2"); (5, 2000 # 1, "DiscreteDE");
   (5, 200 # 1, "LhsDE"); (5, 20 # 1, "SMAC3"); (5, 2 # 1, "NLOPT_LN_SBPLX"); (5, 200000 # 1, "LQODE");
   (5, 20000 # 1, "NGOptF"); (5, 2000 # 1, "LhsDE"); (5, 200 # 1, "FCMA"); (5, 20 # 1, "SMAC3");
   (5, 2 # 1, "NLOPT_LN_SBPLX"); (96, 104167 # 10000, "Carola2"); (96, 104167 # 100000, "ChainDiagonalCMAPowell");
   (96, 104167 # 1000000, "MetaModelQODE"); (96, 104167 # 10000, "NGOpt8"); (96, 104167 # 100000, "ChoiceBase");
   (96, 104167 # 1000000, "Carola1"); (96, 104167 # 1000, "NGOptF"); (96, 104167 # 10000, "CMandAS3");
   (96, 104167 # 100000, "ASCMADEthird"); (96, 104167 # 1000000, "CMAtuning")].
(** :4683-4781 NGOptF5 *)
Definition table_F5 : list row :=
  [(12, 833333 # 100, "DiscreteDE"); (12, 833333 # 1000, "DiscreteDE"); (12, 833333 # 10000, "MetaModelDE");
   (12, 833333 # 100000, "NGOpt"); (12, 833333 # 1000000, "NLOPT_GN_DIRECT_L"); (12, 833333 # 10, "RPowell");
   (12, 833333 # 100, "DiscreteDE"); (12, 833333 # 1000, "NLOPT_GN_ISRES"); (12, 833333 # 10000, "SMAC3");
   (12, 833333 # 100000, "NGOpt"); (12, 833333 # 1000000, "NLOPT_LN_SBPLX"); (12, 833333 # 10, "NGOptBase");
   (12, 833333 # 100, "RPowell"); (12, 833333 # 1000, "ChainMetaModelPowell"); (12, 833333 # 10000, "RotatedTwoPointsDE");
   (12, 833333 # 100000, "NGOpt39"); (12, 833333 # 1000000, "NLOPT_LN_NEWUOA_BOUND"); (24, 416667 # 100, "CmaFmin2");
   (24, 416667 # 1000, "CmaFmin2"); (24, 416667 # 10000, "CmaFmin2"); (24, 416667 # 100000, "NLOPT_LN_SBPLX");
   (24, 416667 # 1000000, "Cobyla"); (24, 416667 # 10, "MultiCMA"); (24, 416667 # 100, "CmaFmin2");
   (24, 416667 # 1000, "RotatedTwoPointsDE"); (24, 416667 # 10000, "CmaFmin2"); (24, 416667 # 100000, "pysot");
   (24, 416667 # 1000000, "NLOPT_LN_NELDERMEAD"); (24, 416667 # 10, "MultiCMA"); (24, 416667 # 100, "Shiwa");
   (24, 416667 # 1000, "CmaFmin2"); (24, 416667 # 10000, "NLOPT_GN_CRS2_LM"); (24, 416667 # 100000, "NLOPT_GN_CRS2_LM");
   (24, 416667 # 1000000, "Cobyla"); (2, 500000 # 1, "BAR"); (2, 50000 # 1, "ASCMADEthird");
   (2, 5000 # 1, "ChainMetaModelPowell"); (2, 500 # 1, "DiscreteDE"); (2, 50 # 1, "RFMetaModelOnePlusOne");
   (2, 5 # 1, "Carola2"); (2, 500000 # 1, "BAR3"); (2, 50000 # 1, "ChainCMAPowell"); (2, 5000 # 1, "ASCMADEthird");
   (2, 500 # 1, "NeuralMetaModelTwoPointsDE"); (2, 50 # 1, "CMandAS2"); (2, 5 # 1, "NaiveTBPSA"); (2, 500000 # 1, "BAR");
   (2, 50000 # 1, "ASCMADEthird"); (2, 5000 # 1, "CM"); (2, 500 # 1, "ChainDiagonalCMAPowell"); (2, 50 # 1, "Powell");
   (2, 5 # 1, "Cobyla"); (48, 208333 # 1000, "DiscreteDE"); (48, 208333 # 10000, "pysot");
   (48, 208333 # 100000, "MultiCobyla"); (48, 208333 # 1000000, "NLOPT_LN_NELDERMEAD"); (48, 208333 # 100, "RPowell");
   (48, 208333 # 1000, "CmaFmin2"); (48, 208333 # 10000, "RPowell"); (48, 208333 # 100000, "pysot");
   (48, 208333 # 1000000, "BOBYQA"); (48, 208333 # 10, "MetaModelTwoPointsDE"); (48, 208333 # 100, "RPowell");
   (48, 208333 # 1000, "DiscreteDE"); (48, 208333 # 10000, "ChainNaiveTBPSACMAPowell");
   (48, 208333 # 100000, "NLOPT_LN_BOBYQA"); (48, 208333 # 1000000, "BOBYQA"); (5, 200000 # 1, "RescaledCMA");
   (5, 20000 # 1, "RFMetaModelDE"); (5, 2000 # 1, "DiscreteDE"); (5, 200 # 1, "TwoPointsDE"); (5, 20 # 1, "NGOpt39");
   (5, 2 # 1, "OnePlusLambda"); (5, 200000 # 1, "BAR"); (5, 20000 # 1, "ChainNaiveTBPSACMAPowell");
   (5, 2000 # 1, "CmaFmin2"); (5, 200 # 1, "RotatedTwoPointsDE"); (5, 20 # 1, "pysot"); (5, 2 # 1, "NLOPT_LN_SBPLX");
   (5, 200000 # 1, "ASCMADEthird"); (5, 20000 # 1, "ASCMADEthird"); (5, 2000 # 1, "QOTPDE"); (5, 200 # 1, "NGOpt10");
   (5, 20 # 1, "LQODE"); (5, 2 # 1, "NLOPT_LN_SBPLX"); (96, 104167 # 1000, "NGOptF"); (96, 104167 # 10000, "NGOpt4");
   (96, 104167 # 100000, "RPowell"); (96, 104167 # 1000000, "ASCMADEthird"); (96, 104167 # 100, "NLOPT_LN_NELDERMEAD");
   (96, 104167 # 1000, "RPowell"); (96, 104167 # 10000, "NGOpt8"); (96, 104167 # 100000, "RPowell");
   (96, 104167 # 1000000, "NLOPT_LN_NELDERMEAD"); (96, 104167 # 100, "CMandAS3"); (96, 104167 # 1000, "Powell");
   (96, 104167 # 10000, "NGOptBase"); (96, 104167 # 100000, "Powell"); (96, 104167 # 1000000, "NLOPT_LN_NELDERMEAD")].

(** [defaultdict]: the value of key [k] (or the default value) is changed by [f]; a new key comes last *)
Fixpoint upsert {K V : Type} (eqb : K -> K -> bool) (k : K) (f : V -> V) (default : V) (l : list (K * V)) : list (K * V) :=
  match l with
  | [] => [(k, f default)]
  | (k', v) :: l => if eqb k' k then (k', f v) :: l else (k', v) :: upsert eqb k f default l
  end.
(** :4400-4451 [best], filled line by line *)
Definition best : Type := list (nat * list (Q * list string)).
Definition fill (rows : list row) : best :=
  fold_left (fun t r => let '(d, q, a) := r in upsert Nat.eqb d (upsert Qeq_bool q (fun l => l ++ [a]) []) [] t) rows [].

(** (d - d1) ** 2 + (nod - nod2) ** 2 *)
Definition distance (d : nat) (nod : Q) (d1 : nat) (nod2 : Q) : Q :=
  ((qnat d - qnat d1) * (qnat d - qnat d1) + (nod - nod2) * (nod - nod2))%Q.
(** :4452-4459 [recommend_method]; None: [bestalg] was never set *)
Definition entries (t : best) : list (nat * Q * list string) :=
  flat_map (fun de => map (fun qa => (fst de, fst qa, snd qa)) (snd de)) t.
Definition closer (d : nat) (nod : Q) (b : option (Q * list string)) (e : nat * Q * list string) : option (Q * list string) :=
  let '(d1, nod2, algs) := e in
  let dist := distance d nod d1 nod2 in
  match b with
  | None => Some (dist, algs)      (* dist < float("inf") *)
  | Some (bestdist, _) => if qlt dist bestdist then Some (dist, algs) else b
  end.
Definition recommend_method (rows : list row) (d : nat) (nod : Q) : option (list string) :=
  option_map snd (fold_left (closer d nod) (entries (fill rows)) None).

(** [registry[a].no_parallelization], for the names of the tables: recastlib.py:523, optimizerlib.py:3326, 3483-3568 *)
Definition no_parallelization (a : string) : bool :=
  existsb (String.eqb a)
    ["Cobyla"; "Powell"; "RPowell"; "BOBYQA"; "SMAC3"; "pysot"; "CmaFmin2"; "NLOPT_LN_SBPLX"; "NLOPT_GN_CRS2_LM"; "NLOPT_GN_DIRECT";
     "NLOPT_GN_DIRECT_L"; "NLOPT_GN_ISRES"; "NLOPT_LN_BOBYQA"; "NLOPT_LN_NELDERMEAD"; "NLOPT_LN_NEWUOA_BOUND"; "PCABO"; "BayesOptimBO";
     "Carola1"; "Carola2"; "ChainCMAPowell"; "ChainDiagonalCMAPowell"; "ChainMetaModelPowell"; "ChainNaiveTBPSACMAPowell";
     "ChainNaiveTBPSAPowell"; "MemeticDE"].

(** [List.count] *)
Definition count (l : list string) (a : string) : nat := length (filter (String.eqb a) l).
(** [max(set(List), key=List.count)], :4549-4550: the first one of largest count, in the order of iteration of the set *)
Definition most_frequent (order : list string -> list string) (l : list string) : option string :=
  fold_left (fun b a => match b with None => Some a | Some x => if count l x <? count l a then Some a else b end) (order l) None.

Inductive kind : Type := F | F2 | F3 | F5.
Definition rows_of (k : kind) : list row := match k with F | F2 => table_F | F3 => table_F3 | F5 => table_F5 end.
Record problem : Type := Problem { p_continuous : bool; p_noise : bool; p_dim : nat; p_budget : option nat; p_workers : nat }.
(** What is returned: [ConfPortfolio] of a list with a warmup ratio, [SQPCMA], one optimizer of the registry, or what
    NGOpt39 chooses (Model/Select.v) *)
Inductive choice : Type := Mix (names : list string) (warmup : Q) | SQPCMA | One (name : string) | Parent.
(** :4461-4472, :4540-4556, :4658-4674, :4791-4806 [_select_optimizer_cls].  [order]: the iteration of a set of strings *)
Definition select (order : list string -> list string) (k : kind) (p : problem) : result choice :=
  if p_continuous p && negb (p_noise p) then
    match p_budget p, p_dim p with
    | None, _ => Err TypeError               (* None / dimension *)
    | Some _, 0 => Err ZeroDivisionError
    | Some b, d =>
        match recommend_method (rows_of k) d (qnat b / qnat d)%Q with
        | None => Err RuntimeError           (* UnboundLocalError *)
        | Some algs =>
            let algs := if 1 <? p_workers p then filter (fun a => negb (no_parallelization a)) algs else algs in
            match algs with
            | [] => if 1 <? p_workers p then Ok SQPCMA else match k with F => Ok (Mix [] (6 # 10)%Q) | _ => Err ValueError end
            | _ =>
                match k with
                | F => Ok (Mix algs (6 # 10)%Q)
                | _ => match most_frequent order algs with Some a => Ok (One a) | None => Err ValueError end
                end
            end
        end
    end
  else if p_continuous p && negb (p_noise p) && match p_budget p with Some b => 12 * p_dim p <=? b | None => true end then
    match p_budget p with None => Err TypeError | Some _ => Ok (Mix ["GeneticDE"; "PSO"; "NGOpt39"] (33 # 100)%Q) end
  else Ok Parent.

(** Model of the registered portfolios (nevergrad/optimization/optimizerlib.py:1937-2033, 2366-3018, 3511-3528): which
    optimizers they are made of, with which budgets and workers, and whose turn it is at each [ask].  [portfolio_setup]
    (budgets, workers and turns of [Portfolio]) is in Model/Portfolio.v.  The steps of an optimizer are not modelled here. *)
From Coq Require Import List Arith ZArith QArith Bool.
From Verif.Model Require Import Prelude MultiValue Portfolio.
Import ListNotations.
Open Scope nat_scope.

(** The optimizer classes which appear in these portfolios. [Scaled c]: [rescaled(n, c)] (:2366-2367) or [Rescaled] (:2906) *)
Inductive cls : Type :=
  MetaCMA | TwoPointsDE | ScrHammersleySearch | BFGS | RBFGS | Cobyla | SQP | Scaled (c : cls) | MetaModel | Carola1 |
  OnePlusOne | ChainCMAPowell | DiscreteOnePlusOne | DiscreteBSOOnePlusOne | DoubleFastGADiscreteOnePlusOne.
(** the class attribute [no_parallelization]: base.py:83, :1560 and recastlib (local searches), :3484, :3548; a [Rescaled]
    class has the default value *)
Definition no_parallelization (c : cls) : bool :=
  match c with BFGS | RBFGS | Cobyla | SQP | Carola1 | ChainCMAPowell => true | _ => false end.

(** An optimizer in the list [optims]; [o_guess]: its [initial_guess] was set to a random point *)
Record opt : Type := Opt { o_cls : cls; o_budget : option nat; o_workers : nat; o_guess : bool }.
(** The attributes of a portfolio: [num_workers], [optims], [turns], [_warmup_budget] *)
Record pobj : Type := PObj { po_workers : nat; po_optims : list opt; po_turns : list nat; po_warmup : option nat }.

(** optimizerlib.py:1954-1960: the default list *)
Definition default_optimizers (budget : option nat) (num_workers : nat) : list cls :=
  match budget with
  | None => [MetaCMA; TwoPointsDE]
  | Some b => (if 12 * num_workers <=? b then [MetaCMA; TwoPointsDE] else []) ++ [ScrHammersleySearch]
  end.
(** optimizerlib.py:1942-2033 [Portfolio.__init__], called on an object whose attributes may already be set ([_self]): each
    of them is overwritten, [self.optims = []] at :1963.  [classes]: [config.optimizers], empty without a config. *)
Definition portfolio_init (classes : list cls) (warmup : option Q) (budget : option nat) (num_workers : nat) (_self : option pobj) : result pobj :=
  let optimizers := match classes with [] => default_optimizers budget num_workers | _ => classes end in
  bind (portfolio_setup (map no_parallelization optimizers) budget num_workers warmup) (fun su =>
  Ok (PObj num_workers (map (fun cw => Opt (fst cw) (su_sub_budget su) (snd cw) false) (combine optimizers (su_workers su))) (su_turns su) (su_warmup su))).
Definition set_optims (l : list opt) (s : pobj) : pobj := PObj (po_workers s) l (po_turns s) (po_warmup s).

(** The 26 portfolios of local searches, :2370-2914 *)
Inductive name : Type :=
  | MultiBFGSPlus | LogMultiBFGSPlus | SqrtMultiBFGSPlus | MultiCobylaPlus | MultiSQPPlus | BFGSCMAPlus | LogBFGSCMAPlus
  | SqrtBFGSCMAPlus | SQPCMAPlus | LogSQPCMAPlus | SqrtSQPCMAPlus | MultiBFGS | LogMultiBFGS | SqrtMultiBFGS | MultiCobyla
  | ForceMultiCobyla | MultiSQP | BFGSCMA | LogBFGSCMA | SqrtBFGSCMA | SQPCMA | LogSQPCMA | SqrtSQPCMA | FSQPCMA | F2SQPCMA | F3SQPCMA.
(** the local search they announce *)
Definition announced (n : name) : cls :=
  match n with
  | MultiBFGSPlus | LogMultiBFGSPlus | SqrtMultiBFGSPlus | BFGSCMAPlus | LogBFGSCMAPlus | SqrtBFGSCMAPlus => Scaled BFGS
  | MultiCobylaPlus => Scaled Cobyla
  | MultiSQPPlus | SQPCMAPlus | LogSQPCMAPlus | SqrtSQPCMAPlus | F3SQPCMA => Scaled SQP
  | MultiBFGS => RBFGS
  | LogMultiBFGS | SqrtMultiBFGS | BFGSCMA | LogBFGSCMA | SqrtBFGSCMA => BFGS
  | MultiCobyla | ForceMultiCobyla => Cobyla
  | MultiSQP | SQPCMA | LogSQPCMA | SqrtSQPCMA | FSQPCMA | F2SQPCMA => SQP
  end.
(** with a MetaCMA as first optimizer *)
Definition with_cma (n : name) : bool :=
  match n with
  | BFGSCMAPlus | LogBFGSCMAPlus | SqrtBFGSCMAPlus | SQPCMAPlus | LogSQPCMAPlus | SqrtSQPCMAPlus | BFGSCMA | LogBFGSCMA | SqrtBFGSCMA
  | SQPCMA | LogSQPCMA | SqrtSQPCMA | FSQPCMA | F2SQPCMA | F3SQPCMA => true
  | _ => false
  end.

Section Named.
  (** the integer part of the natural logarithm of a positive number *)
  Variable ilog : nat -> nat.

  (** the value of the local variable [num_workers] after :2398, :2419, :2499, :2856, :2877...: [int(max(num_workers, 1 + np.log(budget)))] is
      the larger of [num_workers] and [1 + ilog b]; the three last ones compute [int(np.sqrt(budget))] without checking the budget *)
  Definition new_workers (n : name) (budget : option nat) (num_workers : nat) : result nat :=
    match n with
    | LogMultiBFGSPlus | LogBFGSCMAPlus | LogSQPCMAPlus | LogMultiBFGS | LogBFGSCMA | LogSQPCMA =>
        Ok (match budget with Some b => Nat.max num_workers (1 + ilog b) | None => num_workers end)
    | SqrtMultiBFGSPlus | SqrtBFGSCMAPlus | SqrtSQPCMAPlus | SqrtMultiBFGS | SqrtBFGSCMA | SqrtSQPCMA =>
        Ok (match budget with Some b => Nat.max num_workers (1 + Nat.sqrt b) | None => num_workers end)
    | FSQPCMA | F3SQPCMA => match budget with Some b => Ok (Nat.max num_workers (Nat.sqrt b)) | None => Err TypeError end
    | F2SQPCMA => match budget with Some b => Ok (Nat.max num_workers (ilog b)) | None => Err TypeError end
    | _ => Ok num_workers
    end.
  (** the list [optims] built in each constructor, e.g. :2378-2383 and :2729-2735; [force_num_workers] at :2694 *)
  Definition built (n : name) (budget : option nat) (workers : nat) : list opt :=
    let cma_workers := Nat.max 1 (workers / 2) in
    let count := match n with
                 | ForceMultiCobyla => match budget with Some b => Nat.max workers (Nat.sqrt b) | None => workers end
                 | _ => if with_cma n then workers - cma_workers else workers
                 end in
    let first := if with_cma n then [Opt MetaCMA budget cma_workers false] else [] in
    let all := first ++ repeat (Opt (announced n) None 1 false) count in
    firstn 2 all ++ map (fun o => Opt (o_cls o) (o_budget o) (o_workers o) true) (skipn 2 all).
  (** the constructors, e.g. :2373-2387 or :2725-2738: [super().__init__], the list, [self.optims.clear(); self.optims.extend(optims)], and
      [super().__init__] again *)
  Definition named (n : name) (budget : option nat) (num_workers : nat) : result pobj :=
    bind (portfolio_init [] None budget num_workers None) (fun self =>
    bind (new_workers n budget num_workers) (fun workers =>
    let self := set_optims (built n budget workers) self in
    portfolio_init [] None budget workers (Some self))).
End Named.

(** optimizerlib.py:3511-3528 [Carola3]: as above without the second call *)
Definition carola3 (budget : option nat) (num_workers : nat) : result pobj :=
  bind (portfolio_init [] None budget num_workers None) (fun self =>
  let cma_workers := Nat.max 1 (num_workers / 2) in
  let all := Opt MetaModel budget cma_workers false :: repeat (Opt Carola1 None 1 false) (num_workers - cma_workers) in
  Ok (set_optims (firstn 2 all ++ map (fun o => Opt (o_cls o) (o_budget o) (o_workers o) true) (skipn 2 all)) self)).
(** optimizerlib.py:2917-2936 [MultiDiscrete]; the default of [ConfPortfolio(warmup_ratio=.25)] is again the three optimizers *)
Definition multi_discrete (budget : option nat) (num_workers : nat) : result pobj :=
  bind (portfolio_init [] (Some (1 # 4)) budget num_workers None) (fun self =>
  match budget with
  | None => Err AssertionError
  | Some b => Ok (set_optims [Opt DiscreteOnePlusOne (Some (b / 12)) num_workers false; Opt DiscreteBSOOnePlusOne (Some (b / 12)) num_workers false;
                              Opt DoubleFastGADiscreteOnePlusOne (Some (b / 4 - 2 * (b / 12))) num_workers false] self)
  end).
(** optimizerlib.py:2939-2963 [CMandAS2], :2967-2992 [CMandAS3], :2996-3018 [CM]; [dim]: the dimension *)
Definition cm_and_as2 (dim : nat) (budget : option nat) (num_workers : nat) : result pobj :=
  match budget with
  | None => Err AssertionError
  | Some b =>
      let optims := if b <? 201 then [OnePlusOne] else [TwoPointsDE] in
      let '(optims, warmup) := if (50 * dim <? b) || (num_workers <? 30) then (repeat MetaModel 3, (1 # 10)%Q) else (optims, 2%Q) in
      portfolio_init optims (Some warmup) budget num_workers None
  end.
Definition cm_and_as3 (dim : nat) (budget : option nat) (num_workers : nat) : result pobj :=
  match budget with
  | None => Err AssertionError
  | Some b =>
      let optims := if b <? 201 then [OnePlusOne] else [TwoPointsDE] in
      let '(optims, warmup) := if (50 * dim <? b) || (num_workers <? 30)
                               then (repeat (if num_workers =? 1 then ChainCMAPowell else MetaCMA) 3, (1 # 10)%Q) else (optims, 2%Q) in
      portfolio_init optims (Some warmup) budget num_workers None
  end.
Definition cm (dim : nat) (budget : option nat) (num_workers : nat) : result pobj :=
  match budget with
  | None => Err AssertionError
  | Some b =>
      let optims := if b <? 201 then [OnePlusOne] else [TwoPointsDE] in
      let optims := if 50 * dim <? b then [MetaCMA] else optims in
      portfolio_init optims (Some 2%Q) budget num_workers None
  end.

(** optimizerlib.py:2043-2066: the optimizer asked by the [k]-th ask (from 0), while all are kept *)
Definition turn (s : pobj) (k : nat) : result nat :=
  if length (po_optims s) =? 1 then Ok 0 else
  match length (po_turns s) with
  | 0 => Err ZeroDivisionError
  | L => match nth_error (po_turns s) (k mod L) with
         | Some i => if i <? length (po_optims s) then Ok i else Err AssertionError
         | None => Err IndexError
         end
  end.

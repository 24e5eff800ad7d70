(** Model of the choice of an optimizer by the family of NGOpt: [ChoiceBase]/[MetaCMA], [NGOptBase] and its
    subclasses (nevergrad/optimization/optimizerlib.py:912-1025, 3804-4390, 4810-4912), and of the creation of what is
    chosen: chains, portfolios, meta-models, down to the optimizers which do the work. *)
From Coq Require Import List Arith ZArith QArith Bool.
From Verif.Model Require Import Prelude MultiValue Chain Portfolio.
Import ListNotations.
Open Scope nat_scope.

(** The optimizers which do not contain others (optimizerlib.py:596-720, 1028-1036, 1330, 1538-1541;
    differentialevolution.py:395-403; oneshot.py:411-416; externalbo.py:249; recastlib.py:533-545, 1000).  The
    configurations of CMA are told apart; [ASplit] is the [ConfSplitOptimizer] of NGOpt4, whose parts are not modelled
    here (Model/Split.v).  [AOptimistic n]: the (1+1) with optimistic re-evaluation, with crossover and mutation n. *)
Inductive algo : Type :=
| AOnePlusOne | ADoubleFastGA | ADiscrete | AAdaptive | ABSO | ALengler | AOptimisticDiscrete | AOptimisticNoisy
| AOptimistic (portfolio : bool)
| ATBPSA | ANaiveTBPSA | APSO | ASQOPSO | ADE | ATwoPointsDE | ARotatedTwoPointsDE | AMetaRecentering | AMetaTuneRecentering
| AHyperOpt | ASplit
| AOldCMA | ACMAbounded | ACMAtuning | ACMAsmall | ACMApara | ACMAstd | ADiagonalCMA | AElitistCMA
| ACobyla | ASQP | APowell | ACmaFmin2 | ADSproba
| ARBFGS | ASbplx | ALognormal | ASmoothLengler | ASmoothRecombining | ARecombiningPortfolio
| AVLPCMA | ALPCMA | ACMAinit | AQODE | AScrHammersley.   (* used in Model/Tuned.v; :661, 716, 2107, 2123-2124, 5412, 5485; recastlib.py:541, 550 *)
(** The flag [no_parallelization] of the class: the recast optimizers (recaster.py:240, recastlib.py:523) *)
Definition sequential (a : algo) : bool :=
  match a with ACobyla | ASQP | APowell | ACmaFmin2 | ADSproba | ARBFGS | ASbplx => true | _ => false end.

Inductive variant : Type :=
| VMetaCMA | VBase | VDSBase | VShiwa | V4 | V8 | V10 | V12 | V13 | V14 | V15 | V16 | V21 | V36 | V38 | V39 | VRW | VWiz.
Inductive part : Type := Half | Third | Tenth | Most | Root | Units (n : nat).
(** [np]: the flag [no_parallelization] of the configuration *)
Inductive opt : Type :=
| Leaf (a : algo)
| Ng (v : variant)
| Chain (np : bool) (budgets : list part) (os : list opt)
| Mix (os : list opt) (warmup : option Q)           (** [ConfPortfolio] *)
| Meta (np : bool) (base : option opt)              (** [ParametrizedMetaModel] *)
| Scaled (o : opt)                                  (** [Rescaled], with a scale *)
| CMandAS2.
Definition opt_np (o : opt) : bool :=
  match o with Leaf a => sequential a | Chain np _ _ => np | Meta np _ => np | _ => false end.

(** What the choice looks at: optimizerlib.py:3811-3833 (and 918-940).  [i_arity] is the largest arity of the integer
    layers which have one (-1: none); [i_det_params], [i_continuous]: the analysis of the parametrization
    (parametrization/helpers.py:109-120); [i_det], [i_metrizable]: the flags of [parametrization.function];
    [i_bounded]: [Normalizer(parametrization).fully_bounded]. *)
Record info : Type := Info {
  i_budget : option nat; i_workers : nat; i_dim : nat;
  i_det_params : bool; i_det : bool; i_continuous : bool; i_disc : bool (* has_discrete_not_softmax *);
  i_arity : Z; i_metrizable : bool; i_objectives : nat; i_bounded : bool }.
Definition has_noise (i : info) : bool := negb (i_det_params i && i_det i).
Definition real_noise (i : info) : bool := negb (i_det i).
Definition noise_from_params (i : info) : bool := has_noise i && i_det i.
(** optimizerlib.py:3831-3832: the arity is forgotten when everything is continuous *)
Definition arity (i : info) : Z := if i_continuous i then (-1)%Z else i_arity i.

(** num_workers > budget / 5 and num_workers > budget / 2.0: true divisions of integers *)
Definition crowded5 (nw b : nat) : bool := b <? 5 * nw.
Definition crowded2 (nw b : nat) : bool := b <? 2 * nw.

Definition meta_model : opt := Meta false None.                                   (* optimizerlib.py:2222 *)
Definition meta_one : opt := Meta false (Some (Leaf AOnePlusOne)).                (* :2281 *)
Definition meta_fmin2 : opt := Meta true (Some (Leaf ACmaFmin2)).                 (* :4377-4378 *)
Definition chain_cma_powell : opt := Chain true [Half] [Ng VMetaCMA; Leaf APowell].  (* :3545, 3547 *)
Definition chain_ds_powell : opt := Chain true [Half] [Leaf ADSproba; Leaf APowell]. (* :3546, 3548 *)
Definition chain_meta_powell : opt := Chain true [Half] [meta_model; Leaf APowell].  (* :3555-3556 *)
Definition chain_tbpsa_cma_powell : opt :=
  Chain true [Third; Third] [Leaf ANaiveTBPSA; Ng VMetaCMA; Leaf APowell].           (* :3565-3568 *)
Definition carola2 : opt := Chain true [Third; Third] [Leaf ACobyla; meta_model; Leaf ASQP].  (* :3469, 3485 *)
Definition genetic_de : opt := Chain false [Units 200] [Leaf ARotatedTwoPointsDE; Leaf ATwoPointsDE].  (* :3456 *)
(** optimizerlib.py:4308-4309, 4820-4821 *)
Definition noisy_mix : opt :=
  Chain false [Half] [Mix [Leaf ADiagonalCMA; Leaf APSO; genetic_de] None; Leaf AOptimisticNoisy].

Section Pick.
  (** max(1, 4 + int(3 * np.log(dimension))) *)
  Variable cma_vars : nat -> nat.

  (** optimizerlib.py:1003-1025 [MetaCMA] *)
  Definition pick_metacma (i : info) : result opt :=
    match i_budget i with
    | Some b =>
        if i_continuous i && negb (has_noise i) && (i_objectives i <? 2) then
          if i_dim i =? 1 then Ok (Leaf AOnePlusOne) else
          if i_bounded i then Ok (Leaf ACMAbounded) else
          if b <? 50 then if i_dim i <=? 15 then Ok (Leaf ACMAtuning) else Ok (Leaf ACMAsmall) else
          if 20 <? i_workers i then Ok (Leaf ACMApara) else Ok (Leaf ACMAstd)
        else Ok (Leaf AOldCMA)
    | None => Ok (Leaf AOldCMA)
    end.

  (** optimizerlib.py:3851-3889 [NGOptBase] and :3917-3955 [NGOptDSBase]; [noisy]: their test of the noise, with what
      they choose then; [memetic]: the chain for large budgets *)
  Definition pick_base (noisy : bool) (noisy_choice memetic : opt) (i : info) : result opt :=
    match i_budget i with
    | None => Err AssertionError
    | Some b =>
        if has_noise i && i_disc i then if i_dim i <? 60 then Ok (Leaf ADoubleFastGA) else Ok (Ng VMetaCMA) else
        if noisy && i_continuous i then Ok noisy_choice else
        if i_disc i || negb (i_metrizable i) || negb (i_continuous i) then Ok (Leaf ADoubleFastGA) else
        if crowded5 (i_workers i) b then
          if crowded2 (i_workers i) b || (b <? i_dim i) then Ok (Leaf AMetaRecentering) else Ok (Leaf ANaiveTBPSA)
        else if (i_workers i =? 1) && (6000 <? b) && (7 <? i_dim i) then Ok memetic
        else if (i_workers i =? 1) && (b <? i_dim i * 30) then
          if 30 <? i_dim i then Ok (Leaf AOnePlusOne) else Ok (Leaf ACobyla)
        else if 2000 <? i_dim i then Ok (Leaf ADE) else if 1 <? i_dim i then Ok (Ng VMetaCMA) else Ok (Leaf AOnePlusOne)
    end.

  (** optimizerlib.py:3965-3972 [Shiwa] *)
  Definition pick_shiwa (i : info) : result opt :=
    if has_noise i && (i_disc i || negb (i_metrizable i)) then Ok (Leaf (AOptimistic true))
    else if (60 <=? i_dim i) && negb (i_metrizable i) then Ok (Ng VMetaCMA)
    else Ok (Ng VBase).

  (** optimizerlib.py:3991-4073 [NGOpt4]; the attribute [fully_continuous] is overwritten at the start *)
  Definition pick4 (i : info) : result opt :=
    let cont := i_continuous i && negb (i_disc i) && (arity i <? 0)%Z in
    match i_budget i with
    | None => Err AssertionError
    | Some b =>
        if has_noise i && (i_disc i || negb (i_metrizable i)) then Ok (Leaf (AOptimistic (1000 <? b)))
        else if (0 <? arity i)%Z then
          if (arity i =? 2)%Z then Ok (Leaf ADiscrete) else if (arity i <? 5)%Z then Ok (Leaf AAdaptive) else Ok CMandAS2
        else if has_noise i && cont && (100 <? i_dim i) then Ok (Leaf ASplit)
        else if has_noise i && cont then
          if 100 <? b then
            if noise_from_params i || (1 <? i_workers i) then Ok (Leaf AOnePlusOne) else Ok (Leaf ASQP)
          else Ok (Leaf AOnePlusOne)
        else if i_disc i || negb (i_metrizable i) || negb cont then Ok (Leaf ADoubleFastGA)
        else if crowded5 (i_workers i) b then
          if crowded2 (i_workers i) b || (b <? i_dim i) then Ok (Leaf AMetaTuneRecentering)
          else if (i_dim i <? 5) && (b <? 100) then Ok (Leaf ADiagonalCMA)
          else if (i_dim i <? 5) && (b <? 500) then Ok (Chain false [Units 100] [Leaf ADiagonalCMA; meta_model])
          else Ok (Leaf ANaiveTBPSA)
        else if (i_workers i =? 1) && (6000 <? b) && (7 <? i_dim i) then Ok chain_tbpsa_cma_powell
        else if (i_workers i =? 1) && (b <? i_dim i * 30) then
          if 30 <? i_dim i then Ok (Leaf AOnePlusOne) else if i_dim i <? 5 then Ok meta_model else Ok (Leaf ACobyla)
        else if 2000 <? i_dim i then Ok (Leaf ADE)
        else if (i_dim i <? 10) && (b <? 500) then Ok meta_model
        else if (40 <? i_dim i) && (i_dim i <? i_workers i) && (b <? 7 * (i_dim i * i_dim i)) then Ok (Leaf ADiagonalCMA)
        else if (i_dim i * i_dim i <? 3 * i_workers i) && (i_dim i * i_dim i <? b) then Ok meta_model
        else Ok (Ng VMetaCMA)
    end.

  (** optimizerlib.py:4080-4111 [NGOpt8] *)
  Definition pick8 (i : info) : result opt :=
    match i_budget i with
    | None => Err AssertionError
    | Some b =>
        if has_noise i && (i_disc i || negb (i_metrizable i)) then Ok (Leaf (AOptimistic (10000 <? b)))
        else if (0 <? arity i)%Z then
          if (b <? 1000) && (i_workers i =? 1) then Ok (Leaf ABSO)
          else if 2 <? i_workers i then Ok CMandAS2 else pick4 i
        else if negb (has_noise i && i_continuous i && (100 <? i_dim i)) && negb (has_noise i && i_continuous i)
                && negb (crowded5 (i_workers i) b) && ((i_workers i =? 1) && (6000 <? b) && (7 <? i_dim i))
                && (i_workers i <? b)
        then Ok chain_meta_powell else pick4 i
    end.

  (** optimizerlib.py:4123-4128 [NGOpt10] *)
  Definition pick10 (i : info) : result opt :=
    if negb (has_noise i) && (0 <? arity i)%Z then Ok (Leaf ALengler) else pick8 i.

  (** a test on the budget, false if there is none *)
  Definition with_budget (i : info) (f : nat -> bool) : bool := match i_budget i with Some b => f b | None => false end.

  (** optimizerlib.py:4134-4158 [NGOpt12] *)
  Definition pick12 (i : info) : result opt :=
    let d := i_dim i in
    if negb (has_noise i) && i_continuous i && (i_workers i <=? cma_vars d) && (d <? 100)
       && with_budget i (fun b => (b <? d * 50) && (Nat.min 50 (d * 5) <? b)) then Ok meta_model
    else if negb (has_noise i) && i_continuous i && (i_workers i <=? cma_vars d) && (d <? 100)
       && with_budget i (fun b => (b <? d * 5) && (50 <? b)) then Ok meta_model
    else pick10 i.

  (** optimizerlib.py:4162-4172 [NGOpt13], :4176-4180 [NGOpt14] *)
  Definition pick13 (i : info) : result opt :=
    if negb (has_noise i) && with_budget i (fun b => (i_workers i * 3 <? b) && (i_dim i <? 8) && (b <? 80))
    then Ok (Leaf AHyperOpt) else pick12 i.
  Definition pick14 (i : info) : result opt :=
    if with_budget i (fun b => b <? 600) then Ok meta_model else pick12 i.

  (** optimizerlib.py:4185-4198 [NGOpt15] *)
  Definition pick15 (i : info) : result opt :=
    if with_budget i (fun b => b <? i_dim i * i_dim i * 2) && i_continuous i && (i_workers i =? 1) && negb (has_noise i)
       && (i_objectives i <? 2) then Ok meta_one
    else if i_continuous i && with_budget i (fun b => b <? 600) then Ok meta_model
    else pick12 i.

  (** optimizerlib.py:4203-4215 [NGOpt16] *)
  Definition pick16 (i : info) : result opt :=
    if with_budget i (fun b => b <? 200 * i_dim i) && i_continuous i && (i_workers i =? 1) && negb (has_noise i)
       && (i_objectives i <? 2) && i_bounded i then Ok (Leaf ACobyla)
    else pick15 i.

  (** The numbers of restarts: 1 + (4 * budget) // (dimension * 1000); 1 + int(np.sqrt(4.0 * (4 * budget) //
      (dimension * 1000))), where // is applied to 16.0 * budget; the same with 64; budget // (500 * dimension) *)
  Definition num21 (i : info) : nat := match i_budget i with Some b => 1 + 4 * b / (i_dim i * 1000) | None => 1 end.
  Definition num36 (i : info) : nat := match i_budget i with Some b => 1 + Nat.sqrt (16 * b / (i_dim i * 1000)) | None => 1 end.
  Definition num_dim10 (i : info) : nat := match i_budget i with Some b => 1 + Nat.sqrt (64 * b / (i_dim i * 1000)) | None => 1 end.
  Definition num_dim20 (i : info) : nat := match i_budget i with Some b => b / (500 * i_dim i) | None => 1 end.
  (** n copies of NGOpt14 at scales 1.3**i or 0.9**i *)
  Definition restarts (n : nat) : opt := Mix (repeat (Scaled (Ng V14)) n) (Some (1 # 2)%Q).

  (** optimizerlib.py:4219-4234 [NGOpt21], :4239-4255 [NGOpt36] *)
  Definition pick_restarts (num : nat) (i : info) : result opt :=
    if with_budget i (fun b => 500 * i_dim i <? b) && i_continuous i && (i_workers i <=? num * cma_vars (i_dim i))
    then Ok (restarts num) else pick16 i.
  Definition pick21 (i : info) : result opt := pick_restarts (num21 i) i.
  Definition pick36 (i : info) : result opt := pick_restarts (num36 i) i.

  (** optimizerlib.py:4260-4300 [NGOpt38] *)
  Definition pick38 (i : info) : result opt :=
    let d := i_dim i in
    let usual := i_continuous i && negb (has_noise i) && (i_objectives i <? 2) && (i_workers i =? 1) && i_bounded i in
    if with_budget i (fun b => 500 * d <? b) && usual then
      if with_budget i (fun b => 5000 * d <? b) then Ok (Ng V36) else
      if d <? 5 then Ok (Ng V21) else
      if d <? 10 then Ok (Mix (repeat (Ng V14) (num_dim10 i)) (Some (7 # 10)%Q)) else
      if d <? 20 then Ok (restarts (num_dim20 i)) else
      Ok (Ng V16)
    else if with_budget i (fun b => 50 * d <? b) && usual then Ok (Ng (if d <? 3 then V8 else V15))
    else pick16 i.

  (** The last part of optimizerlib.py:4305-4383 [NGOpt39] and of :4817-4912 [Wiz]; [otherwise]: the last branch *)
  Definition pick39_bounded (otherwise : result opt) (i : info) : result opt :=
    let d := i_dim i in
    let para := if with_budget i (fun b => 5000 * d <? b) then num36 i * cma_vars d
                else if d <? 5 then num21 i * cma_vars d
                else if d <? 10 then num_dim10 i * cma_vars d
                else if d <? 20 then num_dim20 i * cma_vars d else 1 in
    let usual := i_continuous i && negb (has_noise i) && (i_objectives i <? 2) && i_bounded i in
    if with_budget i (fun b => 500 * d <? b) && usual && (i_workers i <=? para) then
      if d =? 1 then Ok (Ng V16) else
      if with_budget i (fun b => 5000 * d <? b) then Ok (Ng V36) else
      if d <? 5 then Ok (Ng V21) else
      if d <? 10 then Ok (Mix (repeat (Ng V14) (num_dim10 i)) (Some (7 # 10)%Q)) else
      if d <? 20 then Ok (restarts (num_dim20 i)) else
      if i_workers i =? 1 then Ok (Leaf ACmaFmin2) else Ok (Ng V16)
    else if with_budget i (fun b => 50 * d <? b) && usual && (i_workers i <=? cma_vars d) then
      if d <? 3 then Ok (Ng V8) else
      if (d <=? 20) && (i_workers i =? 1) then Ok meta_fmin2 else Ok (Ng V15)
    else otherwise.
  (** optimizerlib.py:4305-4383 [NGOpt39], which is also [NGOpt] (:4810-4812) *)
  Definition pick39 (i : info) : result opt :=
    if i_continuous i && has_noise i then Ok noisy_mix else pick39_bounded (Ok (Ng V16)) i.

  (** optimizerlib.py:4387-4393 [NGOptRW]: comparing None with a number is a TypeError *)
  Definition pickRW (i : info) : result opt :=
    if i_continuous i && negb (has_noise i) then
      match i_budget i with
      | None => Err TypeError
      | Some b =>
          if 12 * i_dim i <=? b then
            bind (pick39 i) (fun o => Ok (Mix [genetic_de; Leaf APSO; o] (Some (33 # 100)%Q)))
          else pick39 i
      end
    else pick39 i.

  (** optimizerlib.py:4817-4912 [Wiz] *)
  Definition pick_wiz (i : info) : result opt :=
    if i_continuous i && has_noise i then Ok noisy_mix else
    let alone := i_continuous i && (i_workers i =? 1) && negb (has_noise i) && (1 <? i_dim i) in
    if alone && with_budget i (fun b => b <? 1000 * i_dim i) then Ok carola2 else
    if alone && with_budget i (fun b => 10000 * i_dim i <? b) then Ok carola2 else
    pick39_bounded (pick16 i) i.

  Definition pick (v : variant) (i : info) : result opt :=
    match v with
    | VMetaCMA => pick_metacma i
    | VBase => pick_base (real_noise i) (Leaf ATBPSA) chain_cma_powell i
    | VDSBase => pick_base (has_noise i) (Chain false [Half] [Leaf ASQOPSO; Leaf AOptimisticDiscrete]) chain_ds_powell i
    | VShiwa => pick_shiwa i
    | V4 => pick4 i | V8 => pick8 i | V10 => pick10 i | V12 => pick12 i | V13 => pick13 i | V14 => pick14 i
    | V15 => pick15 i | V16 => pick16 i | V21 => pick21 i | V36 => pick36 i | V38 => pick38 i | V39 => pick39 i
    | VRW => pickRW i | VWiz => pick_wiz i
    end.

  (** optimizerlib.py:2943-2966 [CMandAS2] *)
  Definition pick_as2 (i : info) : result opt :=
    match i_budget i with
    | None => Err AssertionError
    | Some b =>
        if (50 * i_dim i <? b) || (i_workers i <? 30) then Ok (Mix [meta_model; meta_model; meta_model] (Some (1 # 10)%Q))
        else if b <? 201 then Ok (Mix [Leaf AOnePlusOne] (Some 2%Q)) else Ok (Mix [Leaf ATwoPointsDE] (Some 2%Q))
    end.

  (** optimizerlib.py:3365-3379: the budget of each part of a chain *)
  Definition part_budget (budget : option nat) (nw : nat) (p : part) : nat :=
    match p with
    | Half => Nat.max 1 (match budget with Some (Datatypes.S _ as b) => b / 2 | _ => nw end)
    | Third => Nat.max 1 (match budget with Some (Datatypes.S _ as b) => b / 3 | _ => nw end)
    | Tenth => Nat.max 1 (match budget with Some (Datatypes.S _ as b) => b / 10 | _ => nw end)
    | Most => Nat.max 1 (match budget with Some (Datatypes.S _ as b) => b * 4 / 5 | _ => nw end)
    | Root => Nat.max 1 (match budget with Some (Datatypes.S _ as b) => Nat.sqrt b | _ => nw end)
    | Units n => n
    end.
  Definition chain_budgets (budget : option nat) (nw : nat) (ps : list part) : list (option nat) :=
    let bs := map (part_budget budget nw) ps in
    map Some bs ++ [option_map (fun b => Nat.max 4 (b - list_sum bs)) budget].

  (** An optimizer inside another one gets the same parametrization; its losses are numbers, so that it never knows
      of several objectives. *)
  Definition inner (budget : option nat) (nw : nat) (i : info) : info :=
    Info budget nw (i_dim i) (i_det_params i) (i_det i) (i_continuous i) (i_disc i) (i_arity i) (i_metrizable i) 0 (i_bounded i).

  Fixpoint zip_create (create : opt -> info -> result (list (algo * nat))) (os : list opt) (is : list info)
    : result (list (algo * nat)) :=
    match os, is with
    | [], [] => Ok []
    | o :: os, i :: is => bind (create o i) (fun l => bind (zip_create create os is) (fun r => Ok (l ++ r)))
    | _, _ => Err AssertionError
    end.

  (** Creation of an optimizer: the optimizers which do the work, with their numbers of workers.  A sequential one is
      not created with several workers (base.py:88-89).  [optim] of NGOpt (optimizerlib.py:3842-3848) is created at
      the first [ask].  [fuel]: depth. *)
  Fixpoint create (fuel : nat) (o : opt) (i : info) : result (list (algo * nat)) :=
    match fuel with
    | 0 => Err OutOfFuel
    | Datatypes.S fuel =>
        match o with
        | Leaf a => if sequential a && (1 <? i_workers i) then Err ValueError else Ok [(a, i_workers i)]
        | Ng v => bind (pick v i) (fun o => create fuel o (inner (i_budget i) (i_workers i) i))
        | Chain _ ps os =>
            zip_create (create fuel) os (map (fun b => inner b (i_workers i) i) (chain_budgets (i_budget i) (i_workers i) ps))
        | Mix os warmup =>
            bind (portfolio_setup (map opt_np os) (i_budget i) (i_workers i) warmup) (fun su =>
            zip_create (create fuel) os (map (fun w => inner (su_sub_budget su) w i) (su_workers su)))
        | Meta _ (Some o) => create fuel o (inner (i_budget i) (i_workers i) i)
        | Meta _ None =>   (* optimizerlib.py:2145-2150 *)
            create fuel (if 1 <? i_dim i then Leaf AElitistCMA else Leaf AOnePlusOne) (inner (i_budget i) (i_workers i) i)
        | Scaled o => create fuel o (inner (i_budget i) (i_workers i) i)
        | CMandAS2 => bind (pick_as2 i) (fun o => create fuel o (inner (i_budget i) (i_workers i) i))
        end
    end.
End Pick.

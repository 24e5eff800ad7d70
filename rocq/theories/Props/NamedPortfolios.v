(** * C95: what the registered portfolios are made of *)
From Coq Require Import List Arith ZArith QArith Qround Bool Lia.
From Verif.Model Require Import Prelude MultiValue Portfolio NamedPortfolios.
From Verif.Spec Require Import NamedPortfolios.
From Verif.Proofs Require Import NamedPortfolios.
Import ListNotations.
Open Scope nat_scope.

(** The default portfolio: two optimizers without a budget, three with one, each with its share of the budget and of the
    workers; but a budget under 12 per worker leaves a Hammersley search alone. In each case all are used. *)
Theorem C95_portfolio : forall budget nw, 1 <= nw -> exists s, portfolio_init [] None budget nw None = Ok s /\ po_workers s = nw /\ po_warmup s = None /\ sound s /\
  match budget with
  | None => exists w, rounded_up nw 2 w /\ po_optims s = [Opt MetaCMA None w false; Opt TwoPointsDE None w false]
  | Some b => exists w sb, (if 12 * nw <=? b
      then rounded_up nw 3 w /\ rounded_up b 3 sb /\
           po_optims s = [Opt MetaCMA (Some sb) w false; Opt TwoPointsDE (Some sb) w false; Opt ScrHammersleySearch (Some sb) w false]
      else po_optims s = [Opt ScrHammersleySearch (Some b) nw false])
  end.
Proof.
  intros budget nw Hw. pose proof (init_default budget nw Hw None) as E. cbv zeta in E. eexists. split; [exact E|]. split; [reflexivity|]. split; [reflexivity|]. split.
  - set (l := default_optimizers budget nw). assert (Hl : 1 <= length l) by (unfold l; pose proof (default_nonempty budget nw); destruct (default_optimizers budget nw); [congruence|cbn; lia]).
    eapply sound_blocks; cbn [po_turns po_optims]; [reflexivity|exact Hl|lia|rewrite map_length; exact Hl|]. right. now rewrite map_length.
  - cbn [po_optims]. destruct budget as [b|].
    + unfold default_optimizers. destruct (12 * nw <=? b).
      * exists (Nat.max 1 (ceil_div nw 3)), (ceil_div b 3). pose proof (ceil_div_spec nw 3 ltac:(lia)) as (A & B). pose proof (ceil_div_spec b 3 ltac:(lia)).
        split; [unfold rounded_up; lia|]. split; [assumption|reflexivity].
      * exists 0, 0. cbn [app length map option_map]. rewrite !ceil_div_1. repeat f_equal. lia.
    + exists (Nat.max 1 (ceil_div nw 2)). pose proof (ceil_div_spec nw 2 ltac:(lia)) as (A & B). split; [unfold rounded_up; lia|reflexivity].
Qed.
Print Assumptions C95_portfolio.

(** The 26 portfolios of local searches are all this default portfolio, at most with more workers. *)
Theorem C95_named : forall ilog n budget nw, 1 <= nw -> (budget = None -> n <> FSQPCMA /\ n <> F2SQPCMA /\ n <> F3SQPCMA) ->
  exists nw', nw <= nw' /\ (budget = None -> nw' = nw) /\ named ilog n budget nw = portfolio_init [] None budget nw' None.
Proof.
  intros ilog n budget nw Hw HF. unfold named. rewrite (init_default budget nw Hw None). cbn [bind].
  destruct (new_workers ilog n budget nw) as [nw'|e] eqn:E.
  - exists nw'. cbn [bind]. split; [|split; [|reflexivity]].
    + destruct n, budget; cbn in E; try discriminate E; injection E as <-; lia.
    + intros ->. destruct n; cbn in E; try discriminate E; now injection E.
  - exfalso. destruct budget as [b|]; [destruct n; discriminate E|]. destruct (HF eq_refl) as (H1 & H2 & H3). destruct n; cbn in E; congruence.
Qed.
Print Assumptions C95_named.
(** Hence none contains the local search it announces. *)
Theorem C95_announced_refuted : forall ilog n budget nw s, 1 <= nw -> named ilog n budget nw = Ok s ->
  forall o, In o (po_optims s) -> o_cls o <> announced n /\ In (o_cls o) [MetaCMA; TwoPointsDE; ScrHammersleySearch].
Proof.
  intros ilog n budget nw s Hw E o Ho.
  assert (K : In (o_cls o) [MetaCMA; TwoPointsDE; ScrHammersleySearch]).
  { unfold named in E. rewrite (init_default budget nw Hw None) in E. cbn [bind] in E. destruct (new_workers ilog n budget nw) as [nw'|e] eqn:EN; [|discriminate E]. cbn [bind] in E.
    assert (Hw' : 1 <= nw') by (destruct n, budget; cbn in EN; try discriminate EN; injection EN as <-; lia).
    rewrite (init_default budget nw' Hw') in E. injection E as <-. cbn [po_optims] in Ho. apply in_map_iff in Ho. destruct Ho as (c & <- & Hc). cbn [o_cls].
    unfold default_optimizers in Hc. destruct budget as [b|]; [destruct (12 * nw' <=? b)|]; cbn in Hc |- *; tauto. }
  split; [|exact K]. intros Ha. rewrite Ha in K. destruct n; cbn in K; repeat (destruct K as [K|K]; [discriminate K|]); exact K.
Qed.
Print Assumptions C95_announced_refuted.
(** It was built: before the second initialisation, the list has the announced optimizers. *)
Theorem C95_built : forall n budget workers, 2 <= workers -> exists o, In o (built n budget workers) /\ o_cls o = announced n.
Proof.
  intros n budget workers Hw. unfold built. set (cma := Nat.max 1 (workers / 2)). assert (Hc : cma < workers) by (unfold cma; pose proof (Nat.div_lt workers 2); lia).
  set (count := match n with ForceMultiCobyla => _ | _ => _ end).
  assert (Hn : 1 <= count) by (unfold count; destruct n; cbn [with_cma]; try lia; destruct budget; lia). clearbody count.
  destruct (with_cma n); (destruct count as [|c]; [lia|]); cbn [app repeat firstn skipn map]; [eexists; split; [right; left; reflexivity|reflexivity]|].
  destruct c; cbn; eexists; (split; [left; reflexivity|reflexivity]).
Qed.
Print Assumptions C95_built.
(** The versions with a number of workers at least 1 + sqrt(budget) are a Hammersley search under a budget of 156. *)
Theorem C95_sqrt_refuted : forall ilog n b nw, In n [SqrtMultiBFGSPlus; SqrtBFGSCMAPlus; SqrtSQPCMAPlus; SqrtMultiBFGS; SqrtBFGSCMA; SqrtSQPCMA] -> 1 <= nw -> b < 156 ->
  exists s w, named ilog n (Some b) nw = Ok s /\ po_optims s = [Opt ScrHammersleySearch (Some b) w false].
Proof.
  intros ilog n b nw Hn Hw Hb. unfold named. rewrite (init_default (Some b) nw Hw None). cbn [bind].
  assert (E : new_workers ilog n (Some b) nw = Ok (Nat.max nw (1 + Nat.sqrt b))) by (cbn in Hn; repeat (destruct Hn as [<-|Hn]; [reflexivity|]); destruct Hn).
  rewrite E. cbn [bind]. set (w := Nat.max nw (1 + Nat.sqrt b)). assert (Hw' : 1 <= w) by lia.
  assert (L : b < 12 * w). { pose proof (Nat.sqrt_spec b ltac:(lia)) as (A & B). set (r := Nat.sqrt b) in *. assert (12 * (1 + r) <= 12 * w) by (unfold w; lia). assert (b < 12 * (1 + r)); [|lia]. assert (r < 13) by nia. destruct (Nat.le_gt_cases r 11); nia. }
  rewrite (init_default (Some b) w Hw'). unfold default_optimizers. destruct (Nat.leb_spec (12 * w) b); [lia|]. cbn [app length map option_map]. rewrite !ceil_div_1.
  eexists. exists (Nat.max 1 w). split; reflexivity.
Qed.
Print Assumptions C95_sqrt_refuted.

(** [Carola3] keeps the turns of the default portfolio while its list has another length: with enough budget, each ask succeeds
    and each optimizer is used with 1, 3 or 4 workers only; without a budget, with 1 or 2 workers only; otherwise with 1 worker only. *)
Theorem C95_carola3 : forall budget nw, 1 <= nw -> exists s, carola3 budget nw = Ok s /\
  length (po_optims s) = 1 + (nw - Nat.max 1 (nw / 2)) /\ (exists o l, po_optims s = o :: l /\ o_cls o = MetaModel /\ o_budget o = budget /\ Forall (fun o => o_cls o = Carola1) l) /\
  (sound s <-> match budget with
               | None => nw = 1 \/ nw = 2
               | Some b => if 12 * nw <=? b then nw = 1 \/ nw = 3 \/ nw = 4 else nw = 1
               end).
Proof.
  intros budget nw Hw. unfold carola3. rewrite (init_default budget nw Hw None). cbn [bind]. set (cma := Nat.max 1 (nw / 2)). eexists. split; [reflexivity|].
  cbn [set_optims po_optims]. set (l := map _ (skipn 2 _)).
  assert (L : length (firstn 2 (Opt MetaModel budget cma false :: repeat (Opt Carola1 None 1 false) (nw - cma)) ++ l) = 1 + (nw - cma)).
  { unfold l. rewrite app_length, map_length, firstn_length, skipn_length. cbn [length]. rewrite repeat_length. lia. }
  split; [exact L|]. split.
  - exists (Opt MetaModel budget cma false), (firstn 1 (repeat (Opt Carola1 None 1 false) (nw - cma)) ++ l). split; [reflexivity|]. split; [reflexivity|]. split; [reflexivity|].
    apply Forall_app. split.
    + apply Forall_forall. intros o Ho. assert (In o (repeat (Opt Carola1 None 1 false) (nw - cma))) as Ho' by (rewrite <- (firstn_skipn 1); apply in_or_app; now left).
      apply repeat_spec in Ho'. now subst.
    + unfold l. apply Forall_forall. intros o Ho. apply in_map_iff in Ho. destruct Ho as (o' & <- & Ho). cbn [o_cls skipn] in *.
      assert (In o' (repeat (Opt Carola1 None 1 false) (nw - cma))) as Ho' by (rewrite <- (firstn_skipn 1); apply in_or_app; now right).
      apply repeat_spec in Ho'. now subst.
  - set (d := default_optimizers budget nw). assert (Hd : 1 <= length d) by (unfold d; pose proof (default_nonempty budget nw); destruct (default_optimizers budget nw); [congruence|cbn; lia]).
    match goal with |- sound ?x <-> _ => set (s := x) end. rewrite (sound_blocks s (length d) (Nat.max 1 (ceil_div nw (length d))) eq_refl Hd ltac:(lia));
      [|unfold s; cbn [set_optims po_optims]; rewrite L; lia]. unfold s. cbn [set_optims po_optims]. rewrite L. unfold d, default_optimizers.
    assert (C : cma = Nat.max 1 (nw / 2)) by reflexivity. pose proof (Nat.div_mod nw 2 ltac:(lia)). pose proof (Nat.mod_upper_bound nw 2 ltac:(lia)).
    destruct budget as [b|]; [destruct (12 * nw <=? b)|]; cbn [app length]; lia.
Qed.
Print Assumptions C95_carola3.
(** With two workers and a budget of at least 24, each third ask fails. *)
Theorem C95_carola3_pair_refuted : forall b, 24 <= b -> exists s, carola3 (Some b) 2 = Ok s /\
  forall k, turn s k = match k mod 3 with 0 => Ok 0 | 1 => Ok 1 | _ => Err AssertionError end.
Proof.
  intros b Hb. unfold carola3. rewrite (init_default (Some b) 2 ltac:(lia) None). unfold default_optimizers. destruct (Nat.leb_spec (12 * 2) b); [|lia].
  cbn [bind]. eexists. split; [reflexivity|]. intros k. unfold turn. cbn [app length]. change (Nat.max 1 (ceil_div 2 3)) with 1. change (blocks 3 1) with [0; 1; 2].
  cbn [set_optims po_optims po_turns]. change (Nat.max 1 (2 / 2)) with 1. cbn [Nat.sub repeat firstn skipn map app length Nat.eqb].
  pose proof (Nat.mod_upper_bound k 3 ltac:(lia)). destruct (k mod 3) as [|[|[|m]]] eqn:E; [reflexivity|reflexivity|reflexivity|lia].
Qed.
Print Assumptions C95_carola3_pair_refuted.

(** [MultiDiscrete] needs a budget, and splits a fourth of it; but under 12 evaluations per worker, only its first optimizer is asked. *)
Theorem C95_multi_discrete : forall b nw, 1 <= nw -> exists s b1 b2 b3, multi_discrete (Some b) nw = Ok s /\
  po_optims s = [Opt DiscreteOnePlusOne (Some b1) nw false; Opt DiscreteBSOOnePlusOne (Some b2) nw false; Opt DoubleFastGADiscreteOnePlusOne (Some b3) nw false] /\
  b1 = b / 12 /\ b2 = b1 /\ b1 <= b3 <= b1 + 2 /\ b1 + b2 + b3 = b / 4 /\ po_warmup s = Some (b / 4) /\
  (sound s <-> 12 * nw <= b) /\ (b < 12 * nw -> forall k, turn s k = Ok 0).
Proof.
  intros b nw Hw. unfold multi_discrete.
  rewrite (init_parallel [] (Some (1 # 4)%Q) (Some b) nw None); [|apply default_parallel|exact Hw|apply default_nonempty|split; [reflexivity|discriminate]].
  cbn [bind set_optims po_optims po_warmup po_turns po_workers]. rewrite quarter. eexists. exists (b / 12), (b / 12), (b / 4 - 2 * (b / 12)).
  split; [reflexivity|]. split; [reflexivity|]. split; [reflexivity|]. split; [reflexivity|].
  assert (D : b / 12 = (b / 4) / 3) by (rewrite Nat.div_div by lia; reflexivity).
  pose proof (Nat.div_mod (b / 4) 3 ltac:(lia)) as D3. pose proof (Nat.mod_upper_bound (b / 4) 3 ltac:(lia)) as U3. rewrite <- D in D3.
  split; [lia|]. split; [lia|]. split; [reflexivity|]. set (d := default_optimizers (Some b) nw).
  assert (Hd : 1 <= length d) by (unfold d, default_optimizers; destruct (12 * nw <=? b); cbn; lia). match goal with |- (sound ?x <-> _) /\ _ => set (s := x) end. split.
  - rewrite (sound_blocks s (length d) (Nat.max 1 (ceil_div nw (length d))) eq_refl Hd ltac:(lia)) by (unfold s; cbn; lia). unfold s. cbn [set_optims po_optims length].
    unfold d, default_optimizers. destruct (Nat.leb_spec (12 * nw) b); cbn [app length]; lia.
  - intros Hb k. destruct (turn_blocks s (length d) (Nat.max 1 (ceil_div nw (length d))) k eq_refl Hd ltac:(lia) ltac:(unfold s; cbn; lia)) as (i & Hi & T).
    apply blocks_in in Hi. rewrite T. unfold d, default_optimizers in Hi. destruct (Nat.leb_spec (12 * nw) b); [lia|]. cbn in Hi. replace i with 0 by lia. reflexivity.
Qed.
Print Assumptions C95_multi_discrete.

(** Competence maps: the choice; the optimizer chosen alone is given twice the budget, and is never reconsidered within the budget. *)
Theorem C95_cm : forall dim b nw, 1 <= nw -> exists s c, cm dim (Some b) nw = Ok s /\ po_optims s = [Opt c (Some (2 * b)) nw false] /\ po_warmup s = Some (2 * b) /\ sound s /\
  (c = MetaCMA <-> 50 * dim < b) /\ (c = OnePlusOne <-> b <= 50 * dim /\ b <= 200) /\ (c = TwoPointsDE <-> b <= 50 * dim /\ 200 < b).
Proof.
  intros dim b nw Hw. unfold cm. set (c := if 50 * dim <? b then MetaCMA else if b <? 201 then OnePlusOne else TwoPointsDE).
  assert (E : (if 50 * dim <? b then [MetaCMA] else if b <? 201 then [OnePlusOne] else [TwoPointsDE]) = [c]) by (unfold c; destruct (50 * dim <? b), (b <? 201); reflexivity).
  rewrite E. rewrite (init_parallel [c] (Some 2%Q) (Some b) nw None).
  - cbn [length map option_map]. rewrite ceil_div_1. eexists. exists c. split; [reflexivity|]. cbn [po_optims po_warmup].
    assert (SB : sub_budget (Some 2%Q) 1 b = 2 * b).
    { unfold sub_budget. rewrite ceil_div_1, (qceil_of_nat (2 * b)); [cbn; lia|]. rewrite Nat2Z.inj_mul, inject_Z_mult. unfold inject_Z at 2. ring. }
    rewrite SB. assert (W : Nat.max 1 nw = nw) by lia. rewrite W. split; [reflexivity|]. split; [f_equal; apply qint_of_nat; rewrite Nat2Z.inj_mul, inject_Z_mult; reflexivity|]. split.
    + eapply sound_blocks; [reflexivity|lia|lia|cbn; lia|now left].
    + unfold c. destruct (Nat.ltb_spec (50 * dim) b), (Nat.ltb_spec b 201); repeat split; intros; try discriminate; try lia; reflexivity.
  - unfold c. destruct (50 * dim <? b), (b <? 201); repeat constructor.
  - exact Hw.
  - discriminate.
  - split; [reflexivity|discriminate].
Qed.
Print Assumptions C95_cm.
Theorem C95_cm_budget_refuted : forall dim b nw s, 1 <= nw -> 1 <= b -> cm dim (Some b) nw = Ok s -> ~ exists o, po_optims s = [o] /\ o_budget o = Some b.
Proof.
  intros dim b nw s Hw Hb E (o & H1 & H2). destruct (C95_cm dim b nw Hw) as (s' & c & E' & H & _). rewrite E in E'. injection E' as <-. rewrite H in H1. injection H1 as <-.
  cbn in H2. injection H2. lia.
Qed.
Print Assumptions C95_cm_budget_refuted.
Theorem C95_cm_and_as : forall dim b nw, 1 <= nw ->
  (50 * dim < b \/ nw < 30 -> exists s2 s3 w sb, cm_and_as2 dim (Some b) nw = Ok s2 /\ cm_and_as3 dim (Some b) nw = Ok s3 /\ rounded_up nw 3 w /\
     po_optims s2 = repeat (Opt MetaModel (Some sb) w false) 3 /\
     po_optims s3 = repeat (Opt (if nw =? 1 then ChainCMAPowell else MetaCMA) (Some sb) w false) 3 /\
     po_warmup s2 = Some (b / 10) /\ po_warmup s3 = Some (b / 10) /\ sound s2 /\ sound s3 /\ b <= 3 * sb) /\
  (b <= 50 * dim -> 30 <= nw -> cm_and_as2 dim (Some b) nw = cm dim (Some b) nw /\ cm_and_as3 dim (Some b) nw = cm dim (Some b) nw).
Proof.
  intros dim b nw Hw. split.
  - intros H. unfold cm_and_as2, cm_and_as3. assert (E : (50 * dim <? b) || (nw <? 30) = true) by (apply orb_true_iff; rewrite !Nat.ltb_lt; tauto). rewrite E.
    assert (SB : b <= 3 * sub_budget (Some (1 # 10)%Q) 3 b).
    { unfold sub_budget. change (qlt (1 # 10) 1) with true. cbn [negb]. pose proof (ceil_div_spec (qceil (inject_Z (Z.of_nat b) * (1 # 10))) 3 ltac:(lia)) as (A & _).
      assert (B : b <= 10 * qceil (inject_Z (Z.of_nat b) * (1 # 10))).
      { unfold qceil. pose proof (Qle_ceiling (inject_Z (Z.of_nat b) * (1 # 10))) as L. set (z := Qceiling _) in *.
        assert (Z.of_nat b <= 10 * z)%Z; [|lia]. unfold Qle, Qmult, inject_Z in L. cbn in L. lia. }
      assert (C : 9 * b <= 10 * (1 + qint (inject_Z (Z.of_nat b) * (1 - (1 # 10))))).
      { unfold qint. pose proof (Qlt_floor (inject_Z (Z.of_nat b) * (1 - (1 # 10)))) as L. set (z := Qfloor _) in *.
        assert (9 * Z.of_nat b < 10 * (z + 1))%Z; [|lia]. change (1 - (1 # 10))%Q with (9 # 10)%Q in L. unfold Qlt, Qmult, inject_Z in L. cbn [Qnum Qden] in L. lia. }
      lia. }
    pose proof (ceil_div_spec nw 3 ltac:(lia)) as (R1 & R2).
    assert (P2 := init_parallel (repeat MetaModel 3) (Some (1 # 10)%Q) (Some b) nw None ltac:(repeat constructor) Hw ltac:(discriminate) ltac:(split; [reflexivity|discriminate])).
    cbn [repeat length map option_map] in P2. rewrite tenth in P2. destruct (Nat.eqb_spec nw 1) as [N|N].
    + subst nw. assert (P3 : exists s3, portfolio_init (repeat ChainCMAPowell 3) (Some (1 # 10)%Q) (Some b) 1 None = Ok s3 /\
        po_optims s3 = repeat (Opt ChainCMAPowell (Some (sub_budget (Some (1 # 10)%Q) 3 b)) 1 false) 3 /\ po_turns s3 = blocks 3 1 /\ po_warmup s3 = Some (b / 10)).
      { unfold portfolio_init, portfolio_setup. eexists. split; [reflexivity|]. cbn [po_optims po_turns po_warmup su_warmup su_sub_budget su_workers su_turns]. rewrite tenth. repeat split; reflexivity. }
      destruct P3 as (s3 & P3 & O3 & T3 & W3). eexists. exists s3, 1, (sub_budget (Some (1 # 10)%Q) 3 b). split; [exact P2|]. split; [exact P3|]. split; [split; lia|].
      split; [reflexivity|]. split; [exact O3|]. split; [reflexivity|]. split; [exact W3|]. split; [|split; [|exact SB]].
      * eapply sound_blocks; [reflexivity|lia|lia|cbn; lia|now right].
      * eapply (sound_blocks s3 3 1 T3); rewrite ?O3; cbn; lia.
    + assert (P3 := init_parallel (repeat MetaCMA 3) (Some (1 # 10)%Q) (Some b) nw None ltac:(repeat constructor) Hw ltac:(discriminate) ltac:(split; [reflexivity|discriminate])).
      cbn [repeat length map option_map] in P3. rewrite tenth in P3. eexists. eexists. exists (Nat.max 1 (ceil_div nw 3)), (sub_budget (Some (1 # 10)%Q) 3 b).
      split; [exact P2|]. split; [exact P3|]. split; [split; lia|]. split; [reflexivity|]. split; [reflexivity|]. split; [reflexivity|]. split; [reflexivity|].
      split; [|split; [|exact SB]]; (eapply sound_blocks; [reflexivity|lia|lia|cbn; lia|now right]).
  - intros H1 H2. unfold cm_and_as2, cm_and_as3, cm. destruct (Nat.ltb_spec (50 * dim) b); [lia|]. destruct (Nat.ltb_spec nw 30); [lia|]. cbn [orb]. split; reflexivity.
Qed.
Print Assumptions C95_cm_and_as.

(** ** Cases *)
Example C95_case_named : exists s, named Nat.log2 SQPCMA (Some 100) 4 = Ok s /\ map o_cls (po_optims s) = [MetaCMA; TwoPointsDE; ScrHammersleySearch] /\ map o_budget (po_optims s) = repeat (Some 34) 3.
Proof. eexists. split; [vm_compute; reflexivity|]. split; reflexivity. Qed.
Example C95_case_built : map o_cls (built SQPCMA (Some 100) 4) = [MetaCMA; SQP; SQP].
Proof. reflexivity. Qed.
Example C95_case_carola3 : exists s, carola3 (Some 100) 6 = Ok s /\ map o_cls (po_optims s) = [MetaModel; Carola1; Carola1; Carola1] /\ po_turns s = [0; 0; 1; 1; 2; 2].
Proof. eexists. split; [vm_compute; reflexivity|]. split; reflexivity. Qed.

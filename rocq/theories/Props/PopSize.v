(** C67: population sizes and generations of TBPSA and EDA. *)
From Coq Require Import List Arith ZArith QArith Qreals Reals Lia Lra Bool Permutation.
From Verif.Model Require Import Prelude MultiValue PopSize Tbpsa.
From Verif.Spec Require Import PopSize.
From Verif.Proofs Require Import MultiValue PopSize Tbpsa.
Import ListNotations.
Open Scope nat_scope.

(** ** The population sizes *)

(** Whatever the losses told, the population is at least as large as the number of workers, at most a
    quarter of it becomes parents, the parents are at least [min(initial size, dimension)], and at most
    five generations of losses are kept. *)
Theorem C67_sizes mu0 dimension workers losses : 1 <= mu0 -> 1 <= dimension ->
  sizes_ok mu0 dimension workers (ps_run (ps_init (4 * mu0) mu0 dimension workers) losses).
Proof.
  intros H0 Hd. destruct (ps_run_inv mu0 dimension workers losses H0 Hd) as (_ & _ & I3 & I4 & I5 & _ & I7).
  repeat split; assumption.
Qed.

(** The population grows at most linearly with the number of losses told. *)
Theorem C67_growth mu0 dimension workers losses : 1 <= mu0 -> 1 <= dimension ->
  ps_lambda (ps_run (ps_init (4 * mu0) mu0 dimension workers) losses)
  <= Nat.max (4 * mu0) workers + length losses / 5.
Proof.
  intros H0 Hd. pose proof (ps_run_growth mu0 dimension workers losses H0 Hd) as H. cbn zeta in H.
  set (s := ps_run _ _) in *.
  assert (ps_lambda s - Nat.max (4 * mu0) workers <= length losses / 5).
  { apply Nat.div_le_lower_bound; lia. }
  lia.
Qed.

(** The sizes only change once every five generations: before, the losses are only recorded; then, with a
    single worker, the number of parents doubles if the mean loss did not decrease by two standard errors
    between the first and the last generation, and otherwise shrinks by 16% (but not below the minimum);
    the population is four times the number of parents. *)
Theorem C67_test s losses : 2 <= ps_lambda s -> ps_record s = [] -> ps_workers s <= 1 ->
  (length losses < 5 * ps_lambda s ->
   let s' := ps_run s losses in ps_lambda s' = ps_lambda s /\ ps_mu s' = ps_mu s /\ ps_record s' = losses) /\
  (length losses = 5 * ps_lambda s ->
   let first := firstn (ps_lambda s) losses in
   let last := skipn (4 * ps_lambda s) losses in
   let s' := ps_run s losses in
   ~ (qvar first + qvar last == 0)%Q ->
   ps_record s' = [] /\ ps_lambda s' = 4 * ps_mu s' /\
   ((z_value (ps_lambda s) first last < 2)%R -> ps_mu s' = 2 * ps_mu s) /\
   (~ (z_value (ps_lambda s) first last < 2)%R -> ps_mu s' = Nat.max (ps_min_mu s) (ps_mu s * 84 / 100))).
Proof.
  intros Hl Hr Hw. split.
  - intros H. cbn zeta. rewrite ps_run_short by (rewrite Hr; cbn [length]; exact H).
    cbn [ps_lambda ps_mu ps_record]. rewrite Hr. repeat split.
  - intros H first last s' Hv.
    destruct (@exists_last _ losses) as (l & x & ->); [intros ->; cbn in H; lia|].
    assert (Hlen : length l + 1 = 5 * ps_lambda s) by (rewrite app_length in H; cbn [length] in H; exact H).
    subst s'. rewrite ps_run_snoc, ps_run_short by (rewrite Hr; cbn [length]; lia).
    rewrite Hr. cbn [app]. unfold ps_add. cbn [ps_lambda ps_mu ps_record ps_min_mu ps_workers].
    rewrite app_length; cbn [length]. rewrite (proj2 (Nat.leb_le _ _)) by lia.
    unfold lastn. rewrite app_length; cbn [length].
    replace (length l + 1 - ps_lambda s) with (4 * ps_lambda s) by lia.
    fold first. fold last.
    destruct (1 <? ps_workers s) eqn:W; [apply Nat.ltb_lt in W; lia|].
    cbn [ps_lambda ps_mu ps_record]. split; [reflexivity|]. split; [reflexivity|].
    destruct (no_progress (ps_lambda s) first last) eqn:E.
    + split; [reflexivity|]. intros Hn. exfalso. apply Hn. apply no_progress_z; assumption.
    + split; [|reflexivity]. intros Hz. apply (no_progress_z _ _ _ Hl Hv) in Hz. congruence.
Qed.

(** With constant losses the test sees a progress: the population shrinks. *)
Theorem C67_constant_losses s x : 2 <= ps_lambda s -> ps_record s = [] -> ps_workers s <= 1 ->
  ps_mu (ps_run s (repeat x (5 * ps_lambda s))) = Nat.max (ps_min_mu s) (ps_mu s * 84 / 100).
Proof.
  intros Hl Hr Hw.
  assert (Hs : forall n, repeat x (S n) = repeat x n ++ [x]).
  { intros n. rewrite <- repeat_cons. reflexivity. }
  assert (Hm : forall n, 1 <= n -> (qmean (repeat x n) == x)%Q).
  { intros n Hn. unfold qmean. rewrite repeat_length.
    assert (Es : (qsum (repeat x n) == qnat n * x)%Q).
    { clear. induction n as [|n IH]; [reflexivity|]. cbn [repeat qsum fold_right]. fold (qsum (repeat x n)).
      rewrite IH. unfold qnat. rewrite Nat2Z.inj_succ. unfold Z.succ. rewrite inject_Z_plus. ring. }
    rewrite Es. field. unfold qnat, Qeq; cbn. lia. }
  assert (Hv : forall n, 1 <= n -> (qvar (repeat x n) == 0)%Q).
  { intros n Hn. unfold qvar. set (m := qmean (repeat x n)).
    assert (Em : (m == x)%Q) by (apply Hm; exact Hn).
    assert (Es : forall k, (qsum (map (fun y => (y - m) * (y - m)) (repeat x k)) == 0)%Q).
    { induction k as [|k IH]; [reflexivity|]. cbn [repeat map qsum fold_right].
      fold (qsum (map (fun y => (y - m) * (y - m))%Q (repeat x k))). rewrite IH, Em. ring. }
    rewrite Es. unfold Qdiv. ring. }
  destruct (5 * ps_lambda s) as [|n] eqn:En; [lia|]. rewrite Hs, ps_run_snoc.
  rewrite ps_run_short by (rewrite Hr, repeat_length; cbn [length]; lia).
  rewrite Hr. cbn [app]. unfold ps_add. cbn [ps_lambda ps_mu ps_record ps_min_mu ps_workers].
  rewrite <- Hs, repeat_length. rewrite (proj2 (Nat.leb_le _ _)) by lia.
  destruct (1 <? ps_workers s) eqn:W; [apply Nat.ltb_lt in W; lia|]. cbn [ps_mu].
  destruct (no_progress _ _ _) eqn:E; [|reflexivity]. exfalso.
  assert (E1 : firstn (ps_lambda s) (repeat x (S n)) = repeat x (ps_lambda s)).
  { replace (S n) with (ps_lambda s + 4 * ps_lambda s) by lia. rewrite repeat_app.
    rewrite firstn_app, repeat_length, Nat.sub_diag, firstn_O, app_nil_r.
    apply firstn_all2. rewrite repeat_length. lia. }
  assert (E2 : lastn (ps_lambda s) (repeat x (S n)) = repeat x (ps_lambda s)).
  { unfold lastn. rewrite repeat_length. replace (S n) with (4 * ps_lambda s + ps_lambda s) by lia.
    rewrite repeat_app. replace (4 * ps_lambda s + ps_lambda s - ps_lambda s) with (length (repeat x (4 * ps_lambda s)))
      by (rewrite repeat_length; lia).
    rewrite skipn_app, skipn_all, Nat.sub_diag. reflexivity. }
  rewrite E1, E2 in E.
  apply no_progress_flat in E; [|exact Hl|apply Hv; lia|apply Hv; lia].
  rewrite !Hm in E by lia. exact (Qlt_irrefl _ E).
Qed.

(** [initial_popsize] is documented as "initial (and minimal) population size"; it is not minimal when
    it is larger than the dimension. *)
Theorem C67_minimal_refuted :
  exists mu0 dimension losses, 1 <= dimension /\ 1 <= mu0 /\
    ps_mu (ps_run (ps_init (4 * mu0) mu0 dimension 1) losses) < mu0.
Proof.
  exists 2, 1, (map (fun i => (100 - qnat i)%Q) (seq 0 40)).
  split; [lia|]. split; [lia|]. vm_compute. lia.
Qed.

(** the sizes do change: doubling without progress, shrinking with progress, workers *)
Example C67_sizes_example :
  let dec := map (fun i => (100 - qnat i)%Q) (seq 0 60) in
  let up := map (fun i => qnat i) (seq 0 60) in
  ps_mu (ps_run (ps_init 12 3 10 1) up) = 6 /\ ps_lambda (ps_run (ps_init 12 3 10 1) up) = 24 /\
  ps_mu (ps_run (ps_init 12 3 2 1) dec) = 2 /\ ps_lambda (ps_run (ps_init 12 3 2 1) dec) = 8 /\
  ps_mu (ps_run (ps_init 12 3 10 1) dec) = 3 /\
  ps_lambda (ps_run (ps_init 12 3 2 11) dec) = 11 /\ ps_mu (ps_run (ps_init 12 3 2 11) dec) = 2 /\
  ps_lambda (ps_run (ps_init 12 3 2 50) dec) = 50.
Proof. vm_compute. repeat split; reflexivity. Qed.

(** ** Generations of TBPSA *)

(** After any sequence of asks and tells (also of points which were not asked), there is a parent to take
    the heritage from, and fewer children than the population size are waiting. *)
Theorem C67_no_error_at_ask dimension mu0 workers ops num_ask : 1 <= mu0 -> 1 <= dimension ->
  let s := tb_run dimension (tb_init dimension mu0 workers) ops in
  (exists p, tb_parent num_ask s = Ok p /\ In p (tb_parents s)) /\
  length (tb_children s) < ps_lambda (tb_pop s).
Proof.
  intros H0 Hd s. destruct (tb_run_inv dimension mu0 workers H0 Hd ops) as (Hp & Hpar & Hch).
  fold s in Hp, Hpar, Hch. split; [|exact Hch].
  unfold tb_parent. destruct (tb_parents s) as [|p l] eqn:E; [congruence|].
  change (length (p :: l) =? 0) with false. cbn iota.
  assert (Hm : num_ask mod length (p :: l) < length (p :: l)) by (apply Nat.mod_upper_bound; discriminate).
  destruct (nth_error (p :: l) (num_ask mod length (p :: l))) eqn:En.
  - exists o. split; [reflexivity|]. eapply nth_error_In. exact En.
  - apply nth_error_None in En. lia.
Qed.

(** A tell either adds a child, or completes a generation: the parents become the best children (as many as
    the current number of parents), the centre (the recommendation for noisy problems) is their mean and the
    children are forgotten. *)
Theorem C67_generation dimension mu0 workers ops c loss : 1 <= mu0 -> 1 <= dimension ->
  let s := tb_run dimension (tb_init dimension mu0 workers) ops in
  let s' := fst (tb_tell c loss s) in
  if length (tb_children s) + 1 <? ps_lambda (tb_pop s')
  then tb_children s' = tb_children s ++ [c] /\ tb_center s' = tb_center s /\
       tb_sigma s' = tb_sigma s /\ tb_parents s' = tb_parents s
  else tb_children s' = [] /\
       exists best, tb_parents s' = map Some best /\
         mu_best (ps_mu (tb_pop s')) (tb_children s ++ [c]) best /\ is_mean best (tb_center s').
Proof.
  intros H0 Hd s.
  assert (E : tb_pop (fst (tb_tell c loss s)) = ps_add loss (tb_pop s)).
  { unfold tb_tell. destruct (_ <=? _); [|reflexivity]. destruct (sigmas_of _); reflexivity. }
  assert (G := tb_tell_generation dimension mu0 workers H0 Hd c loss s
                 (tb_run_inv dimension mu0 workers H0 Hd ops)).
  cbn zeta in G |- *. rewrite <- E in G. exact G.
Qed.

(** As long as no candidate comes from the constraint solver and no point equal to the centre is told without
    having been asked, the step size stays positive and no tell raises. *)
Theorem C67_moving dimension mu0 workers s o : 1 <= mu0 -> 1 <= dimension ->
  moving_reach dimension (tb_init dimension mu0 workers) s -> moving_op dimension s o ->
  (0 < tb_sigma s)%R /\ snd (tb_step dimension s o) = Ok tt.
Proof.
  intros H0 Hd R Ho.
  assert (P : pos_inv s).
  { clear Ho. induction R as [|s1 o1 R IH Ho1].
    - repeat split; cbn; try lra; intros c [].
    - exact (proj1 (tb_step_pos dimension mu0 H0 Hd _ _ IH Ho1)). }
  split; [apply P|]. exact (proj2 (tb_step_pos dimension mu0 H0 Hd _ _ P Ho)).
Qed.

Lemma C67_freeze_example :
  exists ops, let s := tb_run 1 (tb_init 1 1 1) ops in
    tb_sigma s = 0%R /\ (forall i, tb_center s i = 0%R) /\ tb_pending s = [] /\ tb_children s = [].
Proof.
  exists [TInject (fun _ => 0%R) 0 0;
          TAsk 0 (fun _ => 1%R); TTell 0 1 1; TAsk 0 (fun _ => 1%R); TTell 0 1 1; TAsk 0 (fun _ => 1%R); TTell 0 1 1].
  cbv -[Rplus Rmult Rdiv Rminus Rinv Ropp exp sqrt ln INR geometric guessed_sigma center_of R0 R1 IZR].
  split; [|split; [|split; reflexivity]].
  - apply geometric_zero. left. apply (guessed_zero 1 1); try lia. reflexivity.
  - intros i. unfold center_of, rsum. cbn. lra.
Qed.

(** It does happen that the step size becomes zero: if the user tells (or suggests) the initial point and it is
    the best of its generation, then every candidate asked later is this point, for ever. *)
Theorem C67_frozen_refuted :
  exists ops, let s := tb_run 1 (tb_init 1 1 1) ops in
    forall later g gs i, (forall o, In o later -> plain_op o) ->
    cd_data (tb_propose 1 g gs (tb_run 1 s later)) i = 0%R.
Proof.
  destruct C67_freeze_example as (ops & H1 & H2 & H3 & H4). exists ops. cbn zeta.
  intros later g gs i Hl.
  destruct (tb_run_frozen 1 1 1 ltac:(lia) ltac:(lia) (fun _ => 0%R) later (tb_run 1 (tb_init 1 1 1) ops)) as (F1 & F2 & _).
  - apply tb_run_inv; lia.
  - split; [exact H1|]. split; [exact H2|]. split; [rewrite H3|rewrite H4]; intros c [].
  - exact Hl.
  - unfold tb_propose. cbn [cd_data]. rewrite F1, F2. lra.
Qed.

(** A candidate repaired by the constraint solver has no step size: if it is among the best of its generation,
    the tell which completes the generation raises a KeyError. *)
Theorem C67_solver_refuted :
  exists ops l0 l, let s := tb_run 1 (tb_init 1 1 1) ops in
    snd (tb_step 1 s (TTell 0 l0 l)) = Err KeyError.
Proof.
  exists [TAskSolved (fun _ => 0%R); TTell 0 0 0;
          TAsk 0 (fun _ => 1%R); TTell 0 1 1; TAsk 0 (fun _ => 1%R); TTell 0 1 1; TAsk 0 (fun _ => 1%R)], 1%Q, 1%Q.
  cbv -[Rplus Rmult Rdiv Rminus Rinv Ropp exp sqrt ln INR geometric guessed_sigma center_of R0 R1 IZR].
  reflexivity.
Qed.

(** ** EDA *)

(** The covariance of the estimation of distribution algorithms is always symmetric and positive semi-definite,
    whatever is told. *)
Theorem C67_covariance adaptation memory dimension workers tells n :
  let s := ed_run adaptation memory (ed_init dimension workers) tells in
  symmetric (ed_cov s) /\ psd n (ed_cov s).
Proof.
  cbn zeta. unfold ed_run. induction tells as [|t tells IH] using rev_ind.
  - split; [apply identity_symmetric|apply identity_psd].
  - rewrite fold_left_app. cbn [fold_left]. apply ed_tell_cov. exact IH.
Qed.

(** When every candidate told has a step size, no tell raises, and each either adds a child or completes a
    generation as for TBPSA. *)
Theorem C67_eda_generation adaptation memory dimension workers tells c loss : 1 <= dimension ->
  (forall t, In t tells -> cd_sigma (ch_cand (fst t)) <> None) -> cd_sigma (ch_cand c) <> None ->
  let s := ed_run adaptation memory (ed_init dimension workers) tells in
  let s' := fst (ed_tell adaptation memory c loss s) in
  snd (ed_tell adaptation memory c loss s) = Ok tt /\
  length (ed_children s') < ps_lambda (ed_pop s') /\
  (ed_children s' = ed_children s ++ [c] /\ ed_center s' = ed_center s /\ ed_cov s' = ed_cov s /\
   ed_parents s' = ed_parents s \/
   ed_children s' = [] /\
   exists best, ed_parents s' = map Some best /\
     mu_best (ps_mu (ed_pop s')) (ed_children s ++ [c]) best /\ is_mean best (ed_center s')).
Proof.
  intros Hd Ht Hc. cbn zeta.
  assert (Hi : ed_inv dimension dimension workers (ed_run adaptation memory (ed_init dimension workers) tells)).
  { unfold ed_run. induction tells as [|t tells IH] using rev_ind.
    - pose proof (ps_init_inv dimension dimension workers Hd) as Hp. split; [exact Hp|].
      split; [cbn; lia|intros d []].
    - rewrite fold_left_app. cbn [fold_left]. apply ed_tell_generation; try assumption.
      + apply IH. intros t' H. apply Ht. apply in_or_app. left. exact H.
      + apply Ht. apply in_or_app. right. left. reflexivity. }
  destruct (ed_tell_generation adaptation memory dimension dimension workers c loss _ Hd Hd Hi Hc) as (E & Hi' & G).
  split; [exact E|]. split; [apply Hi'|exact G].
Qed.

(** If a candidate without step size (repaired by the constraint solver) is the best of its generation, then (without
    population size adaptation) this tell and all the later ones raise a KeyError, as long as nothing better is told. *)
Theorem C67_eda_stuck_refuted memory dimension workers : 1 <= dimension ->
  exists tells, let s := ed_run false memory (ed_init dimension workers) tells in
  forall later c l, (forall t, In t later -> (0 <= ch_loss (fst t))%Q) -> (0 <= ch_loss c)%Q ->
  snd (ed_tell false memory c l (ed_run false memory s later)) = Err KeyError.
Proof.
  intros Hd.
  set (bad := Child (Cand (fun _ => 0%R) None) 0).
  set (good := Child (Cand (fun _ => 0%R) (Some 1%R)) 0).
  set (lam := Nat.max (4 * dimension) workers).
  exists ((bad, 0%Q) :: repeat (good, 0%Q) (lam - 2)).
  assert (Hlam : 2 <= lam) by (unfold lam; lia).
  (* the children of such states: [bad] first, none better *)
  set (stuck := fun (n : nat) (s : eda) =>
    ps_lambda (ed_pop s) = lam /\ ps_mu (ed_pop s) = dimension /\ n <= length (ed_children s) /\
    exists m, ed_children s = bad :: m /\ forall d, In d m -> (0 <= ch_loss d)%Q).
  assert (Hstep : forall n s c l, stuck n s -> (0 <= ch_loss c)%Q ->
            stuck (S n) (fst (ed_tell false memory c l s)) /\
            (lam <= S n -> snd (ed_tell false memory c l s) = Err KeyError)).
  { intros n s c l (S1 & S2 & S3 & m & S4 & S5) Hc. unfold ed_tell. cbn iota. rewrite S1, S2.
    rewrite app_length; cbn [length].
    assert (Hm : forall d, In d (m ++ [c]) -> (0 <= ch_loss d)%Q).
    { intros d Hin. apply in_app_or in Hin. destruct Hin as [Hin|[<-|[]]]; [apply S5; exact Hin|exact Hc]. }
    assert (Es : ch_sort (ed_children s ++ [c]) = bad :: ch_sort (m ++ [c])).
    { rewrite S4. cbn [app]. apply ch_sort_head. intros d Hin. cbn [ch_loss bad]. apply Hm. exact Hin. }
    destruct (lam <=? length (ed_children s) + 1) eqn:E.
    - rewrite Es. rewrite (sigmas_of_err _ bad).
      + cbn [fst snd]. split; [|intros _; reflexivity].
        split; [exact S1|]. split; [exact S2|]. cbn [ed_children]. split.
        * cbn [length]. rewrite ch_sort_length, app_length. cbn [length]. rewrite S4 in S3. cbn [length] in S3. lia.
        * exists (ch_sort (m ++ [c])). split; [reflexivity|]. intros d Hin. apply Hm.
          apply (Permutation_in _ (ch_sort_perm _)). exact Hin.
      + destruct dimension as [|k]; [lia|]. left. reflexivity.
      + reflexivity.
    - apply Nat.leb_gt in E. split; [|intros H; lia].
      split; [exact S1|]. split; [exact S2|]. cbn [fst ed_children]. split; [rewrite app_length; cbn [length]; lia|].
      exists (m ++ [c]). split; [rewrite S4; reflexivity|exact Hm]. }
  assert (Hrun : forall later n s, stuck n s -> (forall t, In t later -> (0 <= ch_loss (fst t))%Q) ->
            stuck (n + length later) (ed_run false memory s later)).
  { induction later as [|t later IH]; intros n s Hs Ht; [rewrite Nat.add_0_r; exact Hs|].
    unfold ed_run. cbn [fold_left length]. rewrite Nat.add_succ_r. apply (IH (S n)).
    - apply Hstep; [exact Hs|]. apply Ht. left. reflexivity.
    - intros t' H. apply Ht. right. exact H. }
  assert (H1 : stuck 1 (fst (ed_tell false memory bad 0 (ed_init dimension workers)))).
  { unfold ed_tell. cbn [ed_init ed_pop ed_children app length ps_init ps_lambda].
    change (Nat.max (4 * dimension) workers) with lam.
    rewrite (proj2 (Nat.leb_gt _ _)) by lia.
    split; [reflexivity|]. split; [reflexivity|]. split; [cbn; lia|].
    exists []. split; [reflexivity|]. intros d []. }
  cbn zeta. intros later c l Hl Hc.
  assert (Hs : stuck (lam - 1) (ed_run false memory (ed_init dimension workers) ((bad, 0%Q) :: repeat (good, 0%Q) (lam - 2)))).
  { unfold ed_run. cbn [fold_left fst snd].
    replace (lam - 1) with (1 + length (repeat (good, 0%Q) (lam - 2))) by (rewrite repeat_length; lia).
    apply (Hrun _ 1 _ H1). intros t Ht. apply repeat_spec in Ht. subst t. cbn. discriminate. }
  pose proof (Hrun later _ _ Hs Hl) as Hs'.
  eapply (Hstep _ _ c l Hs' Hc). lia.
Qed.

(** a reachable state with a moving step size, and a completed generation *)
Example C67_moving_example :
  let s := tb_run 1 (tb_init 1 1 1)
    [TAsk 0 (fun _ => 3%R); TTell 0 1 1; TAsk 0 (fun _ => 1%R); TTell 0 0 0; TAsk 0 (fun _ => 1%R); TTell 0 2 2;
     TAsk 0 (fun _ => 1%R); TTell 0 3 3] in
  tb_children s = [] /\ tb_center s 0 = 1%R /\ moving_reach 1 (tb_init 1 1 1) s.
Proof.
  cbn zeta. split; [reflexivity|]. split.
  - cbv -[Rplus Rmult Rdiv Rminus Rinv Ropp exp sqrt ln INR geometric guessed_sigma R0 R1 IZR].
    cbn [INR]. unfold Rdiv. rewrite Rinv_1, sqrt_1. rewrite Rinv_1, Rmult_0_l, exp_0. lra.
  - unfold tb_run.
    cbn [fold_left].
    repeat (apply moving_step; [|exact I]). apply moving_start.
Qed.

Print Assumptions C67_sizes.
Print Assumptions C67_growth.
Print Assumptions C67_test.
Print Assumptions C67_constant_losses.
Print Assumptions C67_minimal_refuted.
Print Assumptions C67_no_error_at_ask.
Print Assumptions C67_generation.
Print Assumptions C67_moving.
Print Assumptions C67_frozen_refuted.
Print Assumptions C67_solver_refuted.
Print Assumptions C67_covariance.
Print Assumptions C67_eda_generation.
Print Assumptions C67_eda_stuck_refuted.

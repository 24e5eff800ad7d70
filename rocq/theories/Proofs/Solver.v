From Coq Require Import List Arith QArith Bool Lia Lqa.
From Verif.Model Require Import Prelude MultiValue Archive Solver.
From Verif.Spec Require Import MultiValue Pruning Archive Solver.
From Verif.Proofs Require Import Prelude MultiValue Pruning Archive.
Import ListNotations.
Open Scope nat_scope.

Lemma penalty_of_pos a : (0 <= penalty_of a)%Q.
Proof. destruct a as [[]|q]; cbn [penalty_of]; try lra. unfold qmin. destruct (qlt q 0) eqn:E; [apply qlt_iff in E|]; lra. Qed.
Lemma penalty_of_zero a : (penalty_of a <= 0)%Q <-> accepts a.
Proof. destruct a as [[]|q]; cbn [penalty_of accepts]; [split; [reflexivity|lra]|split; [lra|discriminate]|]. unfold qmin. destruct (qlt q 0) eqn:E; [apply qlt_iff in E|apply qlt_false in E]; split; lra. Qed.
Lemma penalty_from (checkers : list (nat -> answer)) (key : nat) : forall a, (a <= fold_left (fun a f => a + penalty_of (f key))%Q checkers a)%Q.
Proof. induction checkers as [|f fs IH]; intros a; cbn [fold_left]; [lra|]. specialize (IH (a + penalty_of (f key))%Q). pose proof (penalty_of_pos (f key)). lra. Qed.
Lemma penalty_pos checkers key : (0 <= penalty checkers key)%Q.
Proof. apply (penalty_from checkers key 0%Q). Qed.
Lemma penalty_feasible checkers key : (penalty checkers key <= 0)%Q <-> feasible checkers key.
Proof.
  unfold penalty, feasible. assert (K : forall a, (0 <= a)%Q -> (fold_left (fun a f => a + penalty_of (f key))%Q checkers a <= 0)%Q <-> (a <= 0)%Q /\ forall f, In f checkers -> accepts (f key)).
  { induction checkers as [|f fs IH]; intros a Ha; cbn [fold_left]; [split; [intros H; split; [exact H|intros ? []]|tauto]|].
    pose proof (penalty_of_pos (f key)) as Pf. rewrite IH by lra. split.
    - intros (A & B). split; [lra|]. intros g [<-|Hg]; [apply penalty_of_zero; lra|auto].
    - intros (A & B). split; [|intros g Hg; apply B; now right]. pose proof (proj2 (penalty_of_zero (f key)) (B f (or_introl eq_refl))). lra. }
  rewrite K by lra. split; [tauto|intros H; split; [lra|exact H]].
Qed.
Lemma hget_in h i : i < length h -> In (hget h i) h.
Proof. apply nth_In. Qed.
Lemma arch_run_snoc msqrt pruning s l t : arch_run msqrt pruning s (l ++ [t]) = fst (arch_tell msqrt pruning (arch_run msqrt pruning s l) t).
Proof. revert s. induction l as [|x l IH]; intros s; [reflexivity|]. exact (IH _). Qed.
Lemma tell_new msqrt pruning s c key y : dget key (st_archive s) = None ->
  let s' := fst (arch_tell msqrt pruning s (c, key, y)) in
  st_heap s' = st_heap s ++ [mv_new c y] /\ forall n, st_bests s' n = best_update msqrt (st_heap s ++ [mv_new c y]) (st_archive s ++ [(key, length (st_heap s))]) false (length (st_heap s)) n (st_bests s n).
Proof.
  intros E. unfold arch_tell, update_archive, archive_put. cbn [st_archive st_heap st_bests st_loss]. rewrite E. destruct (pruning _ _); cbn; split; auto.
Qed.
(** every object of the heap satisfies a property kept by evaluations *)
Lemma tell_heap msqrt pruning (P : mv -> Prop) s c key y : (forall p, In p (st_archive s) -> snd p < length (st_heap s)) -> P (mv_new c y) -> (forall m, P m -> dget key (st_archive s) <> None -> P (mv_add msqrt y m) /\ P (MV (mv_count (mv_add msqrt y m)) (mv_mean (mv_add msqrt y m)) (mv_min (mv_add msqrt y m)) (mv_square (mv_add msqrt y m)) (mv_var (mv_add msqrt y m)) c)) ->
  Forall P (st_heap s) -> Forall P (st_heap (fst (arch_tell msqrt pruning s (c, key, y)))).
Proof.
  intros V Hn Ha F. assert (K : st_heap (fst (arch_tell msqrt pruning s (c, key, y))) = fst (fst (fst (archive_put msqrt c key y (ArchSt (st_heap s) (st_archive s) (st_bests s) (dset c y (st_loss s))))))).
  { unfold arch_tell, update_archive. destruct (archive_put msqrt c key y _) as [[[h a] id] re]. destruct (pruning h a); reflexivity. }
  rewrite K. unfold archive_put. cbn [st_archive st_heap st_bests st_loss]. destruct (dget key (st_archive s)) as [id|] eqn:D; [|cbn [fst]; apply Forall_app; auto].
  assert (Hid : id < length (st_heap s)) by exact (V (key, id) (dget_some_in _ _ _ D)). assert (Pm : P (hget (st_heap s) id)) by (rewrite Forall_forall in F; apply F, hget_in, Hid).
  destruct (Ha _ Pm) as (A1 & A2); [discriminate|]. cbn [fst].
  assert (Hs : forall (h : list mv) i m, Forall P h -> P m -> Forall P (hset h i m)).
  { clear. induction h as [|x h IH]; intros [|i] m Fh Pm; cbn [hset]; inversion Fh; subst; try constructor; auto. }
  apply Hs; [exact F|]. set (m := mv_add msqrt y (hget (st_heap s) id)) in *. destruct (dget (mv_param m) _); [|exact A1]. destruct (dget c _); [|exact A1]. destruct (qlt _ _); [exact A2|exact A1].
Qed.
(** the archive only contains points which were told *)
Lemma archive_keys msqrt pruning : sub_pruning pruning -> forall hist k id, dget k (st_archive (arch_run msqrt pruning arch_init hist)) = Some id -> In k (map t_key hist).
Proof.
  intros Hp. induction hist as [|[[c key] y] hist IH] using rev_ind; [intros k id H; discriminate H|]. intros k id. rewrite arch_run_snoc, map_app, in_app_iff.
  set (s := arch_run msqrt pruning arch_init hist) in *. intros D. apply dget_some_in in D.
  assert (K : In (k, id) (snd (fst (fst (archive_put msqrt c key y (ArchSt (st_heap s) (st_archive s) (st_bests s) (dset c y (st_loss s)))))))).
  { revert D. unfold arch_tell, update_archive. destruct (archive_put msqrt c key y _) as [[[h a] id'] re]. destruct (pruning h a) as [a'|e] eqn:P; cbn [fst snd st_archive]; [|auto]. intros D. exact (sublist_in _ _ _ (Hp _ _ _ P) D). }
  revert K. unfold archive_put. cbn [st_archive st_heap st_bests st_loss]. destruct (dget key (st_archive s)) as [i|] eqn:E; cbn [fst snd].
  - intros K. left. assert (Dk : dget k (st_archive s) <> None) by (intros N; apply dget_none in N; apply N; apply (in_map fst) in K; exact K). destruct (dget k (st_archive s)) as [i'|] eqn:E'; [exact (IH k i' E')|contradiction].
  - intros K. apply in_app_iff in K. destruct K as [K|[[= <- <-]|[]]]; [|right; now left]. left. assert (Dk : dget k (st_archive s) <> None) by (intros N; apply dget_none in N; apply N; apply (in_map fst) in K; exact K). destruct (dget k (st_archive s)) as [i'|] eqn:E'; [exact (IH k i' E')|contradiction].
Qed.
Section Loop.
  Variable checkers : list (nat -> answer).
  Variable distance : nat -> Q.
  Variable propose : list (nat * nat * Q) -> nat * nat.
  Notation loop := (solver_loop checkers distance propose).
  Notation pen := (penalty checkers).
  Notation loss := (solver_loss checkers distance).
  (** The told points: the loss of each, all unfeasible but maybe the last one *)
  Lemma loop_shape : forall budget hist, exists new, loop budget hist = hist ++ new /\ length new <= budget /\
    Forall (fun t => t_loss t = loss (t_key t)) new /\
    ((length new = budget /\ Forall (fun t => ~ (pen (t_key t) <= 0)%Q) new) \/ (exists new' t, new = new' ++ [t] /\ Forall (fun t => ~ (pen (t_key t) <= 0)%Q) new' /\ (pen (t_key t) <= 0)%Q)).
  Proof.
    induction budget as [|n IH]; intros hist; cbn [solver_loop]; [exists []; rewrite app_nil_r; cbn; repeat split; auto|].
    destruct (propose hist) as (c, key) eqn:P. destruct (qle (pen key) 0) eqn:E.
    - apply qle_iff in E. exists [(c, key, loss key)]. split; [reflexivity|]. split; [cbn; lia|]. split; [constructor; [reflexivity|constructor]|]. right. exists [], (c, key, loss key). auto.
    - assert (N : ~ (pen key <= 0)%Q) by (apply qle_false in E; lra). destruct (IH (hist ++ [(c, key, loss key)])) as (new & E1 & L & F & D). exists ((c, key, loss key) :: new). rewrite E1, <- app_assoc. split; [reflexivity|]. split; [cbn; lia|]. split; [constructor; [reflexivity|exact F]|].
      destruct D as [(D1 & D2)|(new' & t & D1 & D2 & D3)]; [left; split; [cbn; lia|constructor; [exact N|exact D2]]|right; exists ((c, key, loss key) :: new'), t; split; [cbn; now rewrite D1|split; [constructor; [exact N|exact D2]|exact D3]]].
  Qed.
  (** the candidates of the inner optimizer are new objects *)
  Hypothesis Hfresh : forall h, ~ In (fst (propose h)) (map t_cand h).
  Lemma loop_distinct : forall budget hist, NoDup (map t_cand hist) -> NoDup (map t_cand (loop budget hist)).
  Proof.
    induction budget as [|n IH]; intros hist ND; cbn [solver_loop]; [exact ND|]. pose proof (Hfresh hist) as Fr. destruct (propose hist) as (c, key). cbn [fst] in Fr.
    assert (ND' : NoDup (map t_cand (hist ++ [(c, key, loss key)]))) by (rewrite map_app; apply NoDup_app_snoc; auto). destruct (qle _ _); [exact ND'|apply IH, ND'].
  Qed.
  Lemma find_cand (l : list told) t : NoDup (map t_cand l) -> In t l -> find (fun t0 => fst (fst t0) =? t_cand t) l = Some t.
  Proof.
    induction l as [|x l IH]; intros ND I; [destruct I|]. cbn [map] in ND. inversion ND as [|? ? Nx ND']; subst. cbn [find]. fold (t_cand x). destruct (Nat.eqb_spec (t_cand x) (t_cand t)) as [E|E].
    - destruct I as [->|I]; [reflexivity|]. exfalso. apply Nx. rewrite E. now apply in_map.
    - destruct I as [->|I]; [congruence|]. apply IH; auto.
  Qed.
  Hypothesis Hdist : forall key, (0 <= distance key <= 1)%Q.
  Lemma loss_feasible key : (pen key <= 0)%Q -> (loss key <= 1)%Q.
  Proof. intros H. unfold solver_loss. apply qle_iff in H. rewrite H. apply Hdist. Qed.
  Lemma loss_unfeasible key : ~ (pen key <= 0)%Q -> loss key = (pen key + distance key + 1)%Q /\ (1 < loss key)%Q.
  Proof. intros H. unfold solver_loss. destruct (qle (pen key) 0) eqn:E; [apply qle_iff in E; contradiction|]. split; [reflexivity|]. pose proof (Hdist key). apply qle_false in E. lra. Qed.

  Variable msqrt : Q -> Q.
  Variable pruning : list mv -> list (nat * nat) -> result (list (nat * nat)).
  Hypothesis Hprune : sub_pruning pruning.
  Notation run := (arch_run msqrt pruning arch_init).
  Lemma run_valid hist : inv8 msqrt (run hist).
  Proof. apply inv8_run; [exact Hprune|apply inv8_init]. Qed.
  Lemma heap_min hist : Forall (fun t => (1 < t_loss t)%Q) hist -> Forall (fun m => (1 < mv_min m)%Q) (st_heap (run hist)).
  Proof.
    induction hist as [|[[c key] y] hist IH] using rev_ind; intros F; [constructor|]. apply Forall_app in F. destruct F as (F & Fy). inversion Fy as [|? ? Hy _]; subst. cbn in Hy. rewrite arch_run_snoc.
    assert (Hc : (1 < mv_clip y)%Q) by (unfold mv_clip, big; destruct (qlt 10000000000 y) eqn:E1; [lra|]; destruct (qlt y (- (10000000000))) eqn:E2; [apply qlt_iff in E2; lra|exact Hy]).
    apply tell_heap; [exact (i8_arch _ _ (run_valid hist))|exact Hy| |exact (IH F)]. intros m Hm _.
    assert (K : (1 < mv_min (mv_add msqrt y m))%Q) by (cbn; unfold qmin; destruct (qlt _ _); assumption). split; [exact K|exact K].
  Qed.
  Lemma heap_once hist : NoDup (map t_key hist) -> Forall (fun t => (1 < t_loss t)%Q) hist -> Forall (fun m => exists c y, m = mv_new c y /\ (1 < y)%Q) (st_heap (run hist)).
  Proof.
    induction hist as [|[[c key] y] hist IH] using rev_ind; intros ND F; [constructor|]. apply Forall_app in F. destruct F as (F & Fy). inversion Fy as [|? ? Hy _]; subst. cbn in Hy. rewrite arch_run_snoc.
    rewrite map_app in ND. cbn [map] in ND. apply NoDup_remove in ND. rewrite app_nil_r in ND. destruct ND as (ND & Nk).
    apply tell_heap; [exact (i8_arch _ _ (run_valid hist))|exists c, y; auto| |exact (IH ND F)]. intros m Hm D. exfalso. destruct (dget key (st_archive (run hist))) as [i|] eqn:E; [|contradiction]. apply Nk. exact (archive_keys msqrt pruning Hprune hist key i E).
  Qed.
  (** a feasible point is recommended as soon as it is told *)
  Lemma found_recommended deterministic hist t : Forall (fun t => ~ (pen (t_key t) <= 0)%Q) hist -> (pen (t_key t) <= 0)%Q -> Forall (fun t => t_loss t = loss (t_key t)) (hist ++ [t]) ->
    (deterministic = true \/ NoDup (map t_key hist)) -> arch_recommend deterministic (run (hist ++ [t])) = Some (t_cand t).
  Proof.
    intros F Ft FL D. apply Forall_app in FL. destruct FL as (FL & FLt). inversion FLt as [|? ? Ht _]; subst.
    assert (F1 : Forall (fun t => (1 < t_loss t)%Q) hist) by (rewrite Forall_forall in *; intros u Hu; rewrite (FL u Hu); now apply loss_unfeasible, F).
    assert (Ht1 : (t_loss t <= 1)%Q) by (rewrite Ht; now apply loss_feasible).
    assert (New : dget (t_key t) (st_archive (run hist)) = None).
    { destruct (dget _ _) as [i|] eqn:E; [|reflexivity]. apply (archive_keys msqrt pruning Hprune) in E. apply in_map_iff in E. destruct E as (u & Eu & Hu). rewrite Forall_forall in F. exfalso. apply (F u Hu). now rewrite Eu. }
    rewrite arch_run_snoc. destruct t as [[c key] y]. cbn [t_key t_cand t_loss fst snd] in *. destruct (tell_new msqrt pruning (run hist) c key y New) as (Hh & Hb). unfold arch_recommend. rewrite Hb, Hh.
    assert (K : best_update msqrt (st_heap (run hist) ++ [mv_new c y]) (st_archive (run hist) ++ [(key, length (st_heap (run hist)))]) false (length (st_heap (run hist)))
       (if deterministic then Minimum else Pessimistic) (st_bests (run hist) (if deterministic then Minimum else Pessimistic)) = Some (length (st_heap (run hist)))).
    { unfold best_update. destruct (st_bests _ _) as [b|] eqn:B; [|reflexivity]. cbn [andb]. pose proof (i8_bests _ _ (run_valid hist) _ _ B) as Lb. rewrite hget_new, hget_old by exact Lb. pose proof (hget_in _ _ Lb) as Ib.
      destruct (qle _ _) eqn:Q0; [reflexivity|]. apply qle_false in Q0. exfalso. destruct deterministic.
      - pose proof (heap_min hist F1) as M. rewrite Forall_forall in M. specialize (M _ Ib). cbn [mv_est mv_new mv_min] in Q0. cbn in M. lra.
      - destruct D as [D|D]; [discriminate|]. pose proof (heap_once hist D F1) as M. rewrite Forall_forall in M. destruct (M _ Ib) as (c' & y' & Em & Hy'). rewrite Em in Q0. cbn [mv_est] in Q0. unfold mv_pessimistic, mv_width in Q0. cbn [mv_new mv_mean mv_var mv_count] in Q0. lra. }
    rewrite K, hget_new. reflexivity.
  Qed.
End Loop.

(** C78: metamodels *)
From Coq Require Import List Arith Lia QArith Lqa Bool Permutation Sorted.
From Verif.Model Require Import Prelude MultiValue Nsga2 MetaModel.
From Verif.Spec Require Import Spsa Cma MetaModel.
From Verif.Proofs Require Import MultiValue Cma MetaModel.
Import ListNotations.
Open Scope nat_scope.

(** A proposal lies in the ball around the mean of the [k] best points whose radius is (but for 1e-15) the distance
    between the best and the worst of them. *)
Theorem C78_trust_region : forall root fit argsort minimise archive k d x, 0 < k ->
  (forall b, In b archive -> length (i_x b) = d) -> (forall f m, minimise f = Ok m -> length m = d) ->
  learn_on_k_best root fit argsort minimise archive k = Proposed x ->
  exists best first worst middle, k_best k i_average archive best /\ length best = k /\ extremes best first worst /\
    mean_of d (map i_x best) middle /\ length x = d /\
    exists radius r2, (radius == (1 / inject_Z (10 ^ 15)) + root r2)%Q /\ (r2 == dist2 (i_x worst) (i_x first))%Q /\
      (dist2 x middle <= radius * radius)%Q.
Proof.
  intros root fit argsort minimise archive k d x K P Hm H.
  apply learn_inv in H as (best & y & m & predict & Eb & Lb & _ & _ & _ & _ & Em & _ & B & ->).
  pose proof (k_best_sort item i_average k archive) as KB. rewrite <- Eb in KB.
  assert (Pb : forall b, In b best -> length (i_x b) = d).
  { intros b Hb. apply P. destruct KB as (_ & rest & Perm & _). eapply Permutation_in; [exact Perm|]. apply in_or_app. left. exact Hb. }
  assert (S : StronglySorted (fun a b => (i_average a <= i_average b)%Q) best).
  { rewrite Eb. apply firstn_sorted. apply sort_sorted. }
  destruct best as [|b0 best]; [cbn in Lb; lia|]. pose proof (middle_mean d k (b0 :: best) Lb K Pb) as Mm.
  exists (b0 :: best), b0, (last (b0 :: best) b0), (middle_of k (b0 :: best)).
  pose proof (proj1 Mm) as Lm. specialize (Hm predict m Em).
  split; [exact KB|]. split; [exact Lb|]. split; [apply extremes_sorted; exact S|]. split; [exact Mm|].
  split; [rewrite vadd_length, vscale_length; lia|].
  eexists _, _. split; [reflexivity|]. split; [apply sumsq_vsub|].
  rewrite dist2_move by congruence. unfold normalization_of. set (r := (1 / inject_Z (10 ^ 15) + root _)%Q).
  pose proof (sumsq_nonneg m) as N. 
  assert (0 <= r * r)%Q by (destruct (Qlt_le_dec r 0); [setoid_replace (r * r)%Q with ((- r) * (- r))%Q by ring|]; apply Qmult_le_0_compat; lra).
  setoid_replace (r * r)%Q with (1 * (r * r))%Q at 2 by ring. rewrite (Qmult_comm (r * r)). apply Qmult_le_compat_r; assumption.
Qed.
Print Assumptions C78_trust_region.

(** A proposal is made only if the regression ranks the [k] best points as their losses do, and predicts at the proposal
    at most the (normalised) loss of the first of them. *)
Theorem C78_ranked : forall root fit argsort minimise archive k d x, 0 < k -> (forall q, 0 <= root q)%Q -> sorting argsort ->
  (forall b, In b archive -> length (i_x b) = d) -> (forall f m, minimise f = Ok m -> length m = d) ->
  learn_on_k_best root fit argsort minimise archive k = Proposed x ->
  exists best middle nrm view predict (z : list Q) first lo hi, k_best k i_average archive best /\ mean_of d (map i_x best) middle /\ (0 < nrm)%Q /\
    (forall b, In b best -> seen middle nrm (i_x b) (view (i_x b))) /\ seen middle nrm x z /\
    predict = fit (map view (map i_x best)) (map (fun b => (i_pessimistic b - lo) / (hi - lo))%Q best) /\ (lo < hi)%Q /\
    (forall a b, In a best -> In b best -> (i_pessimistic a < i_pessimistic b)%Q -> (predict (view (i_x a)) < predict (view (i_x b)))%Q) /\
    In first best /\ (predict z <= (i_pessimistic first - lo) / (hi - lo))%Q.
Proof.
  intros root fit argsort minimise archive k d x K Hroot Hs P Hm H.
  apply learn_inv in H as (best & y & m & predict & Eb & Lb & D & Ey & Ep & I & Em & G & B & ->).
  pose proof (k_best_sort item i_average k archive) as KB. rewrite <- Eb in KB.
  assert (Pb : forall b, In b best -> length (i_x b) = d).
  { intros b Hb. apply P. destruct KB as (_ & rest & Perm & _). eapply Permutation_in; [exact Perm|]. apply in_or_app. left. exact Hb. }
  clear Eb. destruct best as [|b0 best]; [cbn in Lb; lia|]. set (bs := b0 :: best) in *.
  pose proof (middle_mean d k bs Lb K Pb) as Mm. pose proof (proj1 Mm) as Lm. specialize (Hm predict m Em).
  set (mid := middle_of k bs) in *. set (nrm := normalization_of root bs) in *.
  assert (Np : (0 < nrm)%Q).
  { unfold nrm, normalization_of, bs. pose proof (Hroot (sumsq (vsub (i_x (last (b0 :: best) b0)) (i_x b0)))) as R.
    assert (0 < 1 / inject_Z (10 ^ 15))%Q by reflexivity. lra. }
  clearbody nrm mid. set (lo := lmin (map i_pessimistic bs)) in *. set (hi := lmax (map i_pessimistic bs)) in *.
  assert (Hlo : (lo < hi)%Q) by (assert (0 < 1 / inject_Z (10 ^ 20))%Q by reflexivity; lra).
  exists bs, mid, nrm, (fun p => vscale (1 / nrm) (vsub p mid)), predict, m, b0, lo, hi.
  assert (Ly : length y = k) by (rewrite Ey, !map_length; exact Lb).
  split; [exact KB|]. split; [exact Mm|]. split; [exact Np|]. split; [|split; [|split; [|split; [|split; [|split]]]]].
  - intros b Hb. specialize (Pb b Hb). split; [rewrite vscale_length, vsub_length; lia|].
    intros i u v w Hu Hv Hw. unfold vscale in Hw. rewrite nth_error_map, (vsub_nth _ _ _ _ _ Hu Hv) in Hw. cbn [option_map] in Hw. injection Hw as <-. field. lra.
  - split; [rewrite vadd_length, vscale_length; lia|]. intros i u v w Hu Hv Hw.
    rewrite (vadd_nth mid (vscale nrm m) i v (nrm * w)%Q Hv) in Hu by (unfold vscale; rewrite nth_error_map, Hw; reflexivity).
    injection Hu as <-. ring.
  - rewrite Ep, Ey, !map_map. reflexivity.
  - exact Hlo.
  - intros a b Ha Hb Lt. apply In_nth_error in Ha as (i & Ei). apply In_nth_error in Hb as (j & Ej).
    assert (Li : i < k) by (rewrite <- Lb; apply nth_error_Some; congruence).
    assert (Lj : j < k) by (rewrite <- Lb; apply nth_error_Some; congruence).
    set (outs := map predict (map (fun b => vscale (1 / nrm) (vsub (i_x b) mid)) bs)) in *.
    assert (Lo : length outs = length y) by (unfold outs; rewrite !map_length; congruence).
    pose proof (outputs_ranked argsort y outs Hs Lo I i j ltac:(lia) ltac:(lia)) as R.
    assert (Yi : forall n c, nth_error bs n = Some c -> nth n y 0%Q = ((i_pessimistic c - lo) / (hi - lo))%Q).
    { intros n c En. apply nth_error_nth. rewrite Ey, !nth_error_map, En. reflexivity. }
    assert (Oi : forall n c, nth_error bs n = Some c -> nth n outs 0%Q = predict (vscale (1 / nrm) (vsub (i_x c) mid))).
    { intros n c En. apply nth_error_nth. unfold outs. rewrite !nth_error_map, En. reflexivity. }
    rewrite (Yi i a Ei), (Yi j b Ej), (Oi i a Ei), (Oi j b Ej) in R. apply R.
    unfold Qdiv. apply Qmult_lt_compat_r; [apply Qinv_lt_0_compat; lra|lra].
  - left. reflexivity.
  - rewrite Ey in G. exact G.
Qed.
Print Assumptions C78_ranked.

(** The metamodel is consulted only when the archive is large enough, and at most once every [max(13, workers, dimension)]
    asks. *)
Theorem C78_schedule : forall ratio d degree workers a1 n1 a2 n2, n1 < n2 ->
  consults ratio d degree workers a1 n1 = true -> consults ratio d degree workers a2 n2 = true ->
  sample_size d degree <= a1 /\ sample_size d degree <= a2 /\ n1 + 13 <= n2 /\ n1 + workers <= n2 /\ n1 + d <= n2.
Proof.
  intros ratio d degree w a1 n1 a2 n2 L H1 H2. unfold consults in *. apply andb_true_iff in H1 as (A1 & B1). apply andb_true_iff in H2 as (A2 & B2).
  apply Nat.leb_le in A1, A2. apply Nat.eqb_eq in B1, B2. destruct (frequency_ge ratio d w (sample_size d degree)) as (F1 & F2 & F3 & _).
  pose proof (multiples (frequency ratio d w (sample_size d degree)) n1 n2 ltac:(lia) B1 B2 L). lia.
Qed.
Print Assumptions C78_schedule.

(** Asking always succeeds when the minimisation raises nothing but value errors: without a proposal, the candidate is the
    optimizer's. *)
Theorem C78_ask : forall ratio d degree workers root fit argsort minimise archive num_ask,
  (forall f e, minimise f = Err e -> e = ValueError) ->
  exists src, meta_ask ratio d degree workers (learn_on_k_best root fit argsort minimise) archive num_ask = Ok src /\
    forall x, src = FromModel x -> consults ratio d degree workers (length archive) num_ask = true /\
      learn_on_k_best root fit argsort minimise archive (sample_size d degree) = Proposed x.
Proof.
  intros ratio d degree w root fit argsort minimise archive n Hm. unfold meta_ask.
  destruct (consults ratio d degree w (length archive) n) eqn:C; [|exists FromOptimizer; split; [reflexivity|discriminate]].
  destruct (learn_on_k_best root fit argsort minimise archive (sample_size d degree)) as [x| |e] eqn:L.
  - exists (FromModel x). split; [reflexivity|]. intros x' E. injection E as <-. auto.
  - exists FromOptimizer. split; [reflexivity|discriminate].
  - exfalso. unfold consults in C. apply andb_true_iff in C as (C & _). apply Nat.leb_le in C.
    unfold learn_on_k_best in L. rewrite firstn_length, (Permutation_length (sort_perm item i_average archive)), Nat.min_l in L by exact C.
    rewrite Nat.eqb_refl in L. cbn [negb] in L. destruct (negb (qlt _ _)); [discriminate L|]. destruct (negb (increasing _)); [discriminate L|].
    destruct (minimise _) as [m|e'] eqn:M; [destruct (qlt _ _); [discriminate L|]; destruct (qlt _ _); discriminate L|].
    rewrite (Hm _ _ M) in L. discriminate L.
Qed.
Print Assumptions C78_ask.

(** With degree 1 in dimension 1, one point is enough to consult the metamodel, but it never proposes anything. *)
Theorem C78_degree_one_refuted : forall root fit argsort minimise archive x,
  learn_on_k_best root fit argsort minimise archive (sample_size 1 1) <> Proposed x.
Proof.
  intros root fit argsort minimise archive x H. change (sample_size 1 1) with 1 in H.
  apply learn_inv in H as (best & _ & _ & _ & _ & L & D & _). destruct best as [|b [|]]; try discriminate L.
  change (lmax (map i_pessimistic [b])) with (i_pessimistic b) in D. change (lmin (map i_pessimistic [b])) with (i_pessimistic b) in D.
  assert (0 < 1 / inject_Z (10 ^ 20))%Q by reflexivity. lra.
Qed.
Print Assumptions C78_degree_one_refuted.

(** Three points in dimension 1 *)
Definition toy_archive : list item := [Item [2] 2 2; Item [0] 0 0; Item [5] 9 9; Item [1] 1 1]%Q.
Definition toy_argsort (y : list Q) : list nat := stable_sort (fun i j => qle (nth i y 0%Q) (nth j y 0%Q)) (seq 0 (length y)).
Lemma toy_sorting : sorting toy_argsort.
Proof. intros y. split; [apply (sort_perm nat (fun i => nth i y 0%Q))|apply (sort_sorted nat (fun i => nth i y 0%Q))]. Qed.
Example C78_nontrivial :
  match learn_on_k_best (fun _ => 2%Q) (fun _ _ z => hd 0%Q z) toy_argsort (fun _ => Ok [-(1)]%Q) toy_archive (sample_size 1 2) with
  | Proposed [x] => (x == 1 - (2 + 1 / inject_Z (10 ^ 15)))%Q
  | _ => False
  end /\
  learn_on_k_best (fun _ => 2%Q) (fun _ _ z => - hd 0 z)%Q toy_argsort (fun _ => Ok [-(1)]%Q) toy_archive (sample_size 1 2) = Failed /\
  learn_on_k_best (fun _ => 2%Q) (fun _ _ z => hd 0 z)%Q toy_argsort (fun _ => Ok [-(2)]%Q) toy_archive (sample_size 1 2) = Failed /\
  learn_on_k_best (fun _ => 2%Q) (fun _ _ z => hd 0 z)%Q toy_argsort (fun _ => Ok [1 # 2]%Q) toy_archive (sample_size 1 2) = Failed.
Proof. vm_compute. auto. Qed.
Example C78_schedule_nontrivial :
  filter (consults (fun n => 9 * n / 10) 5 2 4 100) (seq 0 60) = [0; 18; 36; 54] /\ sample_size 5 2 = 21.
Proof. vm_compute. auto. Qed.

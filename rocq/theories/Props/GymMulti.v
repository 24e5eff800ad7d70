(** C128: benchmarks from gym environments. *)
From Coq Require Import Bool Arith List ZArith QArith Qabs Qround Lia Lqa Sorting.Permutation.
From Verif Require Import Model.Prelude Model.MultiValue Model.Planning Model.GymMulti Spec.GymMulti Proofs.MultiValue Proofs.GymMulti.
Import ListNotations.
Open Scope nat_scope.
Open Scope list_scope.

(** C128: the loss of an episode is minus the sum of the rewards until the episode is over or all the time steps are used; an illegal
    action after i legal ones costs 10^20 / (1 + i) *)
Theorem C128_loss E M reset step policy m0 gamma stacking extrapolate steps seed s l s' :
  simulate E M reset step policy m0 gamma stacking extrapolate steps seed s = Ok (l, s') ->
  exists acts rs fin env', played step (fst (reset seed)) acts rs fin env' /\
    ((l == - qsum rs /\ (fin = true \/ List.length rs = steps))%Q \/
     (fin = false /\ List.length rs < steps /\ (exists a, step env' a = Err AssertionError) /\
      (l == inject_Z (10 ^ 20) / (1 + qnat (List.length rs)))%Q)).
Proof.
  unfold simulate. destruct (reset seed) as [env o]. intros H. apply loop_spec in H as (acts & rs & fin & env' & P & D).
  exists acts, rs, fin, env'. split; [exact P|]. destruct D as [[D1 D2]|D]; [|right; exact D]. left. split; [rewrite D1; ring|easy].
Qed.
Print Assumptions C128_loss.

(** C128: later failures are preferred *)
Theorem C128_failures i j : i < j -> (inject_Z (10 ^ 20) / (1 + qnat j) < inject_Z (10 ^ 20) / (1 + qnat i))%Q.
Proof.
  intros H. assert (P : forall n, (0 < 1 + qnat n)%Q).
  { intros n. unfold qnat. assert (0 <= inject_Z (Z.of_nat n))%Q by (rewrite <- (Zle_Qle 0); lia). lra. }
  assert (L : (qnat i < qnat j)%Q) by (unfold qnat; rewrite <- Zlt_Qlt; lia).
  apply Qlt_shift_div_l; [apply P|]. unfold Qdiv. rewrite <- Qmult_assoc, (Qmult_comm (/ _)), Qmult_assoc.
  apply Qlt_shift_div_r; [apply P|]. apply Qmult_lt_l; [reflexivity|]. lra.
Qed.
Print Assumptions C128_failures.

(** C128: the loss of a sequence of actions is minus the sum of the rewards, each multiplied by gamma once per later step *)
Theorem C128_conformant E step gamma env x l : conformant E step gamma env x 0 = Ok l ->
  exists k rs fin env', played step env (firstn k x) rs fin env' /\ (fin = true \/ List.length rs = List.length x) /\
    (l == - late_sum gamma rs)%Q.
Proof.
  intros H. apply conformant_spec in H as (k & rs & fin & env' & P & D & V). exists k, rs, fin, env'. split; [exact P|]. split; [exact D|].
  rewrite V. ring.
Qed.
Print Assumptions C128_conformant.

(** C128, refuted: "the same actions have the same loss for all controls": gamma is ignored when there is a policy; and for sequences it
    discounts the early rewards *)
Theorem C128_gamma_refuted : exists (step : nat -> act -> result (obs * Q * bool * nat)) x,
  let policy i (o : obs) (m : unit) (ext : list Q) := match nth_error x i with Some a => Ok (a, m) | None => Err IndexError end in
  exists s s' l l', simulate nat unit (fun _ => (0, [])) step policy tt (1#2) false false 2 0 s = Ok (l, s') /\
    conformant nat step (1#2) 0 x 0 = Ok l' /\ (l == -2)%Q /\ (l' == - (3#2))%Q.
Proof.
  exists (fun n a => Ok ([], 1%Q, false, S n)), [[0%Q]; [0%Q]]. cbv zeta. exists (St [] [] 0 0 0), (St [] [] 0 0 0). eexists _, _.
  split; [reflexivity|]. split; [reflexivity|]. split; reflexivity.
Qed.
Print Assumptions C128_gamma_refuted.

(** C128, refuted: "the loss of a policy does not depend on earlier evaluations": with stacking, the extended input and the archive are
    kept from one simulation to the next *)
Theorem C128_history_refuted : exists (step : nat -> act -> result (obs * Q * bool * nat)) policy s l1 l2 s1 s2,
  let sim := simulate nat unit (fun _ => (0, [1%Q])) step policy tt 1 true false 1 0 in
  sim s = Ok (l1, s1) /\ sim s1 = Ok (l2, s2) /\ ~ (l1 == l2)%Q.
Proof.
  exists (fun n a => Ok ([1%Q], match a with x :: _ => x | [] => 0%Q end, true, n)),
    (fun i o m ext => Ok ([fold_right Qplus 0%Q ext], m)), (St [0; 0]%Q [] 0 0 0). eexists _, _, _, _. cbv zeta.
  split; [vm_compute; reflexivity|]. split; [vm_compute; reflexivity|]. vm_compute. discriminate.
Qed.
Print Assumptions C128_history_refuted.

(** C128: when simulations keep no state, a call is the average over the seeds 0 to 6, over the only seed 0 for sequences of actions,
    over one drawn seed when randomized *)
Theorem C128_average f randomized is_conformant draw s (sim : nat -> state -> result (Q * state)) :
  (forall seed s, sim seed s = Ok (f seed, s)) -> exists l s', gym_multi_function sim is_conformant randomized draw s = Ok (l, s') /\
    f_calls s' = S (f_calls s) /\ f_archive s' = f_archive s /\
    (l == if randomized then f draw else if is_conformant then f 0%nat else (f 0%nat + f 1%nat + f 2%nat + f 3%nat + f 4%nat + f 5%nat + f 6%nat) / 7)%Q.
Proof.
  intros H. assert (G : forall seeds t s, sum_losses sim seeds t s = Ok (fold_left (fun t x => t + f x)%Q seeds t, s)).
  { induction seeds as [|x seeds IH]; intros t s0; cbn [sum_losses]; [easy|]. rewrite H. cbn [bind fst snd fold_left]. apply IH. }
  unfold gym_multi_function. rewrite G. cbn [bind fst snd]. eexists _, _. split; [reflexivity|]. split; [easy|]. split; [easy|].
  destruct randomized, is_conformant; cbn; unfold qnat; cbn; field.
Qed.
Print Assumptions C128_average.

(** C128: the recommendation of a randomized function is evaluated with a fifth as many simulations as there were calls, at least 23, each of
    them with its own seed; of another function, as during the optimization *)
Theorem C128_evaluation f is_conformant draw s (sim : nat -> state -> result (Q * state)) : (forall seed s, sim seed s = Ok (f seed, s)) ->
  evaluation_function sim is_conformant false draw s = gym_multi_function sim is_conformant false 0 s /\
  exists l s', evaluation_function sim is_conformant true draw s = Ok (l, s') /\
    let n := if f_calls s <? 115 then 23 else f_calls s / 5 in
    f_calls s' = f_calls s + n /\ (l == qsum (map (fun k => f (draw k)) (seq 0 n)) / qnat n)%Q.
Proof.
  intros H. split; [reflexivity|]. unfold evaluation_function. cbn [negb].
  assert (N : num_evaluations (f_calls s) = if f_calls s <? 115 then 23 else f_calls s / 5).
  { unfold num_evaluations. destruct (Nat.ltb_spec (f_calls s) 115) as [L|L].
    - apply Nat.max_r. assert (f_calls s / 5 < 23) by (apply Nat.div_lt_upper_bound; lia). lia.
    - apply Nat.max_l. apply Nat.div_le_lower_bound; lia. }
  assert (G : forall ks t s, exists l s', sum_losses (fun k => gym_multi_function sim is_conformant true (draw k)) ks t s = Ok (l, s') /\
              (l == t + qsum (map (fun k => f (draw k)) ks))%Q /\ f_calls s' = f_calls s + List.length ks).
  { induction ks as [|k ks IH]; intros t s0; cbn [sum_losses]; [exists t, s0; split; [easy|]; cbn; split; [ring|lia]|].
    unfold gym_multi_function at 1. rewrite andb_false_r. cbn [repeat sum_losses bind]. rewrite H. cbn [bind fst snd].
    match goal with |- context [sum_losses _ ks ?t1 ?s1] => destruct (IH t1 s1) as (l & s' & A & B & C) end.
    exists l, s'. split; [exact A|]. split; [rewrite B; change (qnat 1) with 1%Q; cbn [map qsum fold_right]; unfold qsum; cbn [fold_right]; field|].
    rewrite C. cbn [f_calls List.length]. lia. }
  destruct (G (seq 0 (num_evaluations (f_calls s))) 0%Q s) as (l & s' & A & B & C). rewrite A. cbn [bind fst snd]. eexists _, s'. split; [reflexivity|].
  cbv zeta. rewrite <- N. split; [rewrite C, seq_length; lia|]. rewrite B, Qplus_0_l. reflexivity.
Qed.
Print Assumptions C128_evaluation.

(** C128: the archive: the mean is the mean of the rewards of all the finished episodes, an episode is archived once, and the search
    never fails *)
Theorem C128_archive rs s : archived rs s ->
  f_num s = List.length rs /\ (f_mean s * qnat (List.length rs) == qsum rs)%Q /\
  ForallOrdPairs (fun t u => ~ Forall2 same (t_obs t) (t_obs u)) (f_archive s) /\
  (forall ex o os, exists r, heuristic ex o os s = Ok r).
Proof.
  intros H. assert (I : f_num s = List.length rs /\ (f_mean s * qnat (List.length rs) == qsum rs)%Q /\ all_apart (f_archive s) /\ Forall whole (f_archive s)).
  { induction H as [ext calls|rs s acts os r H (A & B & C & D) L|rs s ex o os a s' H (A & B & C & D) E|rs s ext calls H (A & B & C & D)].
    - cbn. split; [easy|]. split; [unfold qnat; cbn; ring|]. split; constructor.
    - unfold archive_observations. cbn [f_num f_mean f_archive]. rewrite app_length. cbn [List.length]. split; [lia|]. split; [|split].
      + assert (Sum : (qsum (rs ++ [r]) == qsum rs + r)%Q) by (clear; unfold qsum; induction rs as [|x rs IH]; cbn in *; [ring|rewrite IH; ring]).
        rewrite Sum, <- B, A. unfold qnat. replace (S (List.length rs)) with (List.length rs + 1) by lia. rewrite Nat2Z.inj_add, inject_Z_plus.
        assert (0 <= inject_Z (Z.of_nat (List.length rs)))%Q by (rewrite <- (Zle_Qle 0); lia). change (inject_Z (Z.of_nat 1)) with 1%Q. field. lra.
      + destruct (existsb _ _) eqn:X; [easy|]. apply all_apart_snoc; [easy|]. rewrite Forall_forall. intros t It F.
        assert (existsb (fun t => array_equal os (t_obs t)) (f_archive s) = true) by (apply existsb_exists; exists t; split; [easy|]; now apply array_equal_iff).
        congruence.
      + destruct (existsb _ _); [easy|]. rewrite Forall_app. split; [easy|]. constructor; [|constructor]. unfold whole. cbn. lia.
    - destruct (heuristic_archive _ _ _ _ _ _ E) as (P & M & N & _). rewrite M, N. split; [easy|]. split; [easy|]. split.
      + eapply all_apart_perm; [apply Permutation_sym; exact P|]. now apply all_apart_filter.
      + rewrite P. rewrite Forall_forall in *. intros t It. apply filter_In in It as [It _]. auto.
    - cbn [f_num f_mean f_archive]. auto. }
  destruct I as (A & B & C & D). split; [easy|]. split; [easy|]. split; [exact C|]. intros ex o os. unfold heuristic.
  destruct (search_ok ex (os ++ [o]) (by_length (filter (fun t => qle (t_reward t) (f_mean s)) (f_archive s)))) as [r ->].
  - rewrite by_length_perm. rewrite Forall_forall in *. intros t It. apply filter_In in It as [It _]. auto.
  - now destruct os.
  - eexists. reflexivity.
Qed.
Print Assumptions C128_archive.

(** C128: a suggestion forgets every archived episode whose reward is above the mean, and only those *)
Theorem C128_forgotten ex o os s a s' : heuristic ex o os s = Ok (a, s') ->
  forall t, In t (f_archive s') <-> In t (f_archive s) /\ (t_reward t <= f_mean s)%Q.
Proof.
  intros H t. apply heuristic_archive in H as [P _]. split.
  - intros I. apply (Permutation_in _ P) in I. apply filter_In in I as [I Q1]. now apply qle_iff in Q1.
  - intros [I Q1]. apply (Permutation_in _ (Permutation_sym P)). apply filter_In. split; [easy|]. now apply qle_iff.
Qed.
Print Assumptions C128_forgotten.

(** C128, refuted: "the best episodes are kept": the best one is forgotten, the worst one kept *)
Theorem C128_best_refuted : exists rs s a s' best worst, archived rs s /\ In best (f_archive s) /\ In worst (f_archive s) /\
  (t_reward worst < t_reward best)%Q /\ (forall t, In t (f_archive s) -> (t_reward t <= t_reward best)%Q) /\
  heuristic false [0%Q] [] s = Ok (a, s') /\ f_archive s' = [worst].
Proof.
  set (s0 := St [] [] 0 0 0). set (s1 := archive_observations [[1%Q]] [[1%Q]] 1 s0). set (s2 := archive_observations [[2%Q]] [[2%Q]] 3 s1).
  exists ([] ++ [1%Q] ++ [3%Q]), s2. eexists _, _, ([[2%Q]], [[2%Q]], 3%Q), ([[1%Q]], [[1%Q]], 1%Q).
  split; [apply (ar_end [1%Q]); [|easy]; apply (ar_end []); [constructor|easy]|].
  split; [cbn; auto|]. split; [cbn; auto|]. split; [reflexivity|]. split.
  - intros t [<-|[<-|[]]]; cbn; lra.
  - split; vm_compute; reflexivity.
Qed.
Print Assumptions C128_best_refuted.

(** C128: during an episode the last observation is given twice, so that an archived action is suggested only from an episode whose last
    two observations are the same *)
Theorem C128_suggested ex o os s a s' : heuristic ex o (os ++ [o]) s = Ok (Some a, s') ->
  exists t pre u v, In t (f_archive s) /\ t_obs t = pre ++ [u; v] /\ same u v.
Proof.
  unfold heuristic. destruct (search _ _ _) as [r|e] eqn:F; cbn [bind]; [|easy]. intros [= -> _].
  apply search_some in F as (t & I & F & _). apply (Permutation_in _ (by_length_perm _)) in I. apply filter_In in I as [I _].
  rewrite <- app_assoc in F. cbn [List.app] in F. set (n := List.length (os ++ [o; o])) in F.
  apply Forall2_app_inv_r in F as (l1 & l2 & F1 & F2 & E). inversion F2 as [|u o1 l2' o2 G1 G2]; subst. inversion G2 as [|v o1 l2 o2 G3 G4]; subst.
  inversion G4; subst. exists t, (firstn (List.length (t_obs t) - n) (t_obs t) ++ l1), u, v. split; [easy|]. split.
  - rewrite <- app_assoc, <- E. unfold lastn. now rewrite firstn_skipn.
  - eapply same_trans; [exact G1|now apply same_sym].
Qed.
Print Assumptions C128_suggested.

(** C128: the weights of a policy are exactly those of its layers, in order (after them, the greedy coefficient) *)
Theorem C128_layers {A} memory stacking deep semi greedy factor raw_in raw_out (x : list A) :
  let z := make_sizes memory stacking factor raw_in raw_out in
  List.length x = neural_size deep semi greedy z ->
  exists l rest, layers deep semi greedy z x = Ok l /\ concat l ++ rest = x /\ List.length rest = (if greedy then 1 else 0) /\
    map (@List.length A) l = [z_neurons z * (z_input z + 1); z_neurons z * z_output z] ++
                            (if deep then repeat (z_neurons z * z_neurons z) (if semi then 1 else 3) else []) /\
    z_neurons z = factor * (raw_in + z_memory z) /\
    z_input z = raw_in + z_memory z + (if stacking then raw_in + raw_out else 0) /\ z_output z = raw_out + z_memory z.
Proof.
  intros z L. unfold neural_size in L. unfold layers.
  set (g := if greedy then 1 else 0) in *.
  set (y := if greedy then firstn (List.length x - 1) x else x).
  assert (Y : exists rest, y ++ rest = x /\ List.length rest = g).
  { unfold y, g. destruct greedy; [exists (skipn (List.length x - 1) x); rewrite firstn_skipn, skipn_length; split; [easy|lia]|exists []; now rewrite app_nil_r]. }
  destruct Y as (rest & Y1 & Y2).
  assert (Ly : List.length y + g = List.length x) by (rewrite <- Y1, app_length; lia). clearbody y. cbv zeta.
  set (nn := z_neurons z * z_neurons z) in *. set (m := if deep then internal_layers semi else 0).
  assert (L2 : List.length y = first_size z + second_size z + m * nn).
  { unfold first_size, second_size, m. destruct deep; lia. }
  assert (La : List.length (slice 0 (first_size z) y) = first_size z) by (rewrite slice_length by lia; lia).
  assert (Lb : List.length (slice (first_size z) (first_size z + second_size z) y) = second_size z) by (rewrite slice_length by lia; lia).
  rewrite La, Lb, !Nat.eqb_refl. cbn [negb orb].
  destruct (internal_lengths nn y m (first_size z + second_size z)) as [I1 I2]; [lia|].
  pose proof (internal_concat nn y m (first_size z + second_size z)) as I3. rewrite <- L2, skipn_all, app_nil_r in I3.
  assert (Cat : slice 0 (first_size z) y ++ slice (first_size z) (first_size z + second_size z) y ++ skipn (first_size z + second_size z) y = y).
  { unfold slice. cbn [skipn]. rewrite Nat.sub_0_r. replace (first_size z + second_size z - first_size z) with (second_size z) by lia.
    rewrite <- skipn_add, firstn_skipn. apply firstn_skipn. }
  assert (Zs : z_neurons z = factor * (raw_in + z_memory z) /\ z_input z = raw_in + z_memory z + (if stacking then raw_in + raw_out else 0) /\
               z_output z = raw_out + z_memory z).
  { unfold z, make_sizes. cbn [z_neurons z_input z_output z_memory]. split; [f_equal; lia|]. split; [lia|reflexivity]. }
  destruct deep.
  - unfold m in *. fold nn. set (l := internal_slices (internal_layers semi) nn (first_size z + second_size z) y) in *.
    assert (X : existsb (fun s => negb (List.length s =? nn)) l = false).
    { destruct (existsb _ l) eqn:X; [|easy]. apply existsb_exists in X as (u & Iu & X). rewrite Forall_forall in I2. rewrite (I2 u Iu), Nat.eqb_refl in X. easy. }
    rewrite X, L2, Nat.eqb_refl. cbn [negb]. eexists _, rest. split; [reflexivity|]. split; [|split; [easy|split; [|exact Zs]]].
    + cbn [concat]. rewrite I3, Cat. exact Y1.
    + cbn [map List.app]. rewrite La, Lb. f_equal. f_equal.
      assert (R : forall l : list (list A), Forall (fun s => List.length s = nn) l -> map (@List.length A) l = repeat nn (List.length l)).
      { clear. induction 1 as [|s l H F IH]; cbn; [easy|]. now rewrite H, IH. }
      rewrite (R l I2), I1. reflexivity.
  - unfold m in *. cbn [internal_slices concat] in I3. eexists _, rest. split; [reflexivity|]. split; [|split; [easy|split; [|exact Zs]]].
    + rewrite <- I3 in Cat. cbn [concat]. rewrite Cat. exact Y1.
    + cbn [map List.app]. rewrite La, Lb. reflexivity.
Qed.
Print Assumptions C128_layers.

(** C128: a weight limit costs nothing below the limit, and (1 + |loss|) for every further enabled weight *)
Theorem C128_sparse limit enablers loss : Forall (fun e => e = 0 \/ e = 1) enablers ->
  exists c, sparse_loss (Some limit) enablers loss = Ok c /\
    (count_occ Nat.eq_dec enablers 1 <= limit -> (c == loss)%Q) /\
    (limit < count_occ Nat.eq_dec enablers 1 ->
       (c == loss + (1 + Qabs loss) * inject_Z (Z.of_nat (count_occ Nat.eq_dec enablers 1%nat) - Z.of_nat limit))%Q /\ (loss < c)%Q).
Proof.
  intros F. unfold sparse_loss.
  assert (B : forallb (fun e => (e =? 0) || (e =? 1)) enablers = true).
  { apply forallb_forall. rewrite Forall_forall in F. intros e I. destruct (F e I) as [->| ->]; reflexivity. }
  rewrite B. cbn [negb]. eexists. split; [reflexivity|].
  assert (C : list_sum enablers = count_occ Nat.eq_dec enablers 1).
  { clear B. induction F as [|e l H F IH]; [easy|]. change (list_sum (e :: l)) with (e + list_sum l). rewrite IH.
    destruct H as [->| ->]; cbn [count_occ]; destruct (Nat.eq_dec _ _); lia. }
  rewrite C. set (k := count_occ Nat.eq_dec enablers 1). split; intros H.
  - replace (k - limit) with 0 by lia. unfold qnat. cbn [Z.of_nat]. ring.
  - unfold qnat. rewrite Nat2Z.inj_sub by lia. split; [reflexivity|].
    assert (P : (0 < inject_Z (Z.of_nat k - Z.of_nat limit))%Q) by (rewrite <- (Zlt_Qlt 0); lia).
    assert (P2 : (0 < 1 + Qabs loss)%Q) by (pose proof (Qabs_nonneg loss); lra).
    pose proof (Qmult_lt_0_compat _ _ P2 P). lra.
Qed.
Print Assumptions C128_sparse.

(** C128, refuted: "the recommendation is evaluated with the penalty it was optimized for" *)
Theorem C128_sparse_evaluation_refuted : exists limit enablers loss a b,
  sparse_loss (Some limit) enablers loss = Ok a /\ sparse_evaluation enablers loss = Ok b /\ (b < a)%Q.
Proof. exists 1, [1; 1; 0], 2%Q. eexists _, _. split; [reflexivity|]. split; [reflexivity|]. reflexivity. Qed.
Print Assumptions C128_sparse_evaluation_refuted.

(** C128: with a weight limit, weights of one dimension are accepted; weights in two dimensions (linear control, one network per time
    step) are always refused, because the enablers are not reshaped *)
Theorem C128_sparse_shape :
  (forall n, sparse_shape [n] = Ok [n]) /\
  (forall a b, 2 <= a -> 1 <= b -> exists e, sparse_shape [a; b] = Err e /\ (e = ValueError \/ e = AssertionError)).
Proof.
  split.
  - intros n. unfold sparse_shape, broadcast1. cbn [rev List.app fold_right]. rewrite Nat.mul_1_r, Nat.eqb_refl. cbn [orb fold_right].
    now rewrite Nat.mul_1_r, Nat.eqb_refl.
  - intros a b Ha Hb. unfold sparse_shape, broadcast1. cbn [rev List.app fold_right]. rewrite Nat.mul_1_r.
    destruct (Nat.eqb_spec b (a * b)); [nia|]. destruct (Nat.eqb_spec (a * b) 1); [nia|]. cbn [orb].
    destruct (Nat.eqb_spec b 1); [|eexists; split; [reflexivity|now left]]. cbn [fold_right]. subst.
    destruct (Nat.eqb_spec (a * (a * 1 * 1)) (a * 1)); [nia|]. eexists. split; [reflexivity|now right].
Qed.
Print Assumptions C128_sparse_shape.

(** C128: sequences for several discrete choices: one choice for each arity, in its range, and no number of the sequence left *)
Theorem C128_actions cdf : (forall x, 0 <= cdf x /\ cdf x <= 1)%Q -> forall arities a rows, Forall (Forall (fun n => 1 <= n)) arities ->
  discrete_rows cdf arities a = Ok rows ->
  Forall2 (Forall2 (fun z n => (0 <= z < Z.of_nat n)%Z)) rows arities /\ List.length a = list_sum (map (@List.length nat) arities).
Proof.
  intros B. induction arities as [|ar arities IH]; intros a rows F; cbn [discrete_rows].
  - destruct a; [|easy]. intros [= <-]. split; [constructor|reflexivity].
  - apply Forall_cons_iff in F as [F1 F2]. destruct (discrete_row cdf ar a) as [[r rest]|e] eqn:D; cbn [bind fst snd]; [|easy].
    destruct (discrete_rows cdf arities rest) as [o|e] eqn:D2; cbn [bind]; [|easy]. intros [= <-].
    destruct (discrete_row_spec cdf B _ _ _ _ F1 D) as (A1 & A2 & A3). destruct (IH _ _ F2 D2) as [A4 A5].
    split; [now constructor|]. cbn [map]. change (list_sum (List.length ar :: map (@List.length nat) arities)) with (List.length ar + list_sum (map (@List.length nat) arities)).
    rewrite <- A5, A2, app_length, firstn_length. lia.
Qed.
Print Assumptions C128_actions.

(** C128, cases *)
Example C128_case :
  (exists s', simulate nat unit (fun _ => (0, [])) (fun n a => if n =? 2 then Err AssertionError else Ok ([], 1%Q, false, S n))
     (fun i o m ext => Ok ([0%Q], m)) tt 1 false false 5 0 (St [] [] 0 0 0) = Ok ((inject_Z (10 ^ 20) / (1 + qnat 2))%Q, s')) /\
  (exists l, layers true true true (make_sizes true true 1 2 1) (seq 0 (neural_size true true true (make_sizes true true 1 2 1))) = Ok l /\
     map (@List.length nat) l = [32; 12; 16]) /\
  discrete_rows (fun _ => 1#2)%Q [[2; 3]; [5]] [0; 0; 0]%Q = Ok [[1%Z; 1%Z]; [2%Z]] /\
  (exists s a s', archived [1%Q] s /\ heuristic false [1%Q] ([] ++ [[1%Q]]) s = Ok (Some a, s')).
Proof.
  split; [eexists; reflexivity|]. split; [eexists; split; vm_compute; reflexivity|]. split; [vm_compute; reflexivity|].
  exists (archive_observations [[5%Q]; [6%Q]] [[1%Q]; [1%Q]] 1 (St [] [] 0 0 0)). eexists _, _. split; [apply (ar_end []); [constructor|easy]|].
  vm_compute. reflexivity.
Qed.

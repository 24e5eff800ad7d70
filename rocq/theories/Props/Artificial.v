(** * C84: artificial functions: blocks, translations, rotations, useless variables, noise *)
From Coq Require Import Reals Lra Lia Psatz Arith ZArith Bool List Sorted Permutation.
From Verif.Model Require Import Prelude CoreFuncs Artificial.
From Verif.Spec Require Import CoreFuncs Artificial.
From Verif.Proofs Require Import CoreFuncs Artificial.
Import ListNotations.
Open Scope R_scope.

(** A function is created iff its settings make sense. *)
Theorem C84_settings : forall s, check s = Ok tt <->
  0 <= s_noise s /\ (1 <= s_block_dimension s)%Z /\ (1 <= s_num_blocks s)%Z /\ (0 <= s_useless s)%Z /\
  (s_split s = true -> s_hashing s = false /\ s_useless s = 0%Z).
Proof. exact check_spec. Qed.
Print Assumptions C84_settings.

(** ** The blocks: there are [nb s] of them, each on [bd s] variables; the variables of all the blocks, one block after the
    other, are the drawn ones in increasing order: no variable is in two blocks, nor twice in one. *)
Theorem C84_blocks : forall s drawn rnd, check s = Ok tt -> choice_without_replacement (dim s) (bd s * nb s) drawn ->
  exists ts, initialize (variable_of s) drawn rnd = Ok ts /\ length ts = nb s /\
    (forall k t, nth_error ts k = Some t ->
       length (t_indices t) = bd s /\
       t_translation t = map (fun z => z ^ s_expo s * s_factor s) (fst (rnd k)) /\
       t_rotation t = (if s_rotation s then Some (snd (rnd k)) else None)) /\
    StronglySorted lt (concat (map t_indices ts)) /\
    (forall i, In i (concat (map t_indices ts)) <-> In i drawn).
Proof.
  intros s drawn rnd C D. destruct (init_spec s drawn rnd C D) as (ts & E & L & M & S & P). exists ts.
  split; [exact E|]. split; [exact L|]. split; [|split; [exact S|]].
  - intros k t Hk. destruct (M k t Hk) as (Li & Mt). split; [exact Li|]. unfold made in Mt. rewrite Mt. cbn. auto.
  - intros i. split; intros H; (eapply Permutation_in; [|exact H]); [exact P|apply Permutation_sym, P].
Qed.
Print Assumptions C84_blocks.

(** Without useless variable, the blocks are the consecutive ones; so with [split], each array is a block. *)
Theorem C84_split : forall s drawn rnd ts, check s = Ok tt -> choice_without_replacement (dim s) (bd s * nb s) drawn ->
  initialize (variable_of s) drawn rnd = Ok ts -> s_useless s = 0%Z ->
  forall args k a t, length args = nb s -> (forall b, In b args -> length b = bd s) ->
    nth_error args k = Some a -> nth_error ts k = Some t ->
    t_indices t = seq (k * bd s) (bd s) /\ select (concat args) (t_indices t) = Ok a.
Proof.
  intros s drawn rnd ts C D E U args k a t La Fa Ha Ht. pose proof (all_useful s drawn rnd ts C D E U) as A.
  destruct (ts_spec s drawn rnd ts C D E) as (L & M & _).
  assert (F : Forall (fun g => length g = bd s) (map t_indices ts)).
  { apply Forall_forall. intros g Hg. apply in_map_iff in Hg as (u & <- & Hu). apply In_nth_error in Hu as (k' & Hk). now destruct (M k' u Hk). }
  assert (Ei : t_indices t = seq (k * bd s) (bd s)).
  { rewrite (concat_nth_block (map t_indices ts) (bd s) k (t_indices t) F) by (now rewrite nth_error_map, Ht). rewrite A.
    assert (Kn : (k < nb s)%nat) by (rewrite <- L; apply nth_error_Some; congruence).
    assert (Dm : dim s = (k * bd s + (bd s + (nb s - k - 1) * bd s))%nat) by (unfold dim; rewrite U; cbn; nia).
    rewrite Dm, seq_app. rewrite skipn_app, seq_length, Nat.sub_diag. rewrite skipn_all2 by (rewrite seq_length; lia). cbn [app skipn Nat.add].
    rewrite seq_app, firstn_app, seq_length, Nat.sub_diag, firstn_O, app_nil_r. apply firstn_all2. rewrite seq_length. lia. }
  split; [exact Ei|]. rewrite Ei.
  assert (Fa' : Forall (fun g => length g = bd s) args) by now apply Forall_forall.
  assert (Kn : (k < nb s)%nat) by (rewrite <- La; apply nth_error_Some; congruence).
  pose proof (concat_len args (bd s) Fa') as Lc.
  rewrite select_spec by (intros i Hi; apply in_seq in Hi; rewrite Lc; nia). f_equal.
  rewrite (concat_nth_block args (bd s) k a Fa' Ha). assert (Lk : (k * bd s + bd s <= length (concat args))%nat) by (rewrite Lc; nia).
  revert Lk. generalize (k * bd s)%nat. generalize (concat args) (bd s). clear. intros x d. induction d as [|d IH]; intros p L; [now rewrite firstn_O|].
  cbn [seq map]. destruct (skipn p x) as [|b l] eqn:E.
  { apply (f_equal (@length R)) in E. rewrite skipn_length in E. cbn in E. lia. }
  assert (E2 : skipn (S p) x = l).
  { clear - E. revert p E. induction x as [|y x IH]; intros [|p] E; cbn in *; try discriminate; [now injection E|]. now apply IH. }
  cbn [firstn]. f_equal.
  - rewrite <- (firstn_skipn p x) at 1. rewrite app_nth2 by (rewrite firstn_length; lia). rewrite firstn_length, Nat.min_l, Nat.sub_diag by lia. now rewrite E.
  - rewrite IH by lia. now rewrite E2.
Qed.
Print Assumptions C84_split.

(** ** Useless variables have no influence, on the value nor on the noise for given draws of the same shape:
    functions of vectors equal on the drawn variables are equal. *)
Theorem C84_useless : forall f s hash drawn rnd ts, check s = Ok tt -> choice_without_replacement (dim s) (bd s * nb s) drawn ->
  drawn_blocks (bd s) (nb s) (s_rotation s) rnd -> initialize (variable_of s) drawn rnd = Ok ts -> s_hashing s = false ->
  forall x x', length x = dim s -> length x' = dim s -> (forall i, In i drawn -> nth i x 0 = nth i x' 0) ->
    evaluation f s hash ts [x] = evaluation f s hash ts [x'] /\
    forall side g, length side = dim s -> noisy_function f s hash ts side g [x] = noisy_function f s hash ts side g [x'].
Proof.
  intros f s hash drawn rnd ts C D Rn E Hh x x' Lx Lx' H.
  assert (T : transformed s hash ts x = transformed s hash ts x') by (apply (useless s hash drawn rnd ts C D Rn E); assumption).
  split; [unfold evaluation; cbn [concat]; rewrite !app_nil_r; now rewrite T|]. intros side g Ls.
  assert (Lp : forall y, length y = dim s -> length (plus y side) = dim s) by (intros y Ly; unfold plus; rewrite map_length, combine_length; lia).
  assert (T2 : transformed s hash ts (plus x side) = transformed s hash ts (plus x' side)).
  { apply (useless s hash drawn rnd ts C D Rn E); auto. intros i Hi. destruct D as (_ & _ & B). specialize (B i Hi). specialize (H i Hi).
    assert (Np : forall y, length y = dim s -> nth i (plus y side) 0 = nth i y 0 + nth i side 0).
    { intros y Ly. unfold plus. set (h := fun p : R * R => fst p + snd p). rewrite (nth_indep _ 0 (h (0, 0))) by (rewrite map_length, combine_length; lia).
      rewrite map_nth, combine_nth by lia. reflexivity. }
    rewrite !Np by assumption. now rewrite H. }
  unfold noisy_function. cbn [concat]. rewrite !app_nil_r. now rewrite T, T2.
Qed.
Print Assumptions C84_useless.

(** ** The optimum of the core function is kept: if on vectors of the dimension of a block the core function has minimum
    [v] at [o] only, the function has minimum [v] (the sum of as many as blocks, with aggregator "sum"), reached when each
    block is the translation plus the inverse rotation of [o], and only then. *)
Theorem C84_optimum : forall f s hash drawn rnd ts v o, check s = Ok tt -> choice_without_replacement (dim s) (bd s * nb s) drawn ->
  drawn_blocks (bd s) (nb s) (s_rotation s) rnd -> initialize (variable_of s) drawn rnd = Ok ts ->
  s_hashing s = false -> s_zero_pen s = false -> s_no_transform s = false ->
  optimum (eq (bd s)) f v o ->
  let m := combined (s_aggregator s) (nb s) (v (bd s)) in
  let best := fun x => forall t, In t ts -> forall j, (j < bd s)%nat ->
                nth (nth j (t_indices t) 0%nat) x 0 = sent_to (bd s) t (o (bd s)) j in
  (forall x, length x = dim s -> exists r, evaluation f s hash ts [x] = Ok r /\ m <= r /\ (r = m <-> best x)) /\
  (exists x, length x = dim s /\ best x).
Proof.
  intros f s hash drawn rnd ts v o C D Rn E Hh Hz Hn Ho m best.
  assert (B : forall x, at_optimum s ts (o (bd s)) x <-> best x).
  { intros x. unfold at_optimum, best, place. rewrite Hn. tauto. }
  split.
  - intros x Lx. destruct (value_optimum f s hash drawn rnd ts C D Rn E v o Ho Hh Hz x Lx) as (r & E1 & E2 & E3).
    exists r. split; [exact E1|]. split; [exact E2|]. unfold m. rewrite E3. apply B.
  - destruct (optimum_exists s drawn rnd ts C D Rn E (o (bd s))) as (x & Lx & Hx). exists x. split; [exact Lx|]. now apply B.
Qed.
Print Assumptions C84_optimum.
(** Functions registered as not to be transformed (the discrete ones): each block must be [o] itself. *)
Theorem C84_optimum_untransformed : forall f s hash drawn rnd ts v o, check s = Ok tt -> choice_without_replacement (dim s) (bd s * nb s) drawn ->
  drawn_blocks (bd s) (nb s) (s_rotation s) rnd -> initialize (variable_of s) drawn rnd = Ok ts ->
  s_hashing s = false -> s_zero_pen s = false -> s_no_transform s = true ->
  optimum (eq (bd s)) f v o ->
  let m := combined (s_aggregator s) (nb s) (v (bd s)) in
  let best := fun x => forall t, In t ts -> forall j, (j < bd s)%nat -> nth (nth j (t_indices t) 0%nat) x 0 = nth j (o (bd s)) 0 in
  (forall x, length x = dim s -> exists r, evaluation f s hash ts [x] = Ok r /\ m <= r /\ (r = m <-> best x)) /\
  (exists x, length x = dim s /\ best x).
Proof.
  intros f s hash drawn rnd ts v o C D Rn E Hh Hz Hn Ho m best.
  assert (B : forall x, at_optimum s ts (o (bd s)) x <-> best x).
  { intros x. unfold at_optimum, best, place. rewrite Hn. tauto. }
  split.
  - intros x Lx. destruct (value_optimum f s hash drawn rnd ts C D Rn E v o Ho Hh Hz x Lx) as (r & E1 & E2 & E3).
    exists r. split; [exact E1|]. split; [exact E2|]. unfold m. rewrite E3. apply B.
  - destruct (optimum_exists s drawn rnd ts C D Rn E (o (bd s))) as (x & Lx & Hx). exists x. split; [exact Lx|]. now apply B.
Qed.
Print Assumptions C84_optimum_untransformed.

(** ** Noise *)
(** no noise if the level is 0, whatever the draws *)
Theorem C84_noise_free : forall f s hash ts side g args, s_noise s = 0 ->
  noisy_function f s hash ts side g args = evaluation f s hash ts args.
Proof.
  intros f s hash ts side g args H. unfold noisy_function, evaluation. destruct (transformed s hash ts (concat args)) as [xt|e]; [|reflexivity].
  cbn [bind]. destruct (value_of f s xt) as [fx|e]; [|reflexivity]. cbn [bind]. destruct (Req_EM_T (s_noise s) 0); [reflexivity|easy].
Qed.
Print Assumptions C84_noise_free.
(** otherwise the noise is the level times a normal number times the change of the value at a random neighbour *)
Theorem C84_noise : forall f s hash ts side g x r r', s_noise s <> 0 -> s_dissymmetry s = false ->
  evaluation f s hash ts [x] = Ok r -> evaluation f s hash ts [plus x side] = Ok r' ->
  noisy_function f s hash ts side g [x] = Ok (r + s_noise s * g * (r' - r)).
Proof.
  intros f s hash ts side g x r r' H Hd. unfold evaluation, noisy_function. cbn [concat]. rewrite !app_nil_r.
  destruct (transformed s hash ts x) as [xt|e]; [|discriminate]. cbn [bind]. intros ->. cbn [bind].
  destruct (Req_EM_T (s_noise s) 0); [easy|]. rewrite Hd. cbn [negb].
  destruct (transformed s hash ts (plus x side)) as [yt|e]; [|discriminate]. cbn [bind]. intros ->. reflexivity.
Qed.
Print Assumptions C84_noise.
(** so opposite draws give opposite noises: the noise is centred *)
Theorem C84_noise_centred : forall f s hash ts side g x r r1 r2, s_dissymmetry s = false ->
  evaluation f s hash ts [x] = Ok r ->
  noisy_function f s hash ts side g [x] = Ok r1 -> noisy_function f s hash ts side (- g) [x] = Ok r2 -> (r1 + r2) / 2 = r.
Proof.
  intros f s hash ts side g x r r1 r2 Hd. unfold evaluation, noisy_function. cbn [concat]. rewrite !app_nil_r.
  destruct (transformed s hash ts x) as [xt|e]; [|discriminate]. cbn [bind]. intros ->. cbn [bind].
  destruct (Req_EM_T (s_noise s) 0); [intros [= <-] [= <-]; lra|]. rewrite Hd. cbn [negb].
  destruct (transformed s hash ts (plus x side)) as [yt|e]; [|discriminate]. cbn [bind].
  destruct (value_of f s yt) as [fy|e]; [|discriminate]. cbn [bind]. intros [= <-] [= <-]. lra.
Qed.
Print Assumptions C84_noise_centred.
(** dissymmetric noise: none on one side of the first transformed coordinate, whatever the level *)
Theorem C84_noise_dissymmetric : forall f s hash ts side g x x0 y r, s_dissymmetry s = true ->
  transformed s hash ts x = Ok y -> nth_error (concat y) 0 = Some x0 -> evaluation f s hash ts [x] = Ok r ->
  (0 < x0 -> noisy_function f s hash ts side g [x] = Ok r) /\
  (x0 <= 0 -> forall r', evaluation f s hash ts [plus x side] = Ok r' ->
     noisy_function f s hash ts side g [x] = Ok (r + s_noise s * (1 + 100 * x0) * g * (r' - r))).
Proof.
  intros f s hash ts side g x x0 y r Hd Hy H0. unfold evaluation, noisy_function. cbn [concat]. rewrite !app_nil_r. rewrite Hy. cbn [bind]. intros ->. cbn [bind].
  rewrite Hd. cbn [negb]. destruct (concat y) as [|a l]; [discriminate|]. cbn in H0. injection H0 as ->. split.
  - intros P. destruct (Req_EM_T (s_noise s) 0); [reflexivity|]. destruct (Rle_dec x0 0); [lra|reflexivity].
  - intros P r'. destruct (transformed s hash ts (plus x side)) as [yt|e]; [|discriminate]. cbn [bind]. intros ->. cbn [bind].
    destruct (Req_EM_T (s_noise s) 0) as [Z|]; [rewrite Z; f_equal; lra|]. destruct (Rle_dec x0 0); [|lra]. f_equal. lra.
Qed.
Print Assumptions C84_noise_dissymmetric.

(** ** The penalty of [zero_pen] is at most 250, positive near the origin of the transformed space only *)
Theorem C84_penalty : forall factor y, 0 < factor ->
  0 <= penalty factor y < 250 /\ (penalty factor y = 0 <-> factor / 3 <= / 10000000 + sqrt (sphere y)).
Proof. exact penalty_bounds. Qed.
Print Assumptions C84_penalty.
Definition pen_sphere : settings :=
  {| s_block_dimension := 1; s_num_blocks := 1; s_useless := 0; s_noise := 0; s_dissymmetry := false; s_rotation := false;
     s_factor := 1; s_hashing := false; s_aggregator := AMax; s_split := false; s_expo := 1; s_zero_pen := true; s_no_transform := false |}.
(** But the origin of the transformed space is the optimum of the core function: with [zero_pen], the sphere is worth more than
    249 at its optimum and 1 at distance 1, whatever the translation. *)
Theorem C84_zero_pen_optimum_refuted : forall hash z, exists ts r r',
  initialize (variable_of pen_sphere) [0%nat] (fun _ => ([z], [])) = Ok ts /\
  evaluation (fun x => Ok (sphere x)) pen_sphere hash ts [[z]] = Ok r /\
  evaluation (fun x => Ok (sphere x)) pen_sphere hash ts [[z + 1]] = Ok r' /\ 249 < r /\ r' = 1.
Proof.
  intros hash z.
  exists [{| t_indices := [0%nat]; t_translation := [z ^ 1 * 1]; t_rotation := None |}],
         (sphere [z - z ^ 1 * 1] + penalty 1 [z - z ^ 1 * 1]), (sphere [z + 1 - z ^ 1 * 1] + penalty 1 [z + 1 - z ^ 1 * 1]).
  split; [reflexivity|]. split; [reflexivity|]. split; [reflexivity|]. unfold penalty, norm, sphere. cbn [map rsum pow]. replace (z * 1 * 1) with z by lra. split.
  - replace ((z - z) * (z - z) + 0) with 0 by lra. rewrite sqrt_0.
    assert (E : 9999 / 10000 < 1 / (/ 10000000 + 1 + 0)) by (apply Rmult_lt_reg_r with (/ 10000000 + 1 + 0); [lra|]; unfold Rdiv at 2; rewrite Rmult_assoc, Rinv_l; lra).
    pose proof (Rmax_l (1 / (/ 10000000 + 1 + 0) - 75 / 100) 0). lra.
  - replace ((z + 1 - z) * (z + 1 - z) + 0) with 1 by lra. rewrite sqrt_1.
    assert (E : 1 / (/ 10000000 + 1 + 1) < 6 / 10) by (apply Rmult_lt_reg_r with (/ 10000000 + 1 + 1); [lra|]; unfold Rdiv at 1; rewrite Rmult_assoc, Rinv_l; lra).
    rewrite Rmax_right by lra. lra.
Qed.
Print Assumptions C84_zero_pen_optimum_refuted.
(** With [hashing], the parametrization has one variable: a function of more than one useful variable cannot be called. *)
Theorem C84_hashing_refuted : forall f s hash drawn rnd ts y, check s = Ok tt -> choice_without_replacement (dim s) (bd s * nb s) drawn ->
  initialize (variable_of s) drawn rnd = Ok ts -> s_hashing s = true -> s_useless s = 0%Z -> (2 <= dim s)%nat ->
  evaluation f s hash ts [[y]] = Err IndexError.
Proof.
  intros f s hash drawn rnd ts y C D E Hh U L2. pose proof (all_useful s drawn rnd ts C D E U) as A.
  assert (I1 : In 1%nat (concat (map t_indices ts))) by (rewrite A; apply in_seq; lia).
  apply in_concat in I1 as (g & Hg & I1). apply in_map_iff in Hg as (t & <- & Ht).
  unfold evaluation, transformed, process. cbn [concat app variable_of v_hashing v_only_index]. rewrite Hh. cbn [map].
  assert (G : Mutation.map_result (fun t => if s_no_transform s then select [hash y] (t_indices t) else apply_transform t [hash y]) ts = Err IndexError).
  { clear - Ht I1. induction ts as [|u us IH]; [destruct Ht|]. cbn [Mutation.map_result].
    destruct Ht as [->|Ht].
    - assert (Z : select [hash y] (t_indices t) = Err IndexError) by (apply select_error with (i := 1%nat); [exact I1|cbn; lia]).
      unfold apply_transform. rewrite Z. now destruct (s_no_transform s).
    - specialize (IH Ht). assert (Q : forall i, nth_error [hash y] i = None \/ exists a, nth_error [hash y] i = Some a) by (intros i; destruct (nth_error [hash y] i); eauto).
      assert (Z : (exists b, (if s_no_transform s then select [hash y] (t_indices u) else apply_transform u [hash y]) = Ok b) \/
                  (if s_no_transform s then select [hash y] (t_indices u) else apply_transform u [hash y]) = Err IndexError).
      { assert (S : (exists b, select [hash y] (t_indices u) = Ok b) \/ select [hash y] (t_indices u) = Err IndexError).
        { unfold select. induction (t_indices u) as [|i l IHl]; [left; eexists; reflexivity|]. cbn [Mutation.map_result].
          destruct (Q i) as [-> | (a & ->)]; cbn [bind]; [now right|]. destruct IHl as [(b & ->)| ->]; cbn [bind]; [left; eauto|now right]. }
        unfold apply_transform. destruct (s_no_transform s); [exact S|]. destruct S as [(b & ->)| ->]; cbn [bind]; [left; eauto|now right]. }
      destruct Z as [(b & ->)| ->]; cbn [bind]; [now rewrite IH|reflexivity]. }
  now rewrite G.
Qed.
Print Assumptions C84_hashing_refuted.

(** ** FarOptimumFunction: the sum of the two objectives is 0 at the optimum only *)
Theorem C84_far_optimum : forall o x, length x = length o ->
  (forall a, In a (far_multi o x) -> 0 <= a) /\ 0 <= far_mono o x /\ (far_mono o x = 0 <-> x = o).
Proof.
  intros o x L. split; [|now apply far_spec]. intros a Ha. unfold far_multi in Ha. apply in_map_iff in Ha as (p & <- & _). apply Rabs_pos.
Qed.
Print Assumptions C84_far_optimum.

(** ** A case: two rotated blocks of two variables among five, one useless *)
Definition case_settings : settings :=
  {| s_block_dimension := 2; s_num_blocks := 2; s_useless := 1; s_noise := 1 / 10; s_dissymmetry := false; s_rotation := true;
     s_factor := 2; s_hashing := false; s_aggregator := ASum; s_split := false; s_expo := 3; s_zero_pen := false; s_no_transform := false |}.
Definition case_rnd (k : nat) : list R * list (list R) := ([1; INR k], [[0; -1]; [1; 0]]).
Example C84_case : check case_settings = Ok tt /\ choice_without_replacement (dim case_settings) (bd case_settings * nb case_settings) [4; 0; 3; 1]%nat /\
  drawn_blocks (bd case_settings) (nb case_settings) (s_rotation case_settings) case_rnd /\
  optimum (eq (bd case_settings)) (fun x => Ok (sphere_from 1 x)) (fun _ => 0) (constant 1).
Proof.
  split; [|split; [|split]].
  - apply check_spec. cbn. split; [lra|]. repeat split; try lia; discriminate.
  - split; [|split].
    + repeat constructor; cbn; intuition discriminate.
    + reflexivity.
    + intros i Hi. change (dim case_settings) with 5%nat. cbn in Hi. lia.
  - intros k Hk. change (bd case_settings) with 2%nat. split; [reflexivity|]. intros _. cbn [case_rnd snd]. split; [split; [reflexivity|]|split].
    + intros row [<-|[<-|[]]]; reflexivity.
    + intros [|[|i]] [|[|j]] Hi Hj; try lia; unfold entry, delta; cbn; lra.
    + intros [|[|i]] [|[|j]] Hi Hj; try lia; unfold entry, delta; cbn; lra.
  - intros d _. exact (optimum_sphere_from 1 d Logic.I).
Qed.
(** its blocks, and its optimum: the third variable is useless *)
Example C84_case_blocks : exists ts, initialize (variable_of case_settings) [4; 0; 3; 1]%nat case_rnd = Ok ts /\
  map t_indices ts = [[0; 1]; [3; 4]]%nat /\
  exists r, evaluation (fun x => Ok (sphere_from 1 x)) case_settings (fun a => a) ts [[3; -1; 7; 3; 1]] = Ok r /\ r = 0.
Proof.
  exists [{| t_indices := [0; 1]%nat; t_translation := [1 ^ 3 * 2; INR 0 ^ 3 * 2]; t_rotation := Some [[0; -1]; [1; 0]] |};
          {| t_indices := [3; 4]%nat; t_translation := [1 ^ 3 * 2; INR 1 ^ 3 * 2]; t_rotation := Some [[0; -1]; [1; 0]] |}].
  split; [reflexivity|]. split; [reflexivity|].
  exists (rsum [sphere_from 1 (mat_vec [[0; -1]; [1; 0]] [3 - 1 ^ 3 * 2; -1 - INR 0 ^ 3 * 2]);
                sphere_from 1 (mat_vec [[0; -1]; [1; 0]] [3 - 1 ^ 3 * 2; 1 - INR 1 ^ 3 * 2])]).
  split; [reflexivity|]. unfold sphere_from, sphere, mat_vec, dot. cbn [combine map rsum fst snd INR pow]. lra.
Qed.

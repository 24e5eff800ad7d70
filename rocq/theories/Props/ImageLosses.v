(** C136: losses on images. *)
From Coq Require Import Bool Arith List QArith Qabs Lia Lqa Sorting.Permutation.
From Verif Require Import Model.Prelude Model.MultiValue Model.Planning Model.ImageLosses Spec.ImageLosses Proofs.MultiValue Proofs.Planning Proofs.ImageLosses.
Import ListNotations.
Open Scope nat_scope.
Open Scope list_scope.

(** C136: a reference is accepted exactly when it has three axes, some value, values between 0 and 256, and one above 3 *)
Theorem C136_reference r s :
  image_loss (Some r) = Ok s <->
  s = Some r /\ length (i_shape r) = 3 /\ Forall (fun q => 0 <= q <= 256)%Q (values r) /\ exists q, In q (values r) /\ (3 < q)%Q.
Proof.
  unfold image_loss, check, array_min, array_max. split.
  - intros H. destruct (length (i_shape r) =? 3) eqn:E3; [|discriminate]. apply Nat.eqb_eq in E3. cbn [bind] in H.
    destruct (values r) as [|q l]; [discriminate|]. cbn [bind] in H.
    destruct (qle 0 (fold_left qmin l q)) eqn:E0; [|discriminate]. cbn [bind] in H.
    destruct (qle (fold_left qmax l q) 256) eqn:E1; [|discriminate]. cbn [bind] in H.
    destruct (qlt 3 (fold_left qmax l q)) eqn:E2; [|discriminate]. cbn [bind] in H. injection H as <-.
    apply qle_iff in E0, E1. apply qlt_iff in E2. apply fold_min_ge in E0. apply fold_max_le in E1.
    refine (conj eq_refl (conj E3 (conj _ _))).
    + rewrite Forall_forall in *. intros p I. split; auto.
    + destruct (Exists_dec (fun p => 3 < p)%Q (q :: l)) as [X|X].
      * intros p. destruct (Qlt_le_dec 3 p); [now left|right; lra].
      * apply Exists_exists in X. exact X.
      * exfalso. assert (Y : (fold_left qmax l q <= 3)%Q); [|lra]. apply fold_max_le. apply Forall_forall. intros p I.
        destruct (Qlt_le_dec 3 p); [|assumption]. exfalso. apply X. apply Exists_exists. now exists p.
  - intros (-> & E3 & F & p & I & Hp). rewrite E3. cbn [Nat.eqb bind]. destruct (values r) as [|q l]; [easy|]. cbn [bind].
    assert (E0 : (0 <= fold_left qmin l q)%Q) by (apply fold_min_ge; eapply Forall_impl; [|exact F]; cbn; intros; lra).
    assert (E1 : (fold_left qmax l q <= 256)%Q) by (apply fold_max_le; eapply Forall_impl; [|exact F]; cbn; intros; lra).
    assert (E2 : (3 < fold_left qmax l q)%Q).
    { destruct (Qlt_le_dec 3 (fold_left qmax l q)) as [X|X]; [assumption|]. apply fold_max_le in X. rewrite Forall_forall in X. specialize (X _ I). lra. }
    apply qle_iff in E0, E1. apply qlt_iff in E2. rewrite E0. cbn [bind]. rewrite E1. cbn [bind]. now rewrite E2.
Qed.
Print Assumptions C136_reference.

(** C136: the sum of absolute differences: a loss which is zero exactly on the reference *)
Theorem C136_absolute r x :
  fits r -> fits x -> i_shape x = i_shape r ->
  exists v, sum_absolute (Some r) x = Ok v /\ (v == dist_with (fun a b => Qabs (a - b)) (values x) (values r))%Q /\
    (0 <= v)%Q /\ (v == 0 <-> Forall2 Qeq (values x) (values r))%Q.
Proof.
  intros Fr Fx E. destruct (same_length x r Fx Fr E) as [L _]. unfold sum_absolute, with_reference, check.
  replace (shape_eqb (i_shape x) (i_shape r)) with true by (symmetry; now apply shape_eqb_ok). cbn [bind]. eexists. split; [reflexivity|].
  assert (V : (qsum (map qabs (differences (values x) (values r))) == dist_with (fun a b => Qabs (a - b)) (values x) (values r))%Q).
  { unfold differences, dist_with. rewrite map_map, sum_qsum. apply sum_map_eq. intros ab. apply abs_eq. }
  split; [exact V|]. rewrite V. split; [apply sum_nonneg; intros ab; apply Qabs_nonneg|].
  apply sum_zero; [intros; apply Qabs_nonneg| |assumption]. intros a b. split.
  - apply Qabs_case; intros; lra.
  - intros H. apply Qabs_case; intros; lra.
Qed.
Print Assumptions C136_absolute.

(** C136: the sum of squared differences likewise *)
Theorem C136_square r x :
  fits r -> fits x -> i_shape x = i_shape r ->
  exists v, sum_square (Some r) x = Ok v /\ (v == dist_with (fun a b => (a - b) * (a - b)) (values x) (values r))%Q /\
    (0 <= v)%Q /\ (v == 0 <-> Forall2 Qeq (values x) (values r))%Q.
Proof.
  intros Fr Fx E. destruct (same_length x r Fx Fr E) as [L _]. unfold sum_square, with_reference, check.
  replace (shape_eqb (i_shape x) (i_shape r)) with true by (symmetry; now apply shape_eqb_ok). cbn [bind]. eexists. split; [reflexivity|].
  assert (V : (qsum (map (fun d => d * d) (differences (values x) (values r))) == dist_with (fun a b => (a - b) * (a - b)) (values x) (values r))%Q).
  { unfold differences, dist_with. rewrite map_map, sum_qsum. apply sum_map_eq. reflexivity. }
  assert (N : forall d : Q, (0 <= d * d)%Q). { intros d. destruct (Qlt_le_dec d 0); nra. }
  split; [exact V|]. rewrite V. split; [apply sum_nonneg; intros ab; apply N|].
  apply sum_zero; [intros; apply N| |assumption]. intros a b. split.
  - intros H. apply Qmult_integral in H. destruct H; lra.
  - intros H. assert (Z : (a - b == 0)%Q) by lra. rewrite Z. reflexivity.
Qed.
Print Assumptions C136_square.

(** C136: what the histogram loss really is: the difference between the sums of the two images *)
Theorem C136_histogram r x a b :
  fits r -> fits x -> i_shape x = [a; b; 3] -> i_shape r = [a; b; 3] ->
  exists v, histogram (Some r) x = Ok v /\ (v == sum (values x) - sum (values r))%Q /\ (same_histogram x r -> v == 0)%Q.
Proof.
  intros Fr Fx Ex Er. assert (E : i_shape x = i_shape r) by congruence. destruct (same_length x r Fx Fr E) as [_ L].
  unfold histogram, with_reference, check. replace (shape_eqb (i_shape x) (i_shape r)) with true by (symmetry; now apply shape_eqb_ok).
  rewrite Ex. cbn [bind nth Nat.eqb]. eexists. split; [reflexivity|].
  assert (V : (qsum (differences (sort (map qsum (i_pixels x))) (sort (map qsum (i_pixels r)))) == sum (map sum (i_pixels x)) - sum (map sum (i_pixels r)))%Q).
  { rewrite sum_differences. 2: rewrite !(Permutation_length (sort_perm _)), !map_length; exact L.
    rewrite (sum_perm _ _ (sort_perm (map qsum (i_pixels x)))), (sum_perm _ _ (sort_perm (map qsum (i_pixels r)))). reflexivity. }
  split.
  - rewrite V, !sum_pixels. reflexivity.
  - intros H. rewrite V. rewrite (sum_perm _ _ H). lra.
Qed.
Print Assumptions C136_histogram.

(** C136: "the histogram loss is not negative, and zero only for the same histogram" is refuted *)
Theorem C136_histogram_refuted :
  exists r, image_loss (Some r) = Ok (Some r) /\ fits r /\
    (exists x v, fits x /\ i_shape x = i_shape r /\ histogram (Some r) x = Ok v /\ (v < 0)%Q) /\
    (exists x v, fits x /\ i_shape x = i_shape r /\ histogram (Some r) x = Ok v /\ (v == 0)%Q /\ ~ same_histogram x r).
Proof.
  exists (Image [1; 2; 3] [[4; 4; 4]; [4; 4; 4]]%Q). split; [reflexivity|].
  assert (F : forall p q : list Q, length p = 3 -> length q = 3 -> fits (Image [1; 2; 3] [p; q])).
  { intros p q Hp Hq. exists 1, 2, 3. split; [reflexivity|]. split; [reflexivity|]. now repeat constructor. }
  split; [now apply F|]. split.
  - exists (Image [1; 2; 3] [[0; 0; 0]; [0; 0; 0]]%Q). eexists. split; [now apply F|]. split; [reflexivity|]. split; [reflexivity|]. reflexivity.
  - exists (Image [1; 2; 3] [[0; 0; 0]; [8; 8; 8]]%Q). eexists. split; [now apply F|]. split; [reflexivity|]. split; [reflexivity|].
    split; [reflexivity|]. unfold same_histogram. intros P. assert (I : In (sum [0; 0; 0]%Q) (map sum [[4; 4; 4]; [4; 4; 4]]%Q)).
    { eapply Permutation_in; [exact P|]. now left. }
    destruct I as [I|[I|[]]]; discriminate.
Qed.
Print Assumptions C136_histogram_refuted.

(** C136: other shapes, other numbers of channels and missing references are errors *)
Theorem C136_errors r x :
  (i_shape x <> i_shape r -> sum_absolute (Some r) x = Err AssertionError /\ sum_square (Some r) x = Err AssertionError /\ histogram (Some r) x = Err AssertionError) /\
  (forall a b c, i_shape x = [a; b; c] -> c <> 3 -> histogram (Some r) x = Err AssertionError) /\
  image_loss None = Ok None /\ sum_absolute None x = Err AttributeError /\ sum_square None x = Err AttributeError /\ histogram None x = Err AttributeError.
Proof.
  unfold sum_absolute, sum_square, histogram, with_reference, check. refine (conj _ (conj _ (conj eq_refl (conj eq_refl (conj eq_refl eq_refl))))).
  - intros N. assert (S : shape_eqb (i_shape x) (i_shape r) = false) by (apply not_true_is_false; intros T; now apply shape_eqb_ok in T).
    rewrite S. now repeat split.
  - intros a b c -> N. destruct (shape_eqb _ _); [|reflexivity]. cbn [bind nth]. apply Nat.eqb_neq in N. now rewrite N.
Qed.
Print Assumptions C136_errors.

Example C136_example :
  let r := Image [1; 2; 3] [[4; 4; 4]; [0; 255; 4]]%Q in
  let x := Image [1; 2; 3] [[4; 3; 4]; [2; 255; 4]]%Q in
  image_loss (Some r) = Ok (Some r) /\ sum_absolute (Some r) x = Ok 3%Q /\ sum_square (Some r) x = Ok 5%Q /\ histogram (Some r) x = Ok 1%Q.
Proof. repeat split. Qed.

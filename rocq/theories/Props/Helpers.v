(** C89: the helpers of parametrizations: mapping the unit cube to the space of a parameter, and back;
    deterministic sampling; analysis of a parameter. *)
From Coq Require Import Reals Lra Lia ZArith List Bool Arith.
From Verif.Model Require Import Prelude RTransforms DataParam Helpers.
From Verif.Spec Require Import DataParam Helpers.
From Verif.Proofs Require Import RTransforms DataParam Helpers.
From Verif.Props Require Import DataParam.
Import ListNotations.
Open Scope R_scope.

(** * Normalizer *)
(** [backward] maps each vector of the open unit cube to data, coordinate by coordinate: for a number with two bounds, the value
    read from the data is at that fraction of its range, on the logarithmic scale for logarithmic numbers; otherwise the data
    is the quantile of the standard Cauchy law. *)
Theorem C89_backward (leaves : list leaf) (us : list R) :
  Forall regular leaves -> length us = length (numbers leaves) -> Forall (fun u => 0 < u < 1) us ->
  exists xs, norm_apply (default_normalizer leaves) false us = Ok xs /\
    Forall3 (fun d u x => forall m f, made d m f ->
      match f with
      | Some value => exists d', set_std d x = Ok (value u, d')
      | None => x = tan (PI * (u - 1 / 2))
      end) (numbers leaves) us xs.
Proof.
  intros Hr Hl Hu. destruct (leaves_inverse leaves us) as (xs & E & _ & F & _); auto.
  { rewrite Forall_forall in *. intros lf K. now apply (regular_ordinary (fun _ => True)), Hr. }
  exists xs. split; [unfold norm_apply; cbn [default_normalizer n_working n_trans n_only n_leaves]; now rewrite E|].
  assert (Fu : Forall3 (fun d u x => coord_rel d u x /\ 0 < u < 1) (numbers leaves) us xs).
  { clear E Hl Hr. induction F as [|a b c la lb lc P F IH]; constructor; inversion Hu; subst; auto. }
  revert Fu. apply Forall3_impl. intros d u x Hd (Hc & Hu1) m f Hm. unfold coord_rel in Hc. pose proof (made_ordinary d m f Hm) as (Ho & Hf). destruct f as [g|].
  - destruct Hf as (ups & b & l & h & Hups & Hb & El & _ & Elo & Ehi & Hg). rewrite (bounds_one _ _ _ El), Elo, Ehi in Hc.
    assert (Eb : bounds_of d = Some (l, h)) by (rewrite (bounds_one _ _ _ El), Elo, Ehi; reflexivity).
    destruct (coord_back d l h u Ho Eb) as (ups' & x' & r & Hups' & E1 & _ & Es & b' & Ef).
    { unfold coord_allowed. destruct (last _ _) as [b'|]; [|exact I]. unfold allowed. destruct (b_method b'); lra. }
    destruct Hc as (Hx & _). rewrite Hx in E1. injection E1 as <-. rewrite Es. exists (with_raw d r). f_equal. f_equal. rewrite Hg. f_equal.
    rewrite El in Ef. apply app_inj_tail in Ef. symmetry. apply Ef.
  - rewrite Hf in Hc. exact Hc.
Qed.
Print Assumptions C89_backward.
(** [forward] undoes [backward], when all arrays have one dimension. *)
Theorem C89_roundtrip (leaves : list leaf) (us : list R) :
  Forall regular leaves -> Forall (fun lf => length (l_shape lf) = 1%nat) leaves -> length us = length (numbers leaves) -> Forall (fun u => 0 < u < 1) us ->
  bind (norm_apply (default_normalizer leaves) false us) (norm_apply (default_normalizer leaves) true) = Ok us.
Proof.
  intros Hr Hs Hl Hu. destruct (leaves_inverse leaves us) as (xs & E & _ & _ & B); auto.
  { rewrite Forall_forall in *. intros lf K. now apply (regular_ordinary (fun _ => True)), Hr. }
  unfold norm_apply. cbn [default_normalizer n_working n_trans n_only n_leaves]. rewrite E. cbn [bind]. rewrite B; [reflexivity|].
  revert Hs. apply Forall_impl. intros lf K. destruct (l_shape lf) as [|n [|]]; try discriminate. reflexivity.
Qed.
Print Assumptions C89_roundtrip.
(** [forward] maps all data into the unit cube, unless bounds are checked as constraints. *)
Theorem C89_forward_inside (leaves : list leaf) (xs : list R) :
  Forall (regular_with (fun m => m <> Constraint)) leaves -> Forall (fun lf => length (l_shape lf) = 1%nat) leaves -> length xs = length (numbers leaves) ->
  exists us, norm_apply (default_normalizer leaves) true xs = Ok us /\ length us = length xs /\ Forall (fun u => 0 <= u <= 1) us.
Proof.
  intros Hr Hs Hl. destruct (leaves_forward leaves xs) as (us & E & Lu & Hu); auto.
  { revert Hs. apply Forall_impl. intros lf K. destruct (l_shape lf) as [|n [|]]; try discriminate. reflexivity. }
  exists us. unfold norm_apply. cbn [default_normalizer n_working n_trans n_only n_leaves]. rewrite E. auto.
Qed.
Print Assumptions C89_forward_inside.
(** With constraints, it can leave the unit cube. *)
Theorem C89_forward_inside_refuted :
  exists d, made d Constraint (Some (fun u => 0 + (1 - 0) * u)) /\
    norm_apply (default_normalizer [{| l_shape := [1%nat]; l_coords := [d] |}]) true [1] = Ok [3 / 2].
Proof.
  assert (E : set_bounds (base_data (1 / 2) 1 []) (Some 0) (Some 1) Constraint None =
    (mkd (1 / 2) 1 [(Some 0, Some 1)] [Bound (mkb Constraint (Some 0) (Some 1) true true)], None)).
  { rewrite (set_bounds_base Constraint (Some 0) (Some 1) None (1 / 2) 1 [] (1 / 2)); [reflexivity|exact I|intros l h [= <-] [= <-]; lra|reflexivity|reflexivity]. }
  eexists. split; [exact (made_bounds (1 / 2) 1 Constraint (Some 0) (Some 1) None _ R1_neq_R0 E)|].
  unfold norm_apply. cbn. unfold conv_leaf. cbn. unfold forw_coord. cbn. match goal with |- Ok [?x] = _ => replace x with (3 / 2) by field end. reflexivity.
Qed.
Print Assumptions C89_forward_inside_refuted.
(** After an array with two dimensions and bounds, [forward] gives up half-way and transforms again what was already
    transformed: it does not undo [backward]. *)
Theorem C89_two_dimensions_refuted :
  exists a b xs us, new_array (Some 0) None None = Ok a /\ new_array None (Some 0) (Some 1) = Ok b /\
    let n := default_normalizer [{| l_shape := [1%nat]; l_coords := [a] |}; {| l_shape := [2%nat; 1%nat]; l_coords := [b; b] |}] in
    norm_apply n false [1 / 2; 1 / 4; 3 / 4] = Ok xs /\ norm_apply n true xs = Ok us /\
    nth 0 us 0 = 1 / 2 + atan (1 / 2) / PI /\ us <> [1 / 2; 1 / 4; 3 / 4].
Proof.
  destruct (C87_construct new_array (Some 0) None None (or_intror eq_refl)) as (Ka & _).
  destruct Ka as (a & Ea & _); [split; [intros ? ? K; discriminate|split; intros ? K; discriminate]|].
  destruct (C87_construct new_array None (Some 0) (Some 1) (or_intror eq_refl)) as (Kb & _).
  destruct Kb as (b & Eb & _); [split; [intros l h [= <-] [= <-]; lra|cbn; split; intros ? [= <-]; lra]|].
  assert (Ma : made a Bouncing None) by exact (made_plain new_array (Some 0) None None a (or_intror eq_refl) Ea).
  assert (Mb : made b Bouncing (Some (fun u => 0 + (1 - 0) * u))) by exact (made_plain new_array None (Some 0) (Some 1) b (or_intror eq_refl) Eb).
  set (la := {| l_shape := [1%nat]; l_coords := [a] |}). set (lb := {| l_shape := [2%nat; 1%nat]; l_coords := [b; b] |}).
  assert (Ra : regular la) by (split; [discriminate|right; intros d [<-|[]]; exists Bouncing; split; [exact I|exact Ma]]).
  assert (Rb : regular lb) by (split; [discriminate|left; intros d [<-|[<-|[]]]; eexists _, _; (split; [exact I|exact Mb])]).
  destruct (leaf_inverse la [1 / 2]) as (xa & Ba & La & Fa & Ia); [now apply (regular_ordinary (fun _ => True))|reflexivity|repeat constructor; lra|].
  destruct (leaf_inverse lb [1 / 4; 3 / 4]) as (xb & Bb & Lb & _ & _); [now apply (regular_ordinary (fun _ => True))|reflexivity|repeat constructor; lra|].
  destruct xa as [|x [|]]; try discriminate La. destruct xb as [|y [|z [|]]]; try discriminate Lb.
  assert (Cb : conv_leaf default_trans false true lb [y; z] = Err ValueError).
  { unfold conv_leaf. destruct (leaf_bounds lb (regular_ordinary (fun _ => True) lb Rb)) as [(-> & _)|(_ & K)]; [|exfalso; apply (made_some _ _ _ Mb), K; now left].
    destruct (coord_forward b _ _ y Mb) as (u1 & E1 & _); [discriminate|]. destruct (coord_forward b _ _ z Mb) as (u2 & E2 & _); [discriminate|].
    cbn [l_coords lb each2]. rewrite E1, E2. reflexivity. }
  destruct (utrans_forward [1 / 2; y; z]) as (us & Eu & _ & _).
  assert (Hn : nth 0 us 0 = 1 / 2 + atan (1 / 2) / PI).
  { unfold utrans, default_trans in Eu. cbn [forallb in_range andb length repeat each2 negb] in Eu. destruct (arctan_inside 0 1 (1 / 2)) as (v & Ev & _); [lra|].
    rewrite Ev in Eu. cbn [finite bind] in Eu. match type of Eu with bind ?m _ = _ => destruct m as [zs|]; [|discriminate] end. cbn [bind] in Eu. injection Eu as <-.
    cbn [nth]. cbn [apply] in Ev. injection Ev as <-.
    field. pose proof PI_RGT_0. lra. }
  exists a, b, [x; y; z], us. split; [exact Ea|]. split; [exact Eb|]. cbv zeta. fold la lb.
  unfold norm_apply. cbn [default_normalizer n_working n_trans n_only n_leaves apply_unsafe]. change (length (l_coords la)) with 1%nat. change (length (l_coords lb)) with 2%nat.
  cbn [firstn skipn]. rewrite Ba, Bb, (Ia eq_refl), Cb. cbn [app]. split; [reflexivity|]. split; [exact Eu|]. split; [exact Hn|].
  intros ->. cbn in Hn. assert (0 < atan (1 / 2)) by (rewrite <- atan_0; apply atan_increasing; lra). pose proof PI_RGT_0.
  assert (0 < atan (1 / 2) / PI) by (apply Rmult_lt_0_compat; [lra|apply Rinv_0_lt_compat; lra]). lra.
Qed.
Print Assumptions C89_two_dimensions_refuted.
(** When the bounds could not be checked at the construction, all the numbers are handled as unbounded ones, and [forward]
    still undoes [backward]. *)
Theorem C89_unworkable (n : normalizer) (us : list R) : n_working n = false -> n_trans n = default_trans -> Forall (fun u => 0 < u < 1) us ->
  norm_apply n false us = Ok (map (fun u => tan (PI * (u - 1 / 2))) us) /\
  bind (norm_apply n false us) (norm_apply n true) = Ok us.
Proof.
  intros Hw Ht Hu. unfold norm_apply. rewrite Hw, Ht. destruct (utrans_inverse us Hu) as (E1 & E2). rewrite E1. cbn [bind]. split; [reflexivity|exact E2].
Qed.
Print Assumptions C89_unworkable.
(** A normalizer is fully bounded exactly when all the numbers of the parameter have two bounds. *)
Theorem C89_fully_bounded (leaves : list leaf) : Forall regular leaves ->
  fully_bounded (default_normalizer leaves) = true <-> forall d, In d (numbers leaves) -> exists m f, made d m (Some f).
Proof.
  intros Hr. unfold fully_bounded. cbn [default_normalizer n_leaves]. rewrite forallb_forall. rewrite Forall_forall in Hr. split.
  - intros H d Hd. apply in_flat_map in Hd. destruct Hd as (lf & Hlf & Hd). specialize (H lf Hlf). specialize (Hr lf Hlf).
    destruct (leaf_bounds lf (regular_ordinary _ lf Hr)) as [(_ & K)|(K & _)]; [|congruence]. destruct Hr as (_ & [Hr|Hr]).
    + destruct (Hr d Hd) as (m & f & _ & M). eauto.
    + destruct (Hr d Hd) as (m & _ & M). apply made_ordinary in M. exfalso. exact (K d Hd (proj2 M)).
  - intros H lf Hlf. specialize (Hr lf Hlf). destruct (leaf_bounds lf (regular_ordinary _ lf Hr)) as [(K & _)|(_ & K)]; [exact K|]. exfalso.
    destruct Hr as (Hn & _). destruct (l_coords lf) as [|d ds] eqn:Ed; [contradiction|]. destruct (H d) as (m & f & M); [apply in_flat_map; exists lf; rewrite Ed; split; [exact Hlf|now left]|].
    apply made_some in M. apply M, K. now left.
Qed.
Print Assumptions C89_fully_bounded.
(** A parameter with a bounded scalar, a logarithmic scalar and an array without bounds meets the hypotheses. *)
Example C89_example : exists s g a, new_scalar None (Some (-1)) (Some 3) = Ok s /\ new_log None None (Some 1) (Some 100) = Ok g /\ new_array (Some 0) None None = Ok a /\
  let leaves := [{| l_shape := [1%nat]; l_coords := [s] |}; {| l_shape := [1%nat]; l_coords := [g] |}; {| l_shape := [2%nat]; l_coords := [a; a] |}] in
  Forall (regular_with (fun m => m <> Constraint)) leaves /\ Forall regular leaves /\
  exists xs, norm_apply (default_normalizer leaves) false [1 / 4; 1 / 2; 1 / 2; 1 / 3] = Ok xs /\
    (exists s', set_std s (nth 0 xs 0) = Ok (0, s')) /\ (exists g', set_std g (nth 1 xs 0) = Ok (10, g')) /\ nth 2 xs 0 = 0.
Proof.
  destruct (C87_construct new_scalar None (Some (-1)) (Some 3) (or_introl eq_refl)) as (Ks & _).
  destruct Ks as (s & Es & _); [split; [intros l h [= <-] [= <-]; lra|cbn; split; intros ? [= <-]; lra]|].
  destruct (C87_construct new_array (Some 0) None None (or_intror eq_refl)) as (Ka & _).
  destruct Ka as (a & Ea & _); [split; [intros ? ? K; discriminate|split; intros ? K; discriminate]|].
  assert (Hp : positive (Some 1) (Some 100)) by (split; intros ? [= <-]; lra). assert (Ho : in_order (Some 1) (Some 100)) by (intros l h [= <-] [= <-]; lra).
  assert (S10 : sqrt (1 * 100) = 10) by (rewrite Rmult_1_l; replace 100 with (10 * 10) by ring; apply sqrt_square; lra).
  pose proof (C87_log None None (Some 1) (Some 100) ltac:(discriminate) ltac:(discriminate) Hp Ho) as K. cbn [log_starting] in K. destruct K as (K & _).
  destruct K as (g & Eg & _); [rewrite S10; split; intros ? [= <-]; lra|].
  assert (Ms := made_plain new_scalar None (Some (-1)) (Some 3) s (or_introl eq_refl) Es).
  assert (Mg := made_log None None (Some 1) (Some 100) g ltac:(discriminate) ltac:(discriminate) Hp Ho Eg).
  assert (Ma := made_plain new_array (Some 0) None None a (or_intror eq_refl) Ea). cbn [linear geometric] in Ms, Mg, Ma.
  assert (Hreg : forall ok : method -> Prop, ok Bouncing -> Forall (regular_with ok) [{| l_shape := [1%nat]; l_coords := [s] |}; {| l_shape := [1%nat]; l_coords := [g] |}; {| l_shape := [2%nat]; l_coords := [a; a] |}]).
  { intros ok Hok. apply Forall_cons; [|apply Forall_cons; [|apply Forall_cons; [|constructor]]]; (split; [discriminate|]).
    - left. intros d [<-|[]]. eexists _, _. split; [exact Hok|exact Ms].
    - left. intros d [<-|[]]. eexists _, _. split; [exact Hok|exact Mg].
    - right. intros d [<-|[<-|[]]]; eexists; (split; [exact Hok|exact Ma]). }
  exists s, g, a. split; [exact Es|]. split; [exact Eg|]. split; [exact Ea|]. cbv zeta. split; [now apply Hreg|]. split; [now apply Hreg|].
  destruct (C89_backward _ [1 / 4; 1 / 2; 1 / 2; 1 / 3] (Hreg _ I)) as (xs & E & F); [reflexivity|repeat constructor; lra|]. exists xs. split; [exact E|]. cbn [numbers flat_map l_coords app] in F.
  inversion F as [|? ? x1 ? ? ? F1 G1]; subst. inversion G1 as [|? ? x2 ? ? ? F2 G2]; subst. inversion G2 as [|? ? x3 ? ? ? F3 G3]; subst. cbn [nth].
  specialize (F1 _ _ Ms). specialize (F2 _ _ Mg). specialize (F3 _ _ Ma). cbn in F1, F2, F3. split; [|split].
  - destruct F1 as (d' & F1). exists d'. rewrite F1. f_equal. f_equal. field.
  - destruct F2 as (d' & F2). exists d'. rewrite F2. f_equal. f_equal. rewrite ln_1. replace (0 + (ln 100 - 0) * (1 / 2)) with (ln 10); [apply exp_ln; lra|].
    replace 100 with (10 * 10) by ring. rewrite ln_mult by lra. field.
  - rewrite F3. replace (PI * (1 / 2 - 1 / 2)) with 0 by field. apply tan_0.
Qed.

(** * deterministic_sampling *)
(** Whatever is done in the block, also if it raises: the layers get their settings back, and the exception goes through. *)
Theorem C89_settings_restored {Raw V Draw} (cast : list bool -> Draw -> Raw -> V) (body : list act) (final : Draw) (cs : list cell) :
  map flags (fst (in_context cast body final cs)) = map flags cs /\ snd (in_context cast body final cs) = thrown body.
Proof.
  unfold in_context. set (cs1 := map _ cs). pose proof (body_flags cast body cs1) as Hf. pose proof (body_thrown cast body cs1) as Ht.
  destruct (run_body cast body cs1) as [cs2 e]. cbn [fst snd] in *. split; [|exact Ht].
  assert (Hl : length cs2 = length cs) by (rewrite <- (map_length flags), Hf, !map_length; unfold cs1; apply map_length).
  clear Hf Ht cs1 e. revert cs Hl. induction cs2 as [|c cs2 IH]; intros [|c' cs] Hl; try discriminate; [reflexivity|]. cbn. f_equal. apply IH. now injection Hl.
Qed.
Print Assumptions C89_settings_restored.
(** A parameter whose data is set in the block, or whose value was not read before, has after the block the deterministic value
    of its data, whatever the random draws. *)
Theorem C89_deterministic {Raw V Draw} (cast : list bool -> Draw -> Raw -> V) (body : list act) (final : Draw) (cs : list cell) (i : nat) (c : cell) :
  (forall fl d d' r, Forall (fun b => b = true) fl -> cast fl d r = cast fl d' r) ->
  nth_error cs i = Some c -> cache c = None \/ (exists r d, In (Set_raw i r d) (executed body)) ->
  exists c', nth_error (fst (in_context cast body final cs)) i = Some c' /\
    forall d d', fst (read cast d c') = cast (map (fun _ => true) (flags c)) d' (raw c').
Proof.
  intros Hdet Hc H. unfold in_context. set (g := fun c : cell => set_flags (map (fun _ => true) (flags c)) c). set (cs1 := map g cs).
  assert (H1 : nth_error cs1 i = Some (g c)) by (unfold cs1; rewrite nth_error_map, Hc; reflexivity).
  destruct (body_settled cast body cs1 i (g c) H1) as (c2 & H2 & Hs).
  { destruct H as [H|H]; [left; left; exact H|now right]. }
  pose proof (body_flags cast body cs1) as Hf. destruct (run_body cast body cs1) as [cs2 e]. cbn [fst] in *.
  assert (Hfl : flags c2 = map (fun _ => true) (flags c)).
  { assert (K : nth_error (map flags cs2) i = Some (flags c2)) by (rewrite nth_error_map, H2; reflexivity). rewrite Hf, nth_error_map, H1 in K. now injection K as <-. }
  exists (set_flags (flags c) (snd (read cast final c2))). split.
  - rewrite nth_error_map. assert (K : nth_error (combine (map (fun c => snd (read cast final c)) cs2) (map flags cs)) i = Some (snd (read cast final c2), flags c)).
    { clear - Hc H2. revert cs cs2 Hc H2. induction i as [|i IH]; intros [|c0 cs] [|c1 cs2] Hc H2; try discriminate.
      - cbn in *. injection Hc as ->. injection H2 as ->. reflexivity.
      - cbn in *. exact (IH cs cs2 Hc H2). }
    rewrite K. reflexivity.
  - intros d d'. unfold read at 1, set_flags. cbn [cache raw].
    assert (K : exists d0, cache (snd (read cast final c2)) = Some (cast (flags c2) d0 (raw c2))).
    { unfold read. destruct Hs as [Hs|(d0 & Hs)]; rewrite Hs; cbn [snd cache]; [eexists; reflexivity|rewrite Hs; eexists; reflexivity]. }
    destruct K as (d0 & ->). cbn [fst]. rewrite read_raw, Hfl. apply Hdet. apply Forall_forall. intros b Hb. apply in_map_iff in Hb. now destruct Hb as (_ & <- & _).
Qed.
Print Assumptions C89_deterministic.
(** But a value that was read before, at random, stays in the block and after it. *)
Theorem C89_deterministic_refuted :
  exists (cast : list bool -> bool -> nat -> nat) (body : list act) (cs : list cell) (c' : cell),
    (forall fl d d' r, Forall (fun b => b = true) fl -> cast fl d r = cast fl d' r) /\
    (forall c, In c cs -> exists d, snd (read cast d {| raw := raw c; flags := flags c; cache := None |}) = c) /\
    body = [Read 0 false] /\ nth_error (fst (in_context cast body false cs)) 0 = Some c' /\
    fst (read cast false c') <> cast (map (fun _ => true) (flags c')) false (raw c').
Proof.
  exists (fun (fl : list bool) (d : bool) (r : nat) => if forallb (fun b => b) fl then r else if d then S r else r), [Read 0 false], [{| raw := 0%nat; flags := [false]; cache := Some 1%nat |}]. eexists.
  split; [|split; [|split; [reflexivity|split; [reflexivity|discriminate]]]].
  - intros fl d d' r H. replace (forallb (fun b => b) fl) with true; [reflexivity|]. symmetry. apply forallb_forall. rewrite Forall_forall in H. intros b Hb. now rewrite (H b Hb).
  - intros c [<-|[]]. exists true. reflexivity.
Qed.
Print Assumptions C89_deterministic_refuted.

(** * analyze *)
(** A parameter is deterministic when none of its layers draws at random, ordered when all its layers are; its arity is -1
    without options, otherwise the largest number of options. *)
Theorem C89_analyze (arrays : list (list int_layer)) :
  let layers := concat arrays in let i := analyze arrays in
  (deterministic i = true <-> forall l, In l layers -> i_deterministic l = true) /\
  (ordered i = true <-> forall l, In l layers -> i_ordered l = true) /\
  ((forall l, In l layers -> i_arity l = None) -> arity i = (-1)%Z) /\
  (forall l a, In l layers -> i_arity l = Some a -> (a <= arity i)%Z /\ exists l', In l' layers /\ i_arity l' = Some (arity i)).
Proof.
  cbv zeta. unfold analyze. cbn [deterministic ordered arity]. set (layers := concat arrays). split; [apply forallb_forall|]. split; [apply forallb_forall|].
  set (f := fun l => match i_arity l with Some a => [a] | None => [] end).
  assert (Hin : forall a, In a (flat_map f layers) <-> exists l, In l layers /\ i_arity l = Some a).
  { intros a. rewrite in_flat_map. unfold f. split; intros (l & Hl & K); exists l; (split; [exact Hl|]).
    - destruct (i_arity l); [now destruct K as [->|[]]|destruct K].
    - rewrite K. now left. }
  assert (Hmax : forall l a, (a <= fold_left Z.max l a)%Z /\ (forall x, In x l -> x <= fold_left Z.max l a)%Z /\ (fold_left Z.max l a = a \/ In (fold_left Z.max l a) l)).
  { induction l as [|x l IH]; intros a; cbn [fold_left]; [split; [lia|split; [intros ? []|now left]]|]. destruct (IH (Z.max a x)) as (A & B & C). split; [lia|]. split.
    - intros y [->|Hy]; [lia|auto].
    - destruct C as [C|C]; [|right; now right]. rewrite C. destruct (Z.max_spec a x) as [(_ & ->)|(_ & ->)]; [right; now left|now left]. }
  split.
  - intros H. destruct (flat_map f layers) as [|a l] eqn:E; [reflexivity|]. exfalso. destruct (proj1 (Hin a)) as (y & Hy & K); [now left|]. rewrite (H y Hy) in K. discriminate.
  - intros l a Hl Ha. assert (K : In a (flat_map f layers)) by (apply Hin; eauto). destruct (flat_map f layers) as [|b bs]; [destruct K|].
    destruct (Hmax bs b) as (A & B & C). split; [destruct K as [->|K]; auto|]. apply Hin. destruct C as [C|C]; [left; now symmetry|now right].
Qed.
Print Assumptions C89_analyze.
(** It is said to be continuous although its only values are options, when these are drawn at random. *)
Theorem C89_continuous_refuted : exists arrays, continuous (analyze arrays) = true /\ (exists l, arrays = [[l]]) /\ arity (analyze arrays) = 3%Z.
Proof. exists [[Softmax 3 false]]. split; [reflexivity|]. split; [eauto|reflexivity]. Qed.
Print Assumptions C89_continuous_refuted.
(** It is right when no layer draws at random. *)
Theorem C89_continuous (arrays : list (list int_layer)) : deterministic (analyze arrays) = true ->
  continuous (analyze arrays) = true <-> concat arrays = [].
Proof.
  unfold analyze. cbn [deterministic continuous]. intros H. rewrite negb_true_iff. split.
  - intros K. destruct (concat arrays) as [|l ls]; [reflexivity|]. cbn in *. apply andb_prop in H. destruct H as (H & _). rewrite H in K. discriminate.
  - intros ->. reflexivity.
Qed.
Print Assumptions C89_continuous.
Example C89_analyze_example : analyze [[Int true]; []; [Softmax 3 false; Int true]] = {| deterministic := false; continuous := false; ordered := false; arity := 3 |}.
Proof. reflexivity. Qed.

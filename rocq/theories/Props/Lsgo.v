(** C100: the zeros of the LSGO testbed *)
From Coq Require Import Reals Arith ZArith Bool Lia Lra List.
From Verif.Model Require Import Prelude Lsgo.
From Verif.Model Require CoreFuncs.
From Verif.Spec Require Import Lsgo.
From Verif.Proofs Require Import Lsgo.
Import ListNotations.
Open Scope R_scope.

(** Every function of the testbed but the 14th: its attribute [optimum] is the point where it is zero, and it is positive
    at every other point of its dimension. *)
Theorem C100_optimum : forall z number d f, sizes_ok z -> data_ok z d -> make_function z number d = Ok f -> number <> 14%nat ->
  exists o, l_optimum f = Some o /\ zero_at (call f) (dimension f) o.
Proof.
  intros z number d f Sz D E N. unfold make_function in E. destruct (Nat.eqb_spec number 0); [discriminate E|].
  destruct parts_all as (P1 & P2 & P3 & P4). pose proof Sz as (_ & So & _).
  assert (M : forall ov parts xopt p s w r25 r50 r100, (0 <= ov <= z_overlap z)%Z -> parts_ok parts -> data_ok z (DParts xopt p s w r25 r50 r100) ->
    multipart z ov parts xopt p s w r25 r50 r100 = Ok f -> exists o, l_optimum f = Some o /\ zero_at (call f) (dimension f) o).
  { intros ov parts xopt p s w r25 r50 r100 Ho Hp Hd Hm. destruct (multipart_spec z ov parts xopt p s w r25 r50 r100 f Sz Ho Hp Hd Hm) as (A & -> & B). eauto. }
  assert (T : forall xopt ts l, (2 <= length xopt)%nat -> forallb pointwise ts = true -> ((1 <= length xopt)%nat -> loss_ok l (length xopt)) -> Ok (new_lsgo xopt [new_chunk ts l]) = Ok f -> exists o, l_optimum f = Some o /\ zero_at (call f) (dimension f) o).
  { intros xopt ts l L H K Eq. injection Eq as <-. exists xopt. split; [reflexivity|]. apply shifted_spec; [exact H|apply K; lia]. }
  do 16 (try (destruct number as [|number]; [try discriminate E; try congruence|])); try discriminate E; cbn [class_of] in E;
    destruct d as [xopt|xopt p s w r25 r50 r100]; try discriminate E; cbn [data_ok] in D;
    try (destruct (losses_ok (length xopt)) as (L1 & L2 & L3 & L4 & L5); refine (T xopt _ _ D _ _ E); [reflexivity|auto]);
    try (refine (M _ _ xopt p s w r25 r50 r100 _ _ D E); [lia|assumption]).
  injection E as <-. eexists. split; [reflexivity|]. now apply rosenbrock_spec.
Qed.
Print Assumptions C100_optimum.

(** The functions of the testbed are those numbered from 1 to 15. *)
Theorem C100_numbers : forall number,
  ((1 <= number <= 15)%nat -> exists d, make_function testbed number d <> Err KeyError /\ make_function testbed number d <> Err ValueError /\ make_function testbed number d <> Err TypeError) /\
  (forall d, number = 0%nat -> make_function testbed number d = Err ValueError) /\
  (forall d, (15 < number)%nat -> make_function testbed number d = Err KeyError).
Proof.
  intros number. split; [|split].
  - intros H. do 16 (destruct number as [|number]; [try lia; first [exists (DShift [0]); repeat split; discriminate | exists (DParts [] [] [] [] [] [] []); repeat split; discriminate]|]). lia.
  - intros d ->. reflexivity.
  - intros d H. do 16 (destruct number as [|number]; [lia|]). reflexivity.
Qed.
Print Assumptions C100_numbers.

(** The groups of variables: the permutation has every variable once, the groups have the announced sizes, cover all the
    variables, and each one starts with the last variables of the one before. *)
Theorem C100_split : forall p dims overlap gs, split p dims overlap = Ok gs -> (0 <= overlap)%Z -> Forall (fun d => (overlap <= d)%Z) dims -> dims <> [] ->
  numbering p /\ groups p dims overlap gs.
Proof. exact split_spec. Qed.
Print Assumptions C100_split.

(** The 14th function, which announces no optimum: its zeros, if any, are the points which have in each group the values
    announced for this group. *)
Theorem C100_conflicting : forall z xopt p s w r25 r50 r100 f, sizes_ok z -> data_ok z (DParts xopt p s w r25 r50 r100) ->
  make_function z 14 (DParts xopt p s w r25 r50 r100) = Ok f ->
  l_optimum f = None /\ dimension f = length p /\
  exists gs xs, numbering p /\ groups p s (z_overlap z) gs /\ groups (arange (z_total z)) s 0 xs /\ size xopt = z_total z /\
    forall x, length x = dimension f -> exists v, call f x = Ok v /\ 0 <= v /\ (v = 0 <-> Forall2 (fun g xi => part x g = part xopt xi) gs xs).
Proof. intros z xopt p s w r25 r50 r100 f Sz D E. now apply (conflicting_spec z xopt p s w r25 r50 r100). Qed.
Print Assumptions C100_conflicting.

Lemma exp_mono x y : x <= y -> exp x <= exp y.
Proof. intros [H| ->]; [left; now apply exp_increasing|right; reflexivity]. Qed.
(** Irregularity keeps the sign, 0, 1 and -1, and changes a size by a factor between exp(-0.098) and exp(0.098). *)
Theorem C100_irregularity : forall a,
  irregular 0 = 0 /\ irregular 1 = 1 /\ irregular (-1) = -1 /\
  (0 < a -> a * exp (- (98 / 1000)) <= irregular a <= a * exp (98 / 1000)) /\
  (a < 0 -> a * exp (98 / 1000) <= irregular a <= a * exp (- (98 / 1000))).
Proof.
  intros a. split; [|split; [|split; [|split]]].
  - unfold irregular, sign. destruct (Rlt_dec 0 0); [lra|]. ring.
  - unfold irregular, sign. destruct (Rlt_dec 0 1); [|lra]. destruct (Req_EM_T 1 0); [lra|]. rewrite Rabs_R1, ln_1.
    rewrite !Rmult_0_r, sin_0. replace (0 + 49 / 1000 * (0 + 0)) with 0 by ring. rewrite exp_0. ring.
  - unfold irregular, sign. destruct (Rlt_dec 0 (-1)); [lra|]. destruct (Rlt_dec (-1) 0); [|lra]. destruct (Req_EM_T (-1) 0); [lra|].
    replace (Rabs (-1)) with 1 by (rewrite Rabs_left; lra). rewrite ln_1.
    rewrite !Rmult_0_r, sin_0. replace (0 + 49 / 1000 * (0 + 0)) with 0 by ring. rewrite exp_0. ring.
  - intros H. unfold irregular, sign. destruct (Rlt_dec 0 a); [|lra]. destruct (Req_EM_T a 0); [lra|]. rewrite Rabs_right by lra.
    rewrite exp_plus, exp_ln by lra. rewrite Rmult_1_l. split; apply Rmult_le_compat_l; try lra; apply exp_mono;
    repeat match goal with |- context [sin ?t] => pose proof (SIN_bound t); generalize dependent (sin t); intros end; lra.
  - intros H. unfold irregular, sign. destruct (Rlt_dec 0 a); [lra|]. destruct (Rlt_dec a 0); [|lra]. destruct (Req_EM_T a 0); [lra|]. rewrite Rabs_left by lra.
    rewrite exp_plus, exp_ln by lra.
    match goal with |- _ <= -1 * (- a * exp ?e) <= _ => replace (-1 * (- a * exp e)) with (a * exp e) by ring; assert (E1 : exp e <= exp (98 / 1000)); [|assert (E2 : exp (- (98 / 1000)) <= exp e)] end.
    + apply exp_mono. repeat match goal with |- context [sin ?t] => pose proof (SIN_bound t); generalize dependent (sin t); intros end; lra.
    + apply exp_mono. repeat match goal with |- context [sin ?t] => pose proof (SIN_bound t); generalize dependent (sin t); intros end; lra.
    + split; apply Rmult_le_compat_neg_l; lra.
Qed.
Print Assumptions C100_irregularity.

(** Asymmetry leaves the first coordinate and those which are not positive; the others move away from 1. *)
Theorem C100_asymmetry : forall beta d i a, 0 <= beta -> (i < d)%nat ->
  (a <= 0 -> asym beta d i a = a) /\ asym beta d 0 a = a /\ (0 < a <= 1 -> 0 < asym beta d i a <= a) /\
  (1 <= a -> a <= asym beta d i a) /\ (0 < beta -> (0 < i)%nat -> 1 < a -> a < asym beta d i a).
Proof.
  intros beta d i a Hb Hi.
  assert (L : 0 <= linspace beta d i).
  { unfold linspace. destruct (Nat.eqb_spec d 1); [lra|]. apply Rmult_le_pos; [apply Rmult_le_pos; [auto|apply pos_INR]|].
    left. apply Rinv_0_lt_compat. assert (X : (2 <= d)%nat) by lia. apply le_INR in X. cbn in X. lra. }
  assert (L0 : linspace beta d 0 = 0) by (unfold linspace; destruct (d =? 1)%nat; [reflexivity|]; cbn; unfold Rdiv; ring).
  unfold asym. split; [|split; [|split; [|split]]].
  - intros H. unfold power. destruct (Rlt_dec 0 a); [lra|reflexivity].
  - rewrite L0, Rmult_0_l, Rplus_0_r. unfold power. destruct (Rlt_dec 0 a); [now apply Rpower_1|reflexivity].
  - intros [H H1]. unfold power. destruct (Rlt_dec 0 a); [|lra]. split; [apply exp_pos|].
    rewrite Rpower_plus, Rpower_1 by auto.
    assert (E0 : 0 <= linspace beta d i * sqrt (Rmax 0 a)) by (apply Rmult_le_pos; [auto|apply sqrt_pos]).
    generalize dependent (linspace beta d i * sqrt (Rmax 0 a)). intros e E0.
    assert (X : Rpower a e <= 1); [|nra].
    assert (ln a <= 0) by (rewrite <- ln_1; destruct (Req_dec a 1) as [->|]; [lra|left; apply ln_increasing; lra]).
    unfold Rpower. rewrite <- exp_0. apply exp_mono. nra.
  - intros H. unfold power. destruct (Rlt_dec 0 a); [|lra]. rewrite Rpower_plus, Rpower_1 by auto.
    assert (E0 : 0 <= linspace beta d i * sqrt (Rmax 0 a)) by (apply Rmult_le_pos; [auto|apply sqrt_pos]).
    generalize dependent (linspace beta d i * sqrt (Rmax 0 a)). intros e E0.
    assert (X : 1 <= Rpower a e); [|nra].
    assert (0 <= ln a) by (rewrite <- ln_1; destruct (Req_dec a 1) as [->|]; [lra|left; apply ln_increasing; lra]).
    unfold Rpower. rewrite <- exp_0 at 1. apply exp_mono. nra.
  - intros Hb' Hi' H. unfold power. destruct (Rlt_dec 0 a); [|lra]. rewrite Rpower_plus, Rpower_1 by auto.
    assert (E0 : 0 < linspace beta d i * sqrt (Rmax 0 a)).
    { apply Rmult_lt_0_compat; [|apply sqrt_lt_R0; rewrite Rmax_right by lra; lra].
      unfold linspace. destruct (Nat.eqb_spec d 1); [lia|]. apply Rmult_lt_0_compat; [apply Rmult_lt_0_compat; [auto|now apply lt_0_INR]|].
      apply Rinv_0_lt_compat. assert (X : (2 <= d)%nat) by lia. apply le_INR in X. cbn in X. lra. }
    generalize dependent (linspace beta d i * sqrt (Rmax 0 a)). intros e E0.
    assert (X : 1 < Rpower a e); [|nra].
    assert (0 < ln a) by (rewrite <- ln_1; apply ln_increasing; lra).
    unfold Rpower. rewrite <- exp_0 at 1. apply exp_increasing. nra.
Qed.
Print Assumptions C100_asymmetry.

(** Ill-conditioning multiplies the coordinates by factors in geometric progression, from 1 to the square root of alpha. *)
Theorem C100_conditioning : forall alpha d a, 0 < alpha -> (2 <= d)%nat ->
  ill alpha d 0 a = a /\ ill alpha d (d - 1) a = sqrt alpha * a /\
  exists q, 0 < q /\ forall i, ill alpha d (S i) a = q * ill alpha d i a.
Proof.
  intros alpha d a Ha Hd. assert (X := Hd). apply le_INR in X. cbn in X. unfold ill, linspace. destruct (Nat.eqb_spec d 1); [lia|].
  split; [|split].
  - cbn [INR]. unfold Rdiv. rewrite Rmult_0_r, Rmult_0_l, Rpower_O by auto. ring.
  - rewrite minus_INR by lia. cbn [INR]. replace (1 / 2 * (INR d - 1) / (INR d - 1)) with (/ 2) by (field; lra). now rewrite Rpower_sqrt.
  - exists (Rpower alpha (1 / 2 / (INR d - 1))). split; [apply exp_pos|]. intros i. rewrite S_INR.
    replace (1 / 2 * (INR i + 1) / (INR d - 1)) with (1 / 2 / (INR d - 1) + 1 / 2 * INR i / (INR d - 1)) by (field; lra).
    rewrite Rpower_plus. ring.
Qed.
Print Assumptions C100_conditioning.

(** Indexing takes the variables with these numbers, negative numbers counting from the end; other numbers and other sizes
    are refused. *)
Theorem C100_indexing : forall inds x, x <> [] ->
  (Forall (fun i => (- size x <= i < size x)%Z) inds -> apply_t (TIndex inds (size x)) x = Ok (part x (map (fun i => (i mod size x)%Z) inds))) /\
  (Exists (fun i => ~ (- size x <= i < size x)%Z) inds -> apply_t (TIndex inds (size x)) x = Err IndexError) /\
  (forall n, n <> size x -> apply_t (TIndex inds n) x = Err ValueError).
Proof.
  intros inds x Hx. assert (P : (0 < size x)%Z) by (unfold size; destruct x; [contradiction|cbn [length]; lia]).
  assert (I : forall i, (- size x <= i < size x)%Z -> item x i = Ok (nth (Z.to_nat (i mod size x)) x 0)).
  { intros i Hi. unfold item. unfold size in *. destruct (Z.ltb_spec i 0) as [L|L].
    - destruct (Z.ltb_spec (i + Z.of_nat (length x)) 0); [lia|].
      replace (i mod Z.of_nat (length x))%Z with (i + Z.of_nat (length x))%Z.
      + rewrite (nth_error_nth' x 0) by lia. reflexivity.
      + rewrite <- (Z.mod_small (i + Z.of_nat (length x)) (Z.of_nat (length x))) by lia. rewrite <- Zplus_mod_idemp_r, Z_mod_same_full, Z.add_0_r. reflexivity.
    - destruct (Z.ltb_spec i 0); [lia|]. rewrite Z.mod_small by lia. rewrite (nth_error_nth' x 0) by lia. reflexivity. }
  assert (I' : forall i, ~ (- size x <= i < size x)%Z -> item x i = Err IndexError).
  { intros i Hi. unfold item. unfold size in *. destruct (Z.ltb_spec i 0) as [L|L].
    - destruct (Z.ltb_spec (i + Z.of_nat (length x)) 0); [reflexivity|lia].
    - destruct (Z.ltb_spec i 0); [lia|]. rewrite (proj2 (nth_error_None x (Z.to_nat i))) by lia. reflexivity. }
  cbn [apply_t]. fold (size x). rewrite Z.eqb_refl. split; [|split].
  - induction 1 as [|i inds Hi H IH]; [reflexivity|]. cbn [items map part]. rewrite (I i Hi). cbn [bind]. rewrite IH. reflexivity.
  - assert (E : forall i, item x i = Err IndexError \/ exists a, item x i = Ok a).
    { intros i. destruct (item x i) as [a|e] eqn:E; [eauto|]. left. unfold item in E.
      match type of E with (if ?c then _ else _) = _ => destruct c end; [congruence|]. destruct (nth_error x _); congruence. }
    assert (E' : forall l, items x l = Err IndexError \/ exists a, items x l = Ok a).
    { induction l as [|i l [IH|[a IH]]]; cbn [items]; [eauto| |]; destruct (E i) as [->|[b ->]]; cbn [bind]; try rewrite IH; cbn [bind]; eauto. }
    induction 1 as [i inds Hi|i inds H IH]; cbn [items].
    + rewrite (I' i Hi). reflexivity.
    + destruct (E i) as [->|[b ->]]; cbn [bind]; [reflexivity|]. rewrite IH. reflexivity.
  - intros n Hn. destruct (Z.eqb_spec (size x) n); [congruence|reflexivity].
Qed.
Print Assumptions C100_indexing.

(** * A small testbed *)
Definition small : sizes := Sizes 4 2 3 1 1 2 2.
Definition turn : list vec := [[3 / 5; 4 / 5]; [- (4 / 5); 3 / 5]].
Definition turned : rotation 2 turn.
Proof.
  split; [reflexivity|]. split; [repeat constructor|]. intros x Hx. destruct x as [|a [|b [|c x]]]; unfold size in Hx; cbn [length] in Hx; try lia. unfold CoreFuncs.sphere, dot. cbn. field.
Qed.
Lemma one_turn : rotation 1 [[-1]].
Proof.
  split; [reflexivity|]. split; [repeat constructor|]. intros x Hx. destruct x as [|a [|b x]]; unfold size in Hx; cbn [length] in Hx; try lia. unfold CoreFuncs.sphere, dot. cbn. ring.
Qed.
Lemma small_ok : sizes_ok small.
Proof. repeat split; cbn; lia. Qed.
Definition parts5 : data := DParts [1; 2; 3; 4] [3; 0; 1; 2]%Z [1; 1]%Z [2; 3] [[-1]] turn turn.
Example C100_optimum_ex : sizes_ok small /\ data_ok small parts5 /\ exists f, make_function small 5 parts5 = Ok f /\ dimension f = 4%nat /\ length (l_chunks f) = 3%nat /\ call f [1; 2; 3; 4] = Ok 0.
Proof.
  assert (D : data_ok small parts5) by (split; [repeat constructor; lra|]; split; [repeat constructor; cbn; lia|]; split; [exact one_turn|split; exact turned]).
  split; [exact small_ok|]. split; [exact D|].
  destruct (make_function small 5 parts5) as [f|e] eqn:E; [|vm_compute in E; discriminate E]. exists f. split; [reflexivity|].
  destruct (C100_optimum small 5 parts5 f small_ok D E ltac:(discriminate)) as (o & O & _ & Zo & _). cbn in E. injection E as <-. split; [reflexivity|]. split; [reflexivity|].
  cbn [l_optimum new_lsgo] in O. injection O as <-. exact Zo.
Qed.
Definition parts13 (xopt : vec) : data := DParts xopt [2; 0; 1]%Z [2; 2]%Z [2; 3] [[-1]] turn turn.
Lemma parts13_ok : forall xopt, data_ok small (parts13 xopt).
Proof. intros xopt. split; [repeat constructor; lra|]. split; [repeat constructor; cbn; lia|]. split; [exact one_turn|split; exact turned]. Qed.
Example C100_overlapping_ex : exists f, make_function small 13 (parts13 [1; 2; 3]) = Ok f /\ zero_at (call f) 3 [1; 2; 3].
Proof.
  destruct (make_function small 13 (parts13 [1; 2; 3])) as [f|e] eqn:E; [|vm_compute in E; discriminate E]. exists f. split; [reflexivity|].
  destruct (C100_optimum small 13 _ f small_ok (parts13_ok _) E ltac:(discriminate)) as (o & O & Z). cbn in E. injection E as <-. cbn [l_optimum new_lsgo] in O. injection O as <-. exact Z.
Qed.
Example C100_split_ex : split [2; 0; 1]%Z [2; 2]%Z 1 = Ok [[2; 0]; [0; 1]]%Z /\ split [2; 0; 1]%Z [2; 2]%Z 0 = Err ValueError.
Proof. split; reflexivity. Qed.
(** Two groups share a variable for which they announce different values: no point has the value zero. *)
Theorem C100_conflicting_no_zero : exists f, make_function small 14 (parts13 [1; 2; 3; 4]) = Ok f /\ forall x, length x = dimension f -> exists v, call f x = Ok v /\ 0 < v.
Proof.
  destruct (make_function small 14 (parts13 [1; 2; 3; 4])) as [f|e] eqn:E; [|vm_compute in E; discriminate E]. exists f. split; [reflexivity|]. intros x Hx.
  assert (Dm : dimension f = 3%nat) by (cbn in E; injection E as <-; reflexivity).
  pose proof (C100_conflicting small [1; 2; 3; 4] [2; 0; 1]%Z [2; 2]%Z [2; 3] [[-1]] turn turn f small_ok (parts13_ok _) E) as (_ & _ & gs & xs & _ & (G1 & G2 & G3 & G4 & _) & (X1 & X2 & X3 & X4 & X5) & _ & V).
  destruct (V x Hx) as (v & Ev & V0 & Z). exists v. split; [exact Ev|]. destruct (Rle_lt_or_eq_dec 0 v V0) as [P|P]; [exact P|]. symmetry in P. apply Z in P. exfalso.
  inversion P as [|g xi gs' xs' A P' Eg Ex]; subst; [discriminate G1|]. inversion P' as [|h xj gs2 xs2 B P2 Eh Ej]; subst; [discriminate G1|].
  cbn [map] in G1, X1. injection G1 as Lg Lh Lr. injection X1 as Lx Ly Lz. destruct gs2; [|discriminate Lr]. destruct xs2; [|discriminate Lz].
  unfold size in *. destruct g as [|g1 [|g2 [|]]]; cbn [length] in Lg; try lia. destruct h as [|h1 [|h2 [|]]]; cbn [length] in Lh; try lia.
  destruct xi as [|x1 [|x2 [|]]]; cbn [length] in Lx; try lia. destruct xj as [|y1 [|y2 [|]]]; cbn [length] in Ly; try lia.
  specialize (G4 0%nat _ _ eq_refl eq_refl). cbn in G4. injection G4 as ->. specialize (X5 eq_refl). cbn in X5. injection X5 as -> -> -> ->.
  unfold part in A, B. cbn [map] in A, B. injection A as A1 A2. injection B as B1 B2. cbn in A2, B1. lra.
Qed.
Print Assumptions C100_conflicting_no_zero.
(** The sizes of the files meet the conditions. *)
Example C100_testbed_ex : sizes_ok testbed /\ (zsum [50; 25; 25; 100; 50; 25; 25] = 300)%Z /\
  split (arange 12) [5; 5; 6]%Z 2 = Ok [[0; 1; 2; 3; 4]; [3; 4; 5; 6; 7]; [6; 7; 8; 9; 10; 11]]%Z.
Proof. split; [repeat split; cbn; lia|]. split; reflexivity. Qed.

(** The functions made of groups of variables: one term for each group, the variables left forming the last group; the groups
    of the 13th function overlap, those of the others do not. *)
Theorem C100_groups : forall z number xopt p s w r25 r50 r100 f, (4 <= number <= 11 \/ number = 13)%nat -> sizes_ok z ->
  data_ok z (DParts xopt p s w r25 r50 r100) -> make_function z number (DParts xopt p s w r25 r50 r100) = Ok f ->
  exists gs, numbering p /\ groups p (s ++ (if (z_total z =? zsum s)%Z then [] else [(z_total z - zsum s)%Z])) (if (number =? 13)%nat then z_overlap z else 0%Z) gs
    /\ length (l_chunks f) = length gs.
Proof.
  intros z number xopt p s w r25 r50 r100 f N Sz D E.
  assert (E' : exists parts, multipart z (if (number =? 13)%nat then z_overlap z else 0%Z) parts xopt p s w r25 r50 r100 = Ok f).
  { destruct N as [N| ->]; [|exists p_schwefel; exact E]. do 4 (destruct number as [|number]; [lia|]).
    do 8 (destruct number as [|number]; [eexists; exact E|]). lia. }
  clear E. destruct E' as (parts & E). set (ov := if (number =? 13)%nat then z_overlap z else 0%Z) in *.
  assert (Ho : (0 <= ov <= z_overlap z)%Z) by (destruct Sz; subst ov; destruct (number =? 13)%nat; lia).
  destruct D as (W & Fs & R1 & R2 & R3). unfold multipart in E. cbv zeta in E.
  assert (Er : (z_total z =? zsum s)%Z = (z_total z - zsum s =? 0)%Z) by (destruct (Z.eqb_spec (z_total z) (zsum s)), (Z.eqb_spec (z_total z - zsum s) 0); auto; lia).
  rewrite Er. clear Er. set (rem := (z_total z - zsum s)%Z) in *.
  destruct ((rem =? 0)%Z || (rem =? z_rest z)%Z) eqn:C1; [|discriminate E]. cbn [negb] in E.
  destruct (Z.eqb_spec (size xopt) (size p)) as [Lx|]; [|discriminate E]. cbn [negb] in E.
  set (dims := s ++ (if (rem =? 0)%Z then [] else [rem])) in *. destruct (split p dims ov) as [gs|] eqn:Sp; [|discriminate E]. cbn [bind] in E.
  destruct (rotations z r25 r50 r100) as [rots|] eqn:Ro; [|discriminate E]. cbn [bind] in E.
  destruct (Z.eqb_spec (size w) (size gs - (if (rem =? z_rest z)%Z then 1 else 0))) as [Lw|]; [|discriminate E]. cbn [negb] in E.
  destruct (weighted parts rots (size p) w gs) as [cs|] eqn:We; [|discriminate E]. cbn [bind] in E.
  assert (Fd : Forall (fun d => (ov <= d)%Z) dims).
  { subst dims. apply Forall_app. split; [eapply Forall_impl; [|exact Fs]; cbn; intros; lia|]. destruct (Z.eqb_spec rem 0); [constructor|]. constructor; [|constructor].
    cbn [orb] in C1. apply Z.eqb_eq in C1. destruct Sz. lia. }
  assert (Nd : dims <> []).
  { subst dims. destruct s; [|discriminate]. cbn in *. destruct (Z.eqb_spec rem 0) as [K|K]; [|discriminate]. subst rem. destruct Sz. lia. }
  destruct (split_spec p dims ov gs Sp ltac:(lia) Fd Nd) as (Nu & Gr). exists gs. split; [exact Nu|]. split; [exact Gr|].
  assert (Lc : forall w gs cs, weighted parts rots (size p) w gs = Ok cs -> length cs = Nat.min (length w) (length gs)).
  { clear. induction w as [|c w IH]; intros [|g gs] cs E; cbn in E; try (injection E as <-; reflexivity).
    destruct (rotation_of rots (size g)); [|discriminate E]. cbn [bind] in E. destruct (parts false (length g)). destruct (weighted parts rots (size p) w gs) as [cs'|] eqn:We; [|discriminate E].
    cbn [bind] in E. injection E as <-. cbn. f_equal. apply IH. exact We. }
  apply Lc in We. clear Lc.
  destruct (Z.eqb_spec rem 0) as [K|K].
  - assert (Kr : (rem =? z_rest z)%Z = false) by (apply Z.eqb_neq; destruct Sz as (_ & _ & Sz & _); lia). rewrite Kr in Lw. injection E as <-. cbn [l_chunks new_lsgo].
    rewrite We. unfold size in Lw. lia.
  - cbn [orb] in C1. rewrite C1 in Lw. destruct (rev gs) as [|g r]; [discriminate E|]. destruct (parts true (length g)). injection E as <-. cbn [l_chunks new_lsgo]. rewrite app_length, We. unfold size in Lw. cbn. lia.
Qed.
Print Assumptions C100_groups.

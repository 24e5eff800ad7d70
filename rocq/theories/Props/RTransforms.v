(** C35, C36, C62: real transforms, over the reals of the standard library. *)
From Coq Require Import Reals ZArith Bool Lra Lia List.
From Verif.Model Require Import Prelude RTransforms.
From Verif.Proofs Require Import RTransforms.
Import ListNotations.
Open Scope R_scope.

(** The bounding methods: tanh, arctan, and the cumulative density functions of distributions with full
    support, which ignore a margin [eps]. *)
Inductive bounding : R -> (R -> R -> transform) -> Prop :=
| b_tanh : bounding 0 TTanh
| b_arctan : bounding 0 TArctan
| b_cdf cdf ppf eps scale : density cdf ppf -> 0 < scale -> 0 <= eps < 1 / 2 ->
    bounding eps (fun lo hi => TCdf cdf ppf lo hi eps scale).
(** strictly inside the bounds, and not in the margin *)
Definition inside (eps : R) (b : R * R) (y : R) : Prop :=
  fst b < y < snd b /\ fst b + eps * (snd b - fst b) <= y <= snd b - eps * (snd b - fst b).

Lemma point make eps lo hi : bounding eps make -> lo < hi ->
  exists f g : R -> R,
    (forall x, apply false (make lo hi) x = Fin (f x) /\ lo < f x < hi /\ in_range true (make lo hi) x = true) /\
    (forall x x', x < x' -> f x < f x') /\
    (forall y, inside eps (lo, hi) y -> apply true (make lo hi) y = Fin (g y) /\ f (g y) = y) /\
    (forall x, inside eps (lo, hi) (f x) -> g (f x) = x) /\
    (forall y, in_range false (make lo hi) y = true <-> lo <= y <= hi).
Proof.
  intros Hb Hl. pose proof PI_RGT_0 as Hp.
  assert (Hr : forall y, (if Rlt_dec hi y then false else if Rlt_dec y lo then false else true) = true <-> lo <= y <= hi).
  { intros y. destruct (Rlt_dec hi y); [split; [discriminate|lra]|]. destruct (Rlt_dec y lo); [split; [discriminate|lra]|]. split; [lra|reflexivity]. }
  destruct Hb as [| |cdf ppf eps scale (H1 & H2 & H3 & H4) Hs He].
  - exists (fun x => (hi + lo) / 2 + (hi - lo) / 2 * tanh x),
      (fun y => ln ((1 + (y - (hi + lo) / 2) / ((hi - lo) / 2)) / (1 - (y - (hi + lo) / 2) / ((hi - lo) / 2))) / 2).
    split; [|split; [|split; [|split]]].
    + intros x. split; [reflexivity|]. split; [|reflexivity]. apply scale_inside; [exact Hl|apply tanh_bound].
    + intros x x' H. apply tanh_increasing in H. nra.
    + intros y (Hy & _). cbn [fst snd] in Hy. pose proof (unscale_inside lo hi y Hl Hy) as Hu. cbn. rewrite np_arctanh_open by exact Hu. split; [reflexivity|].
      rewrite tanh_arctanh by exact Hu. field. lra.
    + intros x _. rewrite !unscale_scale by exact Hl. apply arctanh_tanh.
    + exact Hr.
  - exists (fun x => (hi + lo) / 2 + (hi - lo) / PI * atan x), (fun y => tan ((y - (hi + lo) / 2) / ((hi - lo) / PI))).
    assert (Hk : 0 < (hi - lo) / PI) by (apply Rdiv_lt_0_compat; lra).
    assert (Hh : (hi - lo) / PI * (PI / 2) = (hi - lo) / 2) by (field; lra).
    assert (Ho : forall y, lo < y < hi -> - (PI / 2) < (y - (hi + lo) / 2) / ((hi - lo) / PI) < PI / 2).
    { intros y Hy. split; (apply (Rmult_lt_reg_l ((hi - lo) / PI)); [exact Hk|]);
        replace ((hi - lo) / PI * ((y - (hi + lo) / 2) / ((hi - lo) / PI))) with (y - (hi + lo) / 2) by (field; lra); lra. }
    split; [|split; [|split; [|split]]].
    + intros x. split; [reflexivity|]. split; [|reflexivity]. destruct (atan_bound x) as (A1 & A2). split; nra.
    + intros x x' H. apply atan_increasing in H. nra.
    + intros y (Hy & _). cbn [fst snd] in Hy. cbn. rewrite np_tan_open by now apply Ho. split; [reflexivity|].
      rewrite atan_tan by now apply Ho. field. lra.
    + intros x _. replace (((hi + lo) / 2 + (hi - lo) / PI * atan x - (hi + lo) / 2) / ((hi - lo) / PI)) with (atan x) by (field; lra). apply tan_atan.
    + exact Hr.
  - exists (fun x => (hi - lo) * cdf (x / scale) + lo), (fun y => scale * ppf (rclip ((y - lo) / (hi - lo)) eps (1 - eps))).
    assert (Hsc : forall u, scale * u / scale = u) by (intros; field; lra).
    assert (Hin : forall y, inside eps (lo, hi) y -> rclip ((y - lo) / (hi - lo)) eps (1 - eps) = (y - lo) / (hi - lo) /\ 0 < (y - lo) / (hi - lo) < 1).
    { intros y (Hy & Hy'). cbn [fst snd] in *.
      assert (Hu : (hi - lo) * ((y - lo) / (hi - lo)) = y - lo) by (field; lra). split.
      - apply rclip_inside. split; (apply (Rmult_le_reg_l (hi - lo)); [lra|]); rewrite Hu; lra.
      - split; (apply (Rmult_lt_reg_l (hi - lo)); [lra|]); rewrite Hu; lra. }
    split; [|split; [|split; [|split]]].
    + intros x. split; [reflexivity|]. split; [|reflexivity]. destruct (H1 (x / scale)). split; nra.
    + intros x x' H. assert (x / scale < x' / scale) by (apply Rmult_lt_compat_r; [now apply Rinv_0_lt_compat|exact H]).
      apply H2 in H0. nra.
    + intros y Hy. split; [reflexivity|]. destruct (Hin y Hy) as (E & Hu). rewrite E, Hsc, H4 by exact Hu. field. lra.
    + intros x Hx. destruct (Hin _ Hx) as (E & _). rewrite E. replace (((hi - lo) * cdf (x / scale) + lo - lo) / (hi - lo)) with (cdf (x / scale)) by (field; lra).
      rewrite H3. field. lra.
    + exact Hr.
Qed.

Section Arrays.
Variables (eps : R) (make : R -> R -> transform) (bounds : list (R * R)).
Hypothesis Hmethod : bounding eps make.
Let ts : list transform := map (fun b => make (fst b) (snd b)) bounds.

Lemma new_ok : Forall (fun b => fst b < snd b) bounds <-> new_bound make (map fst bounds) (map snd bounds) = Ok ts.
Proof.
  unfold new_bound. assert (Ec : combine (map fst bounds) (map snd bounds) = bounds).
  { clear. induction bounds as [|[a b] l IH]; cbn; congruence. }
  assert (Em : map2 make (map fst bounds) (map snd bounds) = ts).
  { unfold ts. clear. induction bounds as [|[a b] l IH]; cbn; congruence. }
  rewrite Ec, Em. clear. split.
  - intros H. replace (existsb _ bounds) with false; [reflexivity|]. symmetry. induction H as [|b l H Hl IH]; [reflexivity|].
    cbn. destruct (Rle_dec (snd b) (fst b)); [lra|exact IH].
  - destruct (existsb _ bounds) eqn:E; [discriminate|]. intros _. induction bounds as [|b l IH]; constructor; cbn in E;
      destruct (Rle_dec (snd b) (fst b)); try discriminate; [lra|now apply IH].
Qed.
(** Bounds are accepted exactly when each lower bound is smaller than the upper one. *)
Theorem C35_new : (Forall (fun b => fst b < snd b) bounds -> new_bound make (map fst bounds) (map snd bounds) = Ok ts) /\
  (~ Forall (fun b => fst b < snd b) bounds -> new_bound make (map fst bounds) (map snd bounds) = Err ValueError).
Proof.
  split; [apply new_ok|]. intros H. destruct (new_bound make (map fst bounds) (map snd bounds)) as [t|e] eqn:E.
  - exfalso. apply H, new_ok. rewrite E. unfold new_bound in E. destruct (existsb _ _); [discriminate|].
    injection E as <-. f_equal. unfold ts. clear. induction bounds as [|[a b] l IH]; cbn; congruence.
  - unfold new_bound in E. destruct (existsb _ _); congruence.
Qed.

Hypothesis Hbounds : Forall (fun b => fst b < snd b) bounds.
(** Any array of real numbers is mapped strictly inside the bounds. *)
Theorem C35_inside (x : list R) : length x = length bounds ->
  exists y, forward ts x = Ok (map Fin y) /\ Forall2 (fun b v => fst b < v < snd b) bounds y.
Proof.
  unfold ts. intros Hl. revert x Hl. induction Hbounds as [|[lo hi] l Hb Hbs IH]; intros x Hl.
  - destruct x; [|discriminate]. exists []. split; [reflexivity|constructor].
  - destruct x as [|v x]; [discriminate|]. cbn [length] in Hl. destruct (IH Hbs x) as (y & E & Hy); [lia|].
    cbn [fst snd] in Hb. destruct (point make eps lo hi Hmethod Hb) as (f & g & Hf & _). destruct (Hf v) as (Ev & Hin & Hr).
    exists (f v :: y). split; [|now constructor]. unfold forward in *. cbn [map fst snd combine forallb]. rewrite Hr. cbn [andb].
    destruct (forallb _ _); [|discriminate]. injection E as E. cbn [map2 map]. now rewrite Ev, E.
Qed.
Lemma forward_nth (x : list R) y i b v : length x = length bounds -> forward ts x = Ok (map Fin y) -> nth_error bounds i = Some b -> nth_error x i = Some v ->
  exists w, nth_error y i = Some w /\ apply false (make (fst b) (snd b)) v = Fin w.
Proof.
  unfold forward. destruct (forallb _ _); [|discriminate]. intros Hl E Hb Hv. injection E as E. unfold ts in E. clear Hbounds.
  revert x y i Hl E Hb Hv. induction bounds as [|c l IH]; intros x y i Hl E Hb Hv; [now destruct i|].
  destruct x as [|u x]; [discriminate|]. cbn [map map2] in E. destruct y as [|w y]; [discriminate|]. injection E as E1 E2.
  destruct i as [|i]; cbn in Hb, Hv; [|cbn; eapply IH; eauto; cbn in Hl; lia]. injection Hb as ->. injection Hv as ->. exists w. auto.
Qed.
(** Strictly increasing in each coordinate. *)
Theorem C35_increasing (x x' y y' : list R) (i : nat) (v v' w w' : R) :
  length x = length bounds -> length x' = length bounds ->
  forward ts x = Ok (map Fin y) -> forward ts x' = Ok (map Fin y') ->
  nth_error x i = Some v -> nth_error x' i = Some v' -> nth_error y i = Some w -> nth_error y' i = Some w' -> v < v' -> w < w'.
Proof.
  intros Hl Hl' E E' Hv Hv' Hw Hw' Hlt. destruct (nth_error bounds i) as [b|] eqn:Hb.
  2:{ apply nth_error_None in Hb. assert (nth_error x i = None) by (apply nth_error_None; lia). congruence. }
  destruct (forward_nth _ _ _ _ _ Hl E Hb Hv) as (w1 & Hw1 & A1). destruct (forward_nth _ _ _ _ _ Hl' E' Hb Hv') as (w2 & Hw2 & A2).
  rewrite Hw in Hw1. injection Hw1 as <-. rewrite Hw' in Hw2. injection Hw2 as <-.
  assert (Hbb : fst b < snd b). { rewrite Forall_forall in Hbounds. apply Hbounds. eapply nth_error_In; eauto. }
  destruct (point make eps _ _ Hmethod Hbb) as (f & g & Hf & Hinc & _). destruct (Hf v) as (B1 & _). destruct (Hf v') as (B2 & _).
  rewrite A1 in B1. rewrite A2 in B2. injection B1 as ->. injection B2 as ->. now apply Hinc.
Qed.
(** Transforming back and forth, from inside the bounds. *)
Theorem C35_forward_backward (y : list R) : Forall2 (inside eps) bounds y ->
  exists x, backward ts y = Ok (map Fin x) /\ forward ts x = Ok (map Fin y).
Proof.
  unfold ts. intros H. induction H as [|[lo hi] v l y Hv H IH]; [exists []; split; reflexivity|].
  inversion Hbounds as [|? ? Hb Hbs]; subst. destruct (IH Hbs) as (x & E1 & E2). cbn [fst snd] in Hb.
  destruct (point make eps lo hi Hmethod Hb) as (f & g & Hf & _ & Hg & _ & Hr). destruct (Hg v Hv) as (Ev & Efg).
  destruct (Hf (g v)) as (Ef & _ & Hr'). exists (g v :: x). unfold backward, forward in *. cbn [map fst snd combine forallb].
  rewrite Hr'. rewrite (proj2 (Hr v)) by (destruct Hv as (Hv & _); cbn in Hv; lra). cbn [andb].
  destruct (forallb _ _); [|discriminate]. destruct (forallb _ _); [|discriminate]. injection E1 as E1. injection E2 as E2.
  cbn [map2 map]. rewrite Ev, E1, Ef, E2, Efg. auto.
Qed.
(** Forth and back, whenever the result is not in the margin (without a margin: always). *)
Theorem C35_backward_forward (x y : list R) : length x = length bounds -> forward ts x = Ok (map Fin y) ->
  Forall2 (inside eps) bounds y -> backward ts y = Ok (map Fin x).
Proof.
  unfold ts. intros Hl E H. revert x Hl E. induction H as [|[lo hi] v l y Hv H IH]; intros x Hl E.
  - destruct x; [reflexivity|discriminate].
  - destruct x as [|u x]; [discriminate|]. cbn [length] in Hl. inversion Hbounds as [|? ? Hb Hbs]; subst. cbn [fst snd] in Hb.
    destruct (point make eps lo hi Hmethod Hb) as (f & g & Hf & _ & Hg & Hgf & Hr). destruct (Hf u) as (Ef & _ & Hr').
    unfold forward in E. cbn [map fst snd combine forallb] in E. rewrite Hr' in E. cbn [andb] in E.
    destruct (forallb _ _) eqn:Efb; [|discriminate]. injection E as E1 E2. rewrite Ef in E1. injection E1 as E1.
    specialize (IH Hbs x ltac:(lia)). unfold forward in IH. rewrite Efb in IH. specialize (IH (f_equal Ok E2)).
    unfold backward in *. cbn [map fst snd combine forallb]. rewrite (proj2 (Hr v)) by (destruct Hv as (Hv' & _); cbn in Hv'; lra). cbn [andb].
    destruct (forallb _ _); [|discriminate]. injection IH as IH. cbn [map2 map]. destruct (Hg v Hv) as (Eg & _). rewrite Eg, IH.
    subst v. now rewrite Hgf.
Qed.
Corollary C35_inverse (x : list R) : eps = 0 -> length x = length bounds ->
  exists y, forward ts x = Ok (map Fin y) /\ backward ts y = Ok (map Fin x).
Proof.
  intros He Hl. destruct (C35_inside x Hl) as (y & E & Hy). exists y. split; [exact E|]. apply C35_backward_forward; auto.
  clear - Hy He. induction Hy; constructor; [|assumption]. split; [assumption|]. rewrite He. lra.
Qed.
(** Numbers out of the bounds are refused. *)
Theorem C35_outside (y : list R) i b v : nth_error bounds i = Some b -> nth_error y i = Some v -> v < fst b \/ snd b < v ->
  backward ts y = Err ValueError.
Proof.
  intros Hb Hv Ho. unfold backward. destruct (forallb _ _) eqn:E; [|reflexivity]. exfalso. rewrite forallb_forall in E.
  assert (Hin : In (make (fst b) (snd b), v) (combine ts y)).
  { unfold ts. clear - Hb Hv. revert y i Hb Hv. induction bounds as [|c l IH]; intros y i Hb Hv; [now destruct i|].
    destruct y as [|w y]; [now destruct i|]. destruct i as [|i]; cbn in *.
    - injection Hb as ->. injection Hv as ->. now left.
    - right. eapply IH; eauto. }
  specialize (E _ Hin). cbn in E. assert (Hbb : fst b < snd b). { rewrite Forall_forall in Hbounds. apply Hbounds. eapply nth_error_In; eauto. }
  destruct (point make eps _ _ Hmethod Hbb) as (f & g & _ & _ & _ & _ & Hr). apply Hr in E. lra.
Qed.
End Arrays.
(** The bounds themselves are accepted but correspond to infinite values. *)
Theorem C35_tanh_bounds lo hi : lo < hi -> backward [TTanh lo hi; TTanh lo hi] [lo; hi] = Ok [MInf; PInf].
Proof.
  intros H. unfold backward. cbn.
  destruct (Rlt_dec hi lo); [lra|]. destruct (Rlt_dec lo lo); [lra|]. destruct (Rlt_dec hi hi); [lra|]. cbn.
  replace ((lo - (hi + lo) / 2) / ((hi - lo) / 2)) with (-1) by (field; lra). replace ((hi - (hi + lo) / 2) / ((hi - lo) / 2)) with 1 by (field; lra).
  unfold np_arctanh. destruct (Req_EM_T (-1) 1); [lra|]. destruct (Req_EM_T (-1) (-1)); [|lra]. destruct (Req_EM_T 1 1); [reflexivity|lra].
Qed.
(** The Cauchy density is one, with scale 1 and the default margin. *)
Theorem C35_cauchy : bounding (/ 10 ^ 9) (fun lo hi => TCdf cauchy_cdf cauchy_ppf lo hi (/ 10 ^ 9) 1).
Proof.
  apply b_cdf; [apply cauchy_density|lra|]. split; [left; apply Rinv_0_lt_compat; lra|].
  assert (/ 10 ^ 9 < / 2); [|lra]. apply Rinv_lt_contravar; lra.
Qed.
(** With a margin, numbers far from zero are not recovered. *)
Theorem C35_margin_refuted : exists x y x', let t := TCdf cauchy_cdf cauchy_ppf 0 1 (/ 10 ^ 9) 1 in
  forward [t] [x] = Ok [Fin y] /\ backward [t] [y] = Ok [Fin x'] /\ x' <> x.
Proof.
  set (e := / 10 ^ 9). assert (He : 0 < e < 1 / 2).
  { unfold e. split; [apply Rinv_0_lt_compat; lra|]. assert (/ 10 ^ 9 < / 2); [|lra]. apply Rinv_lt_contravar; lra. }
  destruct cauchy_density as (H1 & H2 & H3 & H4).
  set (x := cauchy_ppf (1 - e / 2)). assert (Hx : cauchy_cdf x = 1 - e / 2) by (apply H4; lra).
  exists x, (1 - e / 2), (cauchy_ppf (1 - e)). cbn zeta. split; [|split].
  - unfold forward. cbn. replace (x / 1) with x by field. rewrite Hx. do 3 f_equal. ring.
  - unfold backward. cbn. destruct (Rlt_dec 1 (1 - e / 2)); [lra|]. destruct (Rlt_dec (1 - e / 2) 0); [lra|]. cbn.
    do 2 f_equal. replace ((1 - e / 2 - 0) / (1 - 0)) with (1 - e / 2) by field. unfold rclip. rewrite Rmax_left, Rmin_right by lra. f_equal. ring.
  - unfold x. intros E. apply (f_equal cauchy_cdf) in E. rewrite !H4 in E by lra. lra.
Qed.
Example C35_ex : bounding 0 TArctan /\ Forall (fun b => fst b < snd b) [(0, 1); (-2, 5)] /\ Forall2 (inside 0) [(0, 1); (-2, 5)] [1 / 3; 4].
Proof. split; [constructor|]. split; repeat constructor; cbn; lra. Qed.

(** ** C36 *)
(** [Exponentiate]: both directions, for positive bases other than 1. *)
Theorem C36_exponentiate base coeff x : 0 < base -> base <> 1 -> coeff <> 0 ->
  (exists y, 0 < y /\ forward [TExponentiate base coeff] [x] = Ok [Fin y] /\ backward [TExponentiate base coeff] [y] = Ok [Fin x]) /\
  (0 < x -> exists u, backward [TExponentiate base coeff] [x] = Ok [Fin u] /\ forward [TExponentiate base coeff] [u] = Ok [Fin x]).
Proof.
  intros Hb H1 Hc. pose proof (ln_neq_0 base Hb H1) as Hl. assert (Hcl : coeff * ln base <> 0) by now apply Rmult_integral_contrapositive_currified.
  split.
  - exists (Rpower base (coeff * x)). split; [apply exp_pos|]. unfold forward, backward. cbn. rewrite np_power_pos, (np_log_pos base Hb) by exact Hb.
    split; [reflexivity|]. rewrite np_log_pos by apply exp_pos. cbn [div_num]. rewrite np_div_nz by exact Hcl. unfold Rpower. rewrite ln_exp. do 3 f_equal. field. auto.
  - intros Hx. exists (ln x / (coeff * ln base)). unfold forward, backward. cbn. rewrite (np_log_pos base Hb), (np_log_pos x Hx). cbn [div_num].
    rewrite np_div_nz by exact Hcl. split; [reflexivity|]. rewrite np_power_pos by exact Hb. do 3 f_equal. unfold Rpower.
    replace (coeff * (ln x / (coeff * ln base)) * ln base) with (ln x) by (field; auto). now apply exp_ln.
Qed.
(** [Affine], on one coordinate. *)
Theorem C36_affine a b x : a <> 0 ->
  (exists y, forward [TAffine a b] [x] = Ok [Fin y] /\ backward [TAffine a b] [y] = Ok [Fin x]) /\
  (exists u, backward [TAffine a b] [x] = Ok [Fin u] /\ forward [TAffine a b] [u] = Ok [Fin x]).
Proof.
  intros Ha. split.
  - exists (a * x + b). unfold forward, backward. cbn. split; [reflexivity|]. rewrite np_div_nz by exact Ha. do 3 f_equal. field. exact Ha.
  - exists ((x - b) / a). unfold forward, backward. cbn. rewrite np_div_nz by exact Ha. split; [reflexivity|]. do 3 f_equal. field. exact Ha.
Qed.
(** [Reverted] exchanges the directions. *)
Theorem C36_reverted (t : list transform) (x : list R) :
  forward (map TReverted t) x = backward t x /\ backward (map TReverted t) x = forward t x.
Proof.
  unfold forward, backward.
  assert (E : forall d, forallb (fun p => in_range d (fst p) (snd p)) (combine (map TReverted t) x) = forallb (fun p => in_range (negb d) (fst p) (snd p)) (combine t x)).
  { intros d. revert x. induction t as [|a t IH]; intros [|v x]; cbn; try reflexivity. now rewrite IH. }
  assert (M : forall d, map2 (apply d) (map TReverted t) x = map2 (apply (negb d)) t x).
  { intros d. clear E. revert x. induction t as [|a t IH]; intros [|v x]; cbn; try reflexivity. now rewrite IH. }
  rewrite !E, !M. auto.
Qed.
(** A zero among the factors is accepted, and loses the coordinate. *)
Theorem C36_partly_zero_refuted : exists ts, new_affine [1; 0] [0; 0] = Ok ts /\
  forward ts [2; 3] = Ok [Fin 2; Fin 0] /\ backward ts [2; 0] = Ok [Fin 2; NaN].
Proof.
  eexists. split; [|split].
  - unfold new_affine. cbn. destruct (Req_EM_T 1 0); [lra|]. cbn. reflexivity.
  - unfold forward. cbn. do 2 f_equal; f_equal; try ring. f_equal. ring.
  - unfold backward. cbn. do 2 f_equal; [|f_equal].
    + rewrite np_div_nz by lra. f_equal. field.
    + unfold np_div. destruct (Req_EM_T 0 0); [|lra]. replace (0 - 0) with 0 by ring. destruct (Req_EM_T 0 0); [reflexivity|lra].
Qed.

(** Stacks of operations on a parameter. [invertible]: nonzero factors, positive bases other than 1,
    nonzero powers, and a positive number wherever a logarithm or a root is taken. *)
Definition sane (o : operation) : Prop :=
  match o with OAdd _ => True | OMultiply m => m <> 0 | OExponent b => 0 < b /\ b <> 1 | OPower p => p <> 0 end.
Definition root (o : operation) : bool := match o with OExponent _ | OPower _ => true | _ => false end.
Lemma op_set_get o v : sane o -> (root o = true -> 0 < v) -> exists u, op_backward o v = Fin u /\ op_forward o u = Fin v.
Proof.
  destruct o as [c|m|b|p]; cbn; intros Hs Hv.
  - exists (v - c). split; [reflexivity|]. f_equal. ring.
  - rewrite np_div_nz by exact Hs. eexists. split; [reflexivity|]. f_equal. field. exact Hs.
  - destruct Hs as (Hb & H1). specialize (Hv eq_refl). rewrite (np_log_pos b Hb), (np_log_pos v Hv). cbn [div_num].
    pose proof (ln_neq_0 b Hb H1) as Hl. rewrite np_div_nz by exact Hl. eexists. split; [reflexivity|]. rewrite np_power_pos by exact Hb.
    f_equal. unfold Rpower. replace (ln v / ln b * ln b) with (ln v) by (field; exact Hl). now apply exp_ln.
  - specialize (Hv eq_refl). rewrite np_power_pos by exact Hv. eexists. split; [reflexivity|]. rewrite np_power_pos by apply exp_pos. f_equal.
    rewrite <- (rpower_inv v (1 / p)) at 2; [|exact Hv|].
    + f_equal. field. exact Hs.
    + intros E. apply (Rmult_eq_compat_r p) in E. unfold Rdiv in E. rewrite Rmult_assoc, Rinv_l in E by exact Hs. lra.
Qed.
(** the numbers met at each operation when setting [v] *)
Fixpoint met_numbers (ops : list operation) (v : R) : list num :=
  match ops with [] => [] | o :: ops' => Fin v :: match op_backward o v with Fin u => met_numbers ops' u | _ => [NaN] end end.
Definition positive_at_roots (ops : list operation) (v : R) : Prop :=
  Forall (fun p => root (fst p) = true -> exists u, snd p = Fin u /\ 0 < u) (combine ops (met_numbers ops v)).
(** Setting a value through any stack and reading it gives it back. *)
Theorem C36_stack_set_get (ops : list operation) (v : R) : Forall sane ops -> positive_at_roots ops v ->
  exists raw, stack_set ops v = Fin raw /\ stack_get ops raw = Fin v.
Proof.
  revert v. induction ops as [|o ops IH]; intros v Hs Hp; [exists v; auto|].
  inversion Hs as [|? ? Ho Hs']; subst. unfold positive_at_roots in Hp. cbn [met_numbers combine] in Hp.
  inversion Hp as [|? ? Hr Hp']; subst. cbn [fst snd] in Hr.
  destruct (op_set_get o v Ho) as (u & Eb & Ef). { intros H. destruct (Hr H) as (w & E & Hw). now injection E as ->. }
  cbn [stack_set stack_get]. rewrite Eb in *. cbn [bindn] in *. destruct (IH u Hs' Hp') as (raw & E1 & E2). exists raw. split; [exact E1|]. rewrite E2. exact Ef.
Qed.
(** Reading and setting back leaves the raw number, when powers are taken of positive numbers only. *)
Lemma op_get_set o x y : sane o -> (match o with OPower _ => 0 < x | _ => True end) -> op_forward o x = Fin y -> op_backward o y = Fin x.
Proof.
  destruct o as [c|m|b|p]; cbn; intros Hs Hx E.
  - injection E as <-. f_equal. ring.
  - injection E as <-. rewrite np_div_nz by exact Hs. f_equal. field. exact Hs.
  - destruct Hs as (Hb & H1). rewrite np_power_pos in E by exact Hb. injection E as <-. rewrite (np_log_pos b Hb), np_log_pos by apply exp_pos.
    cbn [div_num]. pose proof (ln_neq_0 b Hb H1) as Hl. rewrite np_div_nz by exact Hl. f_equal. unfold Rpower. rewrite ln_exp. field. exact Hl.
  - rewrite np_power_pos in E by exact Hx. injection E as <-. rewrite np_power_pos by apply exp_pos. f_equal. now apply rpower_inv.
Qed.
Theorem C36_stack_get_set (ops : list operation) (raw v : R) : Forall sane ops ->
  (forall before p after u, ops = before ++ OPower p :: after -> stack_get after raw = Fin u -> 0 < u) ->
  stack_get ops raw = Fin v -> stack_set ops v = Fin raw.
Proof.
  revert v. induction ops as [|o ops IH]; intros v Hs Hp E; cbn in *; [congruence|].
  inversion Hs as [|? ? Ho Hs']; subst. destruct (stack_get ops raw) as [u| | |] eqn:Eg; cbn [bindn] in E; try discriminate.
  rewrite (op_get_set o u v); [|exact Ho| |exact E].
  - cbn [bindn]. apply IH; auto. intros before p after w -> Ew. apply (Hp (o :: before) p after w); [reflexivity|exact Ew].
  - destruct o; try exact I. apply (Hp [] power ops u); [reflexivity|exact Eg].
Qed.
(** Powers lose the sign, and an exponent layer turns a non-positive value into nan without raising; base 1 is
    accepted although it is not invertible. *)
Theorem C36_negative_power_refuted : exists v, op_forward (OPower 2) (-3) = Fin v /\ op_backward (OPower 2) v = Fin 3.
Proof.
  assert (E2 : Int_part 2 = 2%Z).
  { destruct (base_Int_part 2) as (H1 & H2). assert (A : (Int_part 2 <= 2)%Z) by (apply le_IZR; exact H1).
    assert (B : (1 < Int_part 2)%Z) by (apply lt_IZR; lra). lia. }
  exists 9. split.
  - cbn. unfold np_power. destruct (Rlt_dec 0 (-3)); [lra|]. destruct (Req_EM_T (-3) 0); [lra|]. rewrite E2. destruct (Req_EM_T 2 2); [|lra]. f_equal. change (powerRZ (-3) 2) with ((-3) ^ 2). ring.
  - cbn. rewrite np_power_pos by lra. f_equal. replace 9 with (Rpower 3 2); [apply rpower_inv; lra|].
    replace 2 with (INR 2) by (cbn; ring). rewrite Rpower_pow by lra. cbn. ring.
Qed.
Theorem C36_nonpositive_exponent_refuted (base v : R) : 0 < base -> base <> 1 -> v < 0 ->
  exists o, new_exponent base = Ok o /\ op_backward o v = NaN.
Proof.
  intros Hb H1 Hv. exists (OExponent base). split.
  - unfold new_exponent. destruct (Rle_dec base 0); [lra|reflexivity].
  - cbn. rewrite np_log_pos by exact Hb. unfold np_log. destruct (Rlt_dec 0 v); [lra|]. destruct (Req_EM_T v 0); [lra|reflexivity].
Qed.
Theorem C36_base_one_refuted : exists o, new_exponent 1 = Ok o /\ op_forward o 5 = Fin 1 /\ op_backward o 1 = NaN.
Proof.
  exists (OExponent 1). split; [|split].
  - unfold new_exponent. destruct (Rle_dec 1 0); [lra|reflexivity].
  - cbn. rewrite np_power_pos by lra. f_equal. unfold Rpower. rewrite ln_1, Rmult_0_r. apply exp_0.
  - cbn. rewrite np_log_pos by lra. cbn [div_num]. rewrite ln_1. unfold np_div. destruct (Req_EM_T 0 0); [reflexivity|lra].
Qed.
Example C36_stack_ex : Forall sane [OExponent 10; OAdd 3; OMultiply (-2)] /\ positive_at_roots [OExponent 10; OAdd 3; OMultiply (-2)] 1000.
Proof.
  split; [repeat constructor; cbn; lra|]. unfold positive_at_roots. cbn. rewrite !np_log_pos by lra. cbn [div_num].
  rewrite np_div_nz by (apply ln_neq_0; lra). cbn. repeat constructor; cbn; try discriminate. intros _. exists 1000. split; [reflexivity|lra].
Qed.

(** ** C62: angles *)
(** Angles are read in (-pi, pi], setting one and reading gives it back, and the distance to the origin of
    the raw coordinates does not matter. *)
Theorem C62_range (p : R * R) : - PI < angle_get p <= PI.
Proof. apply angle_range. Qed.
Theorem C62_set_get (v r : R) : - PI < v <= PI -> 0 < r ->
  angle_get (angle_set v) = v /\ angle_get (r * fst (angle_set v), r * snd (angle_set v)) = v.
Proof.
  intros Hv Hr. unfold angle_get, angle_set. cbn [fst snd]. split; [|now apply angle_polar].
  rewrite <- (Rmult_1_l (cos v)), <- (Rmult_1_l (sin v)). apply angle_polar; [lra|exact Hv].
Qed.
Print Assumptions C35_new.
Print Assumptions C35_inside.
Print Assumptions C35_increasing.
Print Assumptions C35_forward_backward.
Print Assumptions C35_backward_forward.
Print Assumptions C35_inverse.
Print Assumptions C35_outside.
Print Assumptions C35_tanh_bounds.
Print Assumptions C35_cauchy.
Print Assumptions C35_margin_refuted.
Print Assumptions C36_exponentiate.
Print Assumptions C36_affine.
Print Assumptions C36_reverted.
Print Assumptions C36_partly_zero_refuted.
Print Assumptions C36_stack_set_get.
Print Assumptions C36_stack_get_set.
Print Assumptions C36_negative_power_refuted.
Print Assumptions C36_nonpositive_exponent_refuted.
Print Assumptions C36_base_one_refuted.
Print Assumptions C62_range.
Print Assumptions C62_set_get.

(** Lemmas about bounds and exponents of parameters. *)
From Coq Require Import Reals Lra Bool List.
From Verif.Model Require Import Prelude RTransforms DataParam.
From Verif.Spec Require Import DataParam.
From Verif.Proofs Require Import RTransforms.
Import ListNotations.
Open Scope R_scope.

Lemma rlt_iff x y : rlt x y = true <-> x < y.
Proof. unfold rlt. destruct (Rlt_dec x y); split; intros; try easy; lra. Qed.
Lemma rle_iff x y : rle x y = true <-> x <= y.
Proof. unfold rle. destruct (Rle_dec x y); split; intros; try easy; lra. Qed.
Lemma rlt_false x y : rlt x y = false <-> y <= x.
Proof. unfold rlt. destruct (Rlt_dec x y); split; intros; try easy; lra. Qed.
Lemma rle_false x y : rle x y = false <-> y < x.
Proof. unfold rle. destruct (Rle_dec x y); split; intros; try easy; lra. Qed.

Lemma checker_iff lo hi v : checker lo hi v = true <-> within lo hi v.
Proof.
  unfold checker, within. rewrite andb_true_iff, !negb_true_iff. split.
  - intros (A & B). split; intros x ->; now apply rlt_false.
  - intros (A & B). split.
    + destruct lo as [l|]; [|reflexivity]. apply rlt_false. now apply A.
    + destruct hi as [h|]; [|reflexivity]. apply rlt_false. now apply B.
Qed.
Lemma within_dec lo hi v : within lo hi v \/ ~ within lo hi v.
Proof. rewrite <- checker_iff. destruct (checker lo hi v); [now left|right; discriminate]. Qed.
Lemma oclip_within lo hi x : in_order lo hi -> within lo hi (oclip lo hi x).
Proof.
  intros H. unfold oclip, within. split; intros y ->.
  - destruct hi as [h|]; [|apply Rmax_r]. specialize (H y h eq_refl eq_refl). pose proof (Rmax_r x y). apply Rmin_glb; lra.
  - apply Rmin_r.
Qed.
Lemma outside_within m lo hi x : in_order lo hi -> within lo hi (outside_forward m lo hi x).
Proof. intros H. unfold outside_forward. destruct m; apply oclip_within; exact H. Qed.

(** [log_base x] *)
Definition lg (base x : R) : R := ln x / ln base.
Lemma exp_back base v : 0 < base -> base <> 1 -> 0 < v -> op_backward (OExponent base) v = Fin (lg base v).
Proof.
  intros Hb H1 Hv. cbn [op_backward]. rewrite (np_log_pos base Hb), (np_log_pos v Hv). cbn [div_num]. apply np_div_nz. now apply ln_neq_0.
Qed.
Lemma exp_forw base x : 0 < base -> op_forward (OExponent base) x = Fin (Rpower base x).
Proof. intros Hb. cbn [op_forward]. now apply np_power_pos. Qed.
Lemma rpower_lg base v : 0 < base -> base <> 1 -> 0 < v -> Rpower base (lg base v) = v.
Proof.
  intros Hb H1 Hv. unfold Rpower, lg. pose proof (ln_neq_0 base Hb H1). replace (ln v / ln base * ln base) with (ln v) by (field; assumption).
  now apply exp_ln.
Qed.
Lemma lg_rpower base x : 0 < base -> base <> 1 -> lg base (Rpower base x) = x.
Proof. intros Hb H1. unfold Rpower, lg. rewrite ln_exp. field. now apply ln_neq_0. Qed.
Lemma exp_back_inv base v u : 0 < base -> op_backward (OExponent base) v = Fin u -> base <> 1 /\ 0 < v /\ u = lg base v.
Proof.
  intros Hb. cbn [op_backward]. rewrite (np_log_pos base Hb). unfold np_log. destruct (Rlt_dec 0 v) as [Hv|Hv].
  - cbn [div_num]. unfold np_div. destruct (Req_EM_T (ln base) 0) as [E|E].
    + destruct (Req_EM_T (ln v) 0); [discriminate|]. destruct (Rlt_dec 0 (ln v)); discriminate.
    + intros [= <-]. split; [|split; [exact Hv|reflexivity]]. intros ->. now rewrite ln_1 in E.
  - destruct (Req_EM_T v 0); cbn [div_num]; [|discriminate]. destruct (Rle_dec 0 (ln base)); discriminate.
Qed.
Lemma ln_pos_gt1 b : 1 < b -> 0 < ln b.
Proof. intros H. rewrite <- ln_1. apply ln_increasing; lra. Qed.
Lemma ln_neg_lt1 b : 0 < b < 1 -> ln b < 0.
Proof. intros H. rewrite <- ln_1. apply ln_increasing; lra. Qed.
Lemma ln_mono x y : 0 < x -> x <= y -> ln x <= ln y.
Proof. intros Hx [H| ->]; [left; now apply ln_increasing|now right]. Qed.
Lemma lg_increasing b x y : 1 < b -> 0 < x -> x < y -> lg b x < lg b y.
Proof.
  intros Hb Hx H. unfold lg. pose proof (ln_pos_gt1 b Hb). apply Rmult_lt_compat_r; [now apply Rinv_0_lt_compat|]. now apply ln_increasing.
Qed.
Lemma lg_mono b x y : 1 < b -> 0 < x -> x <= y -> lg b x <= lg b y.
Proof. intros Hb Hx [H| ->]; [left; now apply lg_increasing|now right]. Qed.
Lemma lg_decreasing b x y : 0 < b < 1 -> 0 < x -> x < y -> lg b y < lg b x.
Proof.
  intros Hb Hx H. unfold lg. pose proof (ln_neg_lt1 b Hb). pose proof (ln_increasing x y Hx H).
  assert (/ ln b < 0) by now apply Rinv_lt_0_compat. unfold Rdiv. nra.
Qed.
Lemma rpower_mono b x y : 1 < b -> x <= y -> Rpower b x <= Rpower b y.
Proof. intros Hb [H| ->]; [left; now apply Rpower_lt|now right]. Qed.

(** * Layers made by the constructors *)
Definition wf_bound (b : bound) : Prop :=
  in_order (b_lower b) (b_upper b) /\
  match b_method b with Arctan | Tanh => (exists l, b_lower b = Some l) /\ (exists h, b_upper b = Some h) | _ => True end.
Definition wf_layer (l : layer) : Prop := match l with Bound b => wf_bound b | Exponent base _ => 0 < base end.

Lemma arctan_point lo hi v u : lo < hi -> apply true (TArctan lo hi) v = Fin u -> in_range false (TArctan lo hi) v = true ->
  lo < v < hi /\ apply false (TArctan lo hi) u = Fin v.
Proof.
  intros H E Hr. cbn [apply in_range] in *. pose proof PI_RGT_0 as Hpi. destruct (Rlt_dec hi v); [discriminate|]. destruct (Rlt_dec v lo); [discriminate|].
  unfold np_tan in E. set (t := (v - (hi + lo) / 2) / ((hi - lo) / PI)) in *.
  assert (Et : t = (v - (hi + lo) / 2) * (PI / (hi - lo))) by (unfold t; field; lra).
  destruct (Req_EM_T t (PI / 2)); [discriminate|]. destruct (Req_EM_T t (- (PI / 2))); [discriminate|]. injection E as <-.
  assert (Hv : v = (hi + lo) / 2 + (hi - lo) / PI * t) by (rewrite Et; field; lra).
  assert (Hk : 0 < (hi - lo) / PI) by (apply Rdiv_lt_0_compat; lra).
  assert (Hends : (hi - lo) / PI * (PI / 2) = (hi - lo) / 2) by (field; lra).
  assert (B : - (PI / 2) < t < PI / 2).
  { split.
    - destruct (Rlt_le_dec (- (PI / 2)) t) as [K|K]; [exact K|]. destruct K as [K|K]; [|contradiction]. exfalso.
      assert ((hi - lo) / PI * t < (hi - lo) / PI * - (PI / 2)) by now apply Rmult_lt_compat_l. lra.
    - destruct (Rlt_le_dec t (PI / 2)) as [K|K]; [exact K|]. destruct K as [K|K]; [|symmetry in K; contradiction]. exfalso.
      assert ((hi - lo) / PI * (PI / 2) < (hi - lo) / PI * t) by now apply Rmult_lt_compat_l. lra. }
  split.
  - assert ((hi - lo) / PI * t < (hi - lo) / PI * (PI / 2)) by (apply Rmult_lt_compat_l; lra).
    assert ((hi - lo) / PI * - (PI / 2) < (hi - lo) / PI * t) by (apply Rmult_lt_compat_l; lra). lra.
  - rewrite atan_tan by lra. now rewrite <- Hv.
Qed.
Lemma tanh_point lo hi v u : lo < hi -> apply true (TTanh lo hi) v = Fin u -> in_range false (TTanh lo hi) v = true ->
  lo < v < hi /\ apply false (TTanh lo hi) u = Fin v.
Proof.
  intros H E Hr. cbn [apply in_range] in *. destruct (Rlt_dec hi v); [discriminate|]. destruct (Rlt_dec v lo); [discriminate|].
  set (t := (v - (hi + lo) / 2) / ((hi - lo) / 2)) in *. assert (Hv : v = (hi + lo) / 2 + (hi - lo) / 2 * t) by (unfold t; field; lra).
  unfold np_arctanh in E. destruct (Req_EM_T t 1); [discriminate|]. destruct (Req_EM_T t (-1)); [discriminate|].
  destruct (Rlt_dec (-1) t); [|discriminate]. destruct (Rlt_dec t 1); [|discriminate]. injection E as <-.
  split; [|rewrite tanh_arctanh by lra; now rewrite <- Hv]. rewrite Hv. apply scale_inside; lra.
Qed.
Lemma arctan_inside lo hi x : lo < hi -> exists v, apply false (TArctan lo hi) x = Fin v /\ lo < v < hi.
Proof.
  intros H. cbn [apply]. eexists. split; [reflexivity|]. pose proof PI_RGT_0. pose proof (atan_bound x).
  replace ((hi - lo) / PI * atan x) with ((hi - lo) / 2 * (atan x / (PI / 2))) by (field; lra). apply scale_inside; [exact H|].
  assert (Hp : 0 < PI / 2) by lra. split; apply (Rmult_lt_reg_r (PI / 2)); try exact Hp; unfold Rdiv; rewrite ?Rmult_assoc, ?Rinv_l by lra; lra.
Qed.
Lemma tanh_inside lo hi x : lo < hi -> exists v, apply false (TTanh lo hi) x = Fin v /\ lo < v < hi.
Proof. intros H. cbn [apply]. eexists. split; [reflexivity|]. apply scale_inside; [exact H|apply tanh_bound]. Qed.

(** what is set is read back *)
Lemma set_get ls v r : Forall wf_layer ls -> set_layers ls v = Ok r -> get_layers ls r = Ok (v, r).
Proof.
  intros Hw. revert v. induction Hw as [|[b|base g] ls Hl Hw IH]; intros v E; cbn [set_layers get_layers] in *.
  - now injection E as ->.
  - destruct Hl as (Ho & Hm). unfold bound_backward in E. destruct (b_method b) eqn:Em.
    + destruct (checker _ _ v) eqn:Ec; [|discriminate]. cbn [bind] in E. rewrite (IH _ E). cbn [bind fst]. now rewrite Ec.
    + destruct (checker _ _ v) eqn:Ec; [|discriminate]. cbn [bind] in E. rewrite (IH _ E). cbn [bind fst]. now rewrite Ec.
    + destruct Hm as ((l & El) & h & Eh). rewrite El, Eh in *. specialize (Ho l h eq_refl eq_refl).
      destruct (in_range _ _ _) eqn:Er; [|discriminate]. destruct (apply true _ v) as [u| | |] eqn:Ea; try discriminate. cbn [finite bind] in E.
      rewrite (IH _ E). cbn [bind fst snd]. destruct (arctan_point l h v u Ho Ea Er) as (_ & ->). reflexivity.
    + destruct Hm as ((l & El) & h & Eh). rewrite El, Eh in *. specialize (Ho l h eq_refl eq_refl).
      destruct (in_range _ _ _) eqn:Er; [|discriminate]. destruct (apply true _ v) as [u| | |] eqn:Ea; try discriminate. cbn [finite bind] in E.
      rewrite (IH _ E). cbn [bind fst snd]. destruct (tanh_point l h v u Ho Ea Er) as (_ & ->). reflexivity.
    + cbn [bind] in E. rewrite (IH _ E). reflexivity.
  - destruct (op_backward _ v) as [u| | |] eqn:Eb; try discriminate. cbn [finite bind] in E. rewrite (IH _ E). cbn [bind fst snd].
    destruct (exp_back_inv _ _ _ Hl Eb) as (H1 & Hv & ->). rewrite exp_forw by exact Hl. cbn [finite bind]. now rewrite rpower_lg.
Qed.
(** reading twice gives the same *)
Lemma get_again ls raw v r : Forall wf_layer ls -> get_layers ls raw = Ok (v, r) -> get_layers ls r = Ok (v, r).
Proof.
  intros Hw. revert v r. induction Hw as [|[b|base g] ls Hl Hw IH]; intros v r E; cbn [get_layers] in *.
  - now injection E as -> ->.
  - destruct (get_layers ls raw) as [(w, r')|e] eqn:Eg; [|discriminate]. cbn [bind fst snd] in E. destruct Hl as (Ho & Hm).
    assert (K : forall m, (if checker (b_lower b) (b_upper b) w then Ok (w, r')
        else let v := outside_forward m (b_lower b) (b_upper b) w in bind (set_layers ls v) (fun r => Ok (v, r))) = Ok (v, r) ->
      get_layers ls r = Ok (v, r) /\ checker (b_lower b) (b_upper b) v = true).
    { intros m. destruct (checker (b_lower b) (b_upper b) w) eqn:Ec.
      - intros [= -> ->]. split; [now apply IH|exact Ec].
      - cbv zeta. intros E2. destruct (set_layers ls (outside_forward m (b_lower b) (b_upper b) w)) as [s|e] eqn:Es; cbn [bind] in E2; [|discriminate E2]. injection E2 as E3 E4. subst v r. split.
        + now apply set_get.
        + apply checker_iff. now apply outside_within. }
    destruct (b_method b) eqn:Em.
    + destruct (K Clipping E) as (-> & Ec). cbn [bind fst]. now rewrite Ec.
    + destruct (K Bouncing E) as (-> & Ec). cbn [bind fst]. now rewrite Ec.
    + destruct Hm as ((l & El) & h & Eh). rewrite El, Eh in *. destruct (apply false _ w) as [u| | |] eqn:Ea; try discriminate. cbn [finite bind] in E.
      injection E as -> ->. rewrite (IH _ _ eq_refl). cbn [bind fst snd]. rewrite Ea. reflexivity.
    + destruct Hm as ((l & El) & h & Eh). rewrite El, Eh in *. destruct (apply false _ w) as [u| | |] eqn:Ea; try discriminate. cbn [finite bind] in E.
      injection E as -> ->. rewrite (IH _ _ eq_refl). cbn [bind fst snd]. rewrite Ea. reflexivity.
    + injection E as -> ->. rewrite (IH _ _ eq_refl). reflexivity.
  - destruct (get_layers ls raw) as [(w, r')|e] eqn:Eg; [|discriminate]. cbn [bind fst snd] in E. rewrite exp_forw in * by exact Hl. cbn [finite bind] in E.
    injection E as <- <-. rewrite (IH _ _ eq_refl). cbn [bind fst snd]. rewrite exp_forw by exact Hl. reflexivity.
Qed.

(** * Constructing bounds *)
Definition both (lo hi : option R) : bool := match lo, hi with Some _, Some _ => true | _, _ => false end.
Definition mkb (m : method) (lo hi : option R) (u g : bool) : bound := {| b_method := m; b_lower := lo; b_upper := hi; b_uniform := u; b_legacy := g |}.
(** the bounds that a method accepts *)
Definition enough (m : method) (lo hi : option R) : Prop :=
  match m with Constraint => True | Clipping | Bouncing => lo <> None \/ hi <> None | _ => both lo hi = true end.
Definition uni (lo hi : option R) (u : option bool) : bool := match u with None => both lo hi | Some u => u end.
Lemma new_bound_ok m lo hi u : enough m lo hi -> in_order lo hi -> (uni lo hi u = true -> both lo hi = true) ->
  new_bound m lo hi u = Ok (mkb m lo hi (uni lo hi u) false).
Proof.
  intros He Ho Hu. unfold new_bound. fold (both lo hi). fold (uni lo hi u).
  replace (uni lo hi u && negb (both lo hi)) with false by (destruct (uni lo hi u); [rewrite Hu by reflexivity|]; reflexivity).
  assert (Hr : match lo, hi with Some l, Some h => rle h l | _, _ => false end = false).
  { destruct lo as [l|], hi as [h|]; try reflexivity. apply rle_false. now apply Ho. }
  rewrite Hr. clear Hr. destruct m, lo as [l|], hi as [h|]; cbn in *; try reflexivity; try discriminate; destruct He; congruence.
Qed.
Lemma new_bound_disorder m lo hi u : (exists l h, lo = Some l /\ hi = Some h /\ h <= l) -> new_bound m lo hi u = Err ValueError.
Proof.
  intros (l & h & -> & -> & H). unfold new_bound. destruct (_ && _); [reflexivity|]. replace (rle h l) with true by (symmetry; now apply rle_iff). reflexivity.
Qed.
Lemma not_in_order lo hi : ~ in_order lo hi -> exists l h, lo = Some l /\ hi = Some h /\ h <= l.
Proof.
  intros H. destruct lo as [l|]; [|exfalso; apply H; intros ? ? K; discriminate]. destruct hi as [h|]; [|exfalso; apply H; intros ? ? ? K; discriminate].
  exists l, h. split; [reflexivity|split; [reflexivity|]]. destruct (Rlt_le_dec l h) as [K|K]; [|exact K]. exfalso. apply H. now intros ? ? [= <-] [= <-].
Qed.
Lemma in_order_dec lo hi : in_order lo hi \/ ~ in_order lo hi.
Proof.
  destruct lo as [l|]; [|left; intros ? ? K; discriminate]. destruct hi as [h|]; [|left; intros ? ? ? K; discriminate].
  destruct (Rlt_le_dec l h) as [K|K]; [left; now intros ? ? [= <-] [= <-]|right]. intros H. specialize (H l h eq_refl eq_refl). lra.
Qed.

Definition base_data (v s : R) (c : list (option R * option R)) : data := {| d_raw := v; d_layers := []; d_sigma := s; d_checks := c |}.
Lemma get_base v s c : get_value (base_data v s c) = Ok (v, base_data v s c).
Proof. reflexivity. Qed.
Definition mkd (r s : R) (c : list (option R * option R)) (ls : list layer) : data := {| d_raw := r; d_layers := ls; d_sigma := s; d_checks := c |}.

(** setting one bound on an unbounded number *)
Lemma call_ok b v s c r : wf_bound b -> bound_backward b v = Ok r ->
  call_bound b (base_data v s c) = (mkd r s c [Bound b], None).
Proof.
  intros (Ho & Hm) E. unfold call_bound. rewrite get_base. unfold set_value. cbn [with_layers d_layers base_data set_layers]. rewrite E. cbn [bind with_raw d_layers d_raw d_sigma d_checks].
  destruct (b_lower b) as [l|] eqn:El; [|reflexivity]. destruct (b_upper b) as [h|] eqn:Eh; [|reflexivity]. specialize (Ho l h eq_refl eq_refl).
  cbn [set_layers].
  assert (Hl : forall x, x = l \/ x = h -> match bind (bind (bound_backward b x) (fun v => Ok v)) (fun r0 => Ok (with_raw (mkd r s c [Bound b]) r0)) with Err ValueError => true | _ => false end = false).
  { intros x Hx. assert (Hc : checker (Some l) (Some h) x = true) by (apply checker_iff; split; intros ? [= <-]; destruct Hx; subst; lra).
    unfold bound_backward. rewrite El, Eh. destruct (b_method b); try reflexivity.
    - now rewrite Hc.
    - now rewrite Hc.
    - replace (in_range false (TArctan l h) x) with true; [destruct (apply true (TArctan l h) x); reflexivity|].
      cbn. destruct (Rlt_dec h x), (Rlt_dec x l); try reflexivity; destruct Hx; subst; lra.
    - replace (in_range false (TTanh l h) x) with true; [destruct (apply true (TTanh l h) x); reflexivity|].
      cbn. destruct (Rlt_dec h x), (Rlt_dec x l); try reflexivity; destruct Hx; subst; lra. }
  unfold mkd, with_raw in Hl. cbn in Hl. cbn. rewrite !Hl by auto. reflexivity.
Qed.
Lemma call_err b v s c e : bound_backward b v = Err e -> snd (call_bound b (base_data v s c)) = Some e.
Proof.
  intros E. unfold call_bound. rewrite get_base. unfold set_value. cbn [with_layers d_layers base_data set_layers]. rewrite E. reflexivity.
Qed.
Lemma clip_backward m lo hi u g v : m = Clipping \/ m = Bouncing ->
  bound_backward (mkb m lo hi u g) v = if checker lo hi v then Ok v else Err ValueError.
Proof. intros [-> | ->]; reflexivity. Qed.
Lemma set_bounds_base m lo hi u v s c r : enough m lo hi -> in_order lo hi -> (uni lo hi u = true -> both lo hi = true) ->
  bound_backward (mkb m lo hi (uni lo hi u) true) v = Ok r ->
  set_bounds (base_data v s c) lo hi m u =
    (mkd r s (match m with Constraint => c ++ [(lo, hi)] | _ => c end) [Bound (mkb m lo hi (uni lo hi u) true)], None).
Proof.
  intros He Ho Hu E. unfold set_bounds. rewrite get_base. rewrite (new_bound_ok _ _ _ _ He Ho Hu). cbn [mkb b_method b_lower b_upper b_uniform].
  set (c' := match m with Constraint => c ++ [(lo, hi)] | _ => c end).
  replace (match m with Constraint => with_check (base_data v s c) (lo, hi) | _ => base_data v s c end) with (base_data v s c') by (unfold c'; destruct m; reflexivity).
  change {| b_method := m; b_lower := lo; b_upper := hi; b_uniform := uni lo hi u; b_legacy := true |} with (mkb m lo hi (uni lo hi u) true).
  rewrite (call_ok (mkb m lo hi (uni lo hi u) true) v s c' r).
  - match goal with |- context [fix_legacy ?d] => change (fix_legacy d) with (d, @None exn) end. cbv iota beta.
    unfold set_value. cbn [mkd d_layers set_layers]. rewrite E. reflexivity.
  - split; [exact Ho|]. cbn. destruct m; try exact I; cbn in He; destruct lo, hi; try discriminate; eauto.
  - exact E.
Qed.

Lemma set_bounds_base_err m lo hi u v s c : m = Clipping \/ m = Bouncing -> (uni lo hi u = true -> both lo hi = true) -> ~ (in_order lo hi /\ within lo hi v) ->
  snd (set_bounds (base_data v s c) lo hi m u) = Some ValueError.
Proof.
  intros Hm Hu H. unfold set_bounds. rewrite get_base. destruct (in_order_dec lo hi) as [Ho|Ho].
  2:{ rewrite new_bound_disorder by now apply not_in_order. reflexivity. }
  assert (Hw : checker lo hi v = false) by (destruct (checker lo hi v) eqn:E; [apply checker_iff in E; tauto|reflexivity]).
  rewrite new_bound_ok; [|destruct lo, hi; try (destruct Hm; subst m; cbn; (now left) || (now right)); discriminate Hw|exact Ho|exact Hu].
  cbn [mkb b_method b_lower b_upper b_uniform].
  change {| b_method := m; b_lower := lo; b_upper := hi; b_uniform := uni lo hi u; b_legacy := true |} with (mkb m lo hi (uni lo hi u) true).
  replace (match m with Constraint => with_check (base_data v s c) (lo, hi) | _ => base_data v s c end) with (base_data v s c) by (destruct Hm; subst m; reflexivity).
  pose proof (call_err (mkb m lo hi (uni lo hi u) true) v s c ValueError) as K. rewrite clip_backward, Hw in K by exact Hm.
  specialize (K eq_refl). destruct (call_bound _ _) as [d o]. cbn in K. subst o. reflexivity.
Qed.

(** * Exponents *)
Definition olg (base : R) (x : option R) : option R := option_map (lg base) x.
Lemma within_lg base lo hi v : 1 < base -> positive lo hi -> 0 < v -> within lo hi v -> within (olg base lo) (olg base hi) (lg base v).
Proof.
  intros Hb (P1 & P2) Hv (W1 & W2). split; intros x E.
  - destruct lo as [l|]; [|discriminate]. injection E as <-. apply lg_mono; auto.
  - destruct hi as [h|]; [|discriminate]. injection E as <-. apply lg_mono; auto.
Qed.
Lemma within_rpower base lo hi x : 1 < base -> positive lo hi -> within (olg base lo) (olg base hi) x -> within lo hi (Rpower base x).
Proof.
  intros Hb (P1 & P2) (W1 & W2). split; intros y ->.
  - rewrite <- (rpower_lg base y) by (auto; lra). apply rpower_mono; [exact Hb|]. now apply W1.
  - rewrite <- (rpower_lg base y) by (auto; lra). apply rpower_mono; [exact Hb|]. now apply W2.
Qed.
Lemma in_order_lg base lo hi : 1 < base -> positive lo hi -> in_order lo hi -> in_order (olg base lo) (olg base hi).
Proof.
  intros Hb (P1 & P2) Ho l h El Eh. destruct lo as [l'|]; [|discriminate]. destruct hi as [h'|]; [|discriminate]. injection El as <-. injection Eh as <-.
  apply lg_increasing; auto.
Qed.
Lemma in_log_space_ok base m lo hi u : 1 < base -> positive lo hi -> in_order lo hi -> enough m lo hi -> (u = true -> both lo hi = true) ->
  in_log_space base (mkb m lo hi u true) = Ok (mkb m (olg base lo) (olg base hi) u (match m with Constraint => true | _ => false end)).
Proof.
  intros Hb (P1 & P2) Ho He Hu. unfold in_log_space. cbn [mkb b_lower b_upper b_method b_uniform b_legacy].
  assert (K : forall x, (forall y, x = Some y -> 0 < y) -> match x with None => Ok None | Some x => bind (finite (op_backward (OExponent base) x)) (fun y => Ok (Some y)) end = Ok (olg base x)).
  { intros [x|] Hx; [|reflexivity]. rewrite exp_back by (auto; lra). reflexivity. }
  rewrite (K lo P1). cbn [bind]. rewrite (K hi P2). cbn [bind].
  assert (N : forall m, enough m lo hi -> new_bound m (olg base lo) (olg base hi) (Some u) = Ok (mkb m (olg base lo) (olg base hi) u false)).
  { intros m' He'. rewrite new_bound_ok; [reflexivity| | |].
    - destruct m', lo, hi; cbn in *; try exact I; try reflexivity; try discriminate; destruct He' as [A|A]; (left; discriminate) || (right; discriminate) || (now contradict A).
    - apply in_order_lg; auto. split; auto.
    - cbn. intros ->. specialize (Hu eq_refl). now destruct lo, hi. }
  destruct m; try (apply N; exact He). reflexivity.
Qed.
Lemma bounce_get m lo hi u g raw : m = Clipping \/ m = Bouncing -> in_order lo hi ->
  exists v, get_layers [Bound (mkb m lo hi u g)] raw = Ok (v, v) /\ within lo hi v /\ (within lo hi raw -> v = raw).
Proof.
  intros Hm Ho. cbn [get_layers bind mkb b_method b_lower b_upper fst].
  assert (K : exists v, (if checker lo hi raw then Ok (raw, raw) else let v := outside_forward m lo hi raw in bind (set_layers [] v) (fun r => Ok (v, r))) = Ok (v, v) /\ within lo hi v /\ (within lo hi raw -> v = raw)).
  { destruct (checker lo hi raw) eqn:E.
    - exists raw. apply checker_iff in E. auto.
    - exists (outside_forward m lo hi raw). split; [reflexivity|]. split; [now apply outside_within|]. intros W. apply checker_iff in W. congruence. }
  destruct Hm as [-> | ->]; exact K.
Qed.
Lemma bound_get m lo hi u g raw : m <> Constraint -> wf_bound (mkb m lo hi u g) ->
  exists v r, get_layers [Bound (mkb m lo hi u g)] raw = Ok (v, r) /\ within lo hi v.
Proof.
  intros Hm (Ho & Hb). cbn [mkb b_method b_lower b_upper] in Ho, Hb. destruct m; try (now contradict Hm).
  - destruct (bounce_get Clipping lo hi u g raw (or_introl eq_refl) Ho) as (v & E & W & _). eauto.
  - destruct (bounce_get Bouncing lo hi u g raw (or_intror eq_refl) Ho) as (v & E & W & _). eauto.
  - destruct Hb as ((l & ->) & h & ->). specialize (Ho l h eq_refl eq_refl). destruct (arctan_inside l h raw Ho) as (v & E & W).
    exists v, raw. cbn [get_layers bind mkb b_method b_lower b_upper fst snd]. rewrite E. split; [reflexivity|]. split; intros x [= <-]; lra.
  - destruct Hb as ((l & ->) & h & ->). specialize (Ho l h eq_refl eq_refl). destruct (tanh_inside l h raw Ho) as (v & E & W).
    exists v, raw. cbn [get_layers bind mkb b_method b_lower b_upper fst snd]. rewrite E. split; [reflexivity|]. split; intros x [= <-]; lra.
Qed.

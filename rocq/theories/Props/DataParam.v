(** C87: arrays, scalars and logarithmic scalars start where documented, stay within their bounds,
    give back the values they are set to and are sampled over their whole range. *)
From Coq Require Import Reals Lra Bool List.
From Verif.Model Require Import Prelude RTransforms DataParam.
From Verif.Spec Require Import DataParam.
From Verif.Proofs Require Import RTransforms DataParam.
Import ListNotations.
Open Scope R_scope.

(** * Layers in general *)
(** A value that a parameter accepts is the value it has then, whatever the layers (with positive bases
    and bounds in order). *)
Theorem C87_set_get (d d' : data) (v : R) : Forall wf_layer (d_layers d) -> set_value d v = Ok d' -> get_value d' = Ok (v, d').
Proof.
  intros Hw E. unfold set_value in E. destruct (set_layers _ v) as [r|e] eqn:Es; [|discriminate]. cbn [bind] in E. injection E as <-.
  unfold get_value. cbn [with_raw d_layers d_raw]. rewrite (set_get _ _ _ Hw Es). reflexivity.
Qed.
(** Reading the value may move the data back within the bounds; reading it again gives the same. *)
Theorem C87_get_again (d d' : data) (v : R) : Forall wf_layer (d_layers d) -> get_value d = Ok (v, d') -> get_value d' = Ok (v, d').
Proof.
  intros Hw E. unfold get_value in E. destruct (get_layers _ _) as [(w, r)|e] eqn:Es; [|discriminate]. cbn [bind fst snd] in E. injection E as <- <-.
  unfold get_value. cbn [with_raw d_layers d_raw]. rewrite (get_again _ _ _ _ Hw Es). reflexivity.
Qed.

(** * Scalar and Array *)
Lemma scalar_shape make init lo hi : make = new_scalar \/ make = new_array -> in_order lo hi -> within lo hi (starting init lo hi) ->
  exists ls, make init lo hi = Ok (mkd (starting init lo hi) (deviation lo hi) [] ls) /\
    ((lo = None /\ hi = None /\ ls = []) \/ exists u g, ls = [Bound (mkb Bouncing lo hi u g)]).
Proof.
  intros Hm Ho Hw. pose proof (proj2 (checker_iff _ _ _) Hw) as Hc. clear Hw.
  assert (Hs : (match init with Some v => v | None => match lo, hi with Some l, Some h => (l + h) / 2 | _, _ => 0 end end) = starting init lo hi)
    by (destruct init, lo, hi; reflexivity).
  destruct Hm as [-> | ->].
  - unfold new_scalar. rewrite Hs. set (v := starting init lo hi) in *.
    assert (K : forall s u, (u = true -> both lo hi = true) -> lo <> None \/ hi <> None ->
      finish (set_bounds (base_data v s []) lo hi Bouncing (Some u)) = Ok (mkd v s [] [Bound (mkb Bouncing lo hi u true)])).
    { intros s u Hu He. rewrite (set_bounds_base Bouncing lo hi (Some u) v s [] v); auto. rewrite clip_backward, Hc by auto. reflexivity. }
    destruct lo as [l|], hi as [h|]; eexists; (split; [|first [left; now auto | right; eauto]]).
    + apply (K ((h - l) / 6)); [reflexivity|left; discriminate].
    + apply (K 1); [discriminate|left; discriminate].
    + apply (K 1); [discriminate|right; discriminate].
    + reflexivity.
  - unfold new_array. rewrite Hs. set (v := starting init lo hi) in *.
    assert (K : forall s, lo <> None \/ hi <> None ->
      bind (new_bound Bouncing lo hi (Some false)) (fun b => finish (call_bound b (base_data v s []))) = Ok (mkd v s [] [Bound (mkb Bouncing lo hi false false)])).
    { intros s He. rewrite new_bound_ok by (auto; discriminate). cbn [bind uni]. rewrite (call_ok _ v s [] v); [reflexivity| |].
      - split; [exact Ho|exact I].
      - rewrite clip_backward, Hc by auto. reflexivity. }
    destruct lo as [l|], hi as [h|]; eexists; (split; [|first [left; now auto | right; eauto]]).
    + apply (K ((h - l) / 6)). left; discriminate.
    + apply (K 1). left; discriminate.
    + apply (K 1). right; discriminate.
    + reflexivity.
Qed.
(** A scalar, or an array, is made exactly when the bounds are in order and the initial value is within
    them; it starts from the given value, from the middle of the two bounds or from 0, and its standard
    deviation is a sixth of the range. *)
Theorem C87_construct (make : option R -> option R -> option R -> result data) (init lo hi : option R) :
  make = new_scalar \/ make = new_array ->
  (in_order lo hi /\ within lo hi (starting init lo hi) ->
    exists d, make init lo hi = Ok d /\ get_value d = Ok (starting init lo hi, d) /\ d_sigma d = deviation lo hi) /\
  (~ (in_order lo hi /\ within lo hi (starting init lo hi)) -> make init lo hi = Err ValueError).
Proof.
  intros Hm. split.
  - intros (Ho & Hw). destruct (scalar_shape make init lo hi Hm Ho Hw) as (ls & E & Hls). eexists. split; [exact E|]. split; [|reflexivity].
    unfold get_value. cbn [mkd d_layers d_raw]. destruct Hls as [(-> & -> & ->)|(u & g & ->)]; [reflexivity|].
    destruct (bounce_get Bouncing lo hi u g (starting init lo hi) (or_intror eq_refl) Ho) as (v & Eg & _ & Hv). rewrite Eg, (Hv Hw). reflexivity.
  - intros H.
    assert (Hs : (match init with Some v => v | None => match lo, hi with Some l, Some h => (l + h) / 2 | _, _ => 0 end end) = starting init lo hi)
      by (destruct init, lo, hi; reflexivity).
    assert (Hn : lo <> None \/ hi <> None).
    { destruct lo; [left; discriminate|]. destruct hi; [right; discriminate|]. exfalso. apply H. split; [intros ? ? K; discriminate|split; intros ? K; discriminate]. }
    destruct Hm as [-> | ->].
    + unfold new_scalar. rewrite Hs. set (v := starting init lo hi) in *.
      assert (K : forall s u, (u = true -> both lo hi = true) -> finish (set_bounds (base_data v s []) lo hi Bouncing (Some u)) = Err ValueError).
      { intros s u Hu. pose proof (set_bounds_base_err Bouncing lo hi (Some u) v s [] (or_intror eq_refl) Hu H) as E.
        destruct (set_bounds _ _ _ _ _) as [d o]. cbn in E. subst o. reflexivity. }
      destruct lo as [l|], hi as [h|]; [apply (K ((h - l) / 6)); reflexivity|apply (K 1); discriminate|apply (K 1); discriminate|now destruct Hn].
    + unfold new_array. rewrite Hs. set (v := starting init lo hi) in *.
      assert (K : forall s, bind (new_bound Bouncing lo hi (Some false)) (fun b => finish (call_bound b (base_data v s []))) = Err ValueError).
      { intros s. destruct (in_order_dec lo hi) as [Ho|Ho].
        - rewrite new_bound_ok by (auto; discriminate). cbn [bind uni].
          pose proof (call_err (mkb Bouncing lo hi false false) v s [] ValueError) as E. rewrite clip_backward in E by auto.
          destruct (checker lo hi v) eqn:Ec; [apply checker_iff in Ec; tauto|]. specialize (E eq_refl). destruct (call_bound _ _) as [d o]. cbn in E. subst o. reflexivity.
        - rewrite new_bound_disorder by now apply not_in_order. reflexivity. }
      destruct lo as [l|], hi as [h|]; [apply (K ((h - l) / 6))|apply (K 1)|apply (K 1)|now destruct Hn].
Qed.
(** Whatever the data (mutations and recombinations write any number there), the value is within the
    bounds, and it is the data itself if this is within them. *)
Theorem C87_bounded (make : option R -> option R -> option R -> result data) (init lo hi : option R) (d : data) (raw : R) :
  make = new_scalar \/ make = new_array -> make init lo hi = Ok d ->
  exists v, get_value (with_raw d raw) = Ok (v, with_raw d v) /\ within lo hi v /\ (within lo hi raw -> v = raw).
Proof.
  intros Hm E.
  assert (H : in_order lo hi /\ within lo hi (starting init lo hi)).
  { destruct (in_order_dec lo hi) as [Ho|Ho]; [destruct (within_dec lo hi (starting init lo hi)) as [Hw|Hw]|].
    - now split.
    - rewrite (proj2 (C87_construct make init lo hi Hm)) in E by tauto. discriminate.
    - rewrite (proj2 (C87_construct make init lo hi Hm)) in E by tauto. discriminate. }
  destruct H as (Ho & Hw). destruct (scalar_shape make init lo hi Hm Ho Hw) as (ls & E' & Hls). rewrite E in E'. injection E' as ->.
  unfold get_value. cbn [with_raw mkd d_layers d_raw]. destruct Hls as [(-> & -> & ->)|(u & g & ->)].
  - exists raw. split; [reflexivity|]. split; [split; intros ? K; discriminate|reflexivity].
  - destruct (bounce_get Bouncing lo hi u g raw (or_intror eq_refl) Ho) as (v & Eg & W & Hv). exists v. rewrite Eg. auto.
Qed.
(** It accepts the values within its bounds, and raises for the others. *)
Theorem C87_set (make : option R -> option R -> option R -> result data) (init lo hi : option R) (d : data) (v : R) :
  make = new_scalar \/ make = new_array -> make init lo hi = Ok d ->
  (within lo hi v -> set_value d v = Ok (with_raw d v) /\ get_value (with_raw d v) = Ok (v, with_raw d v)) /\
  (~ within lo hi v -> set_value d v = Err ValueError).
Proof.
  intros Hm E.
  assert (H : in_order lo hi /\ within lo hi (starting init lo hi)).
  { destruct (in_order_dec lo hi) as [Ho|Ho]; [destruct (within_dec lo hi (starting init lo hi)) as [Hw|Hw]|].
    - now split.
    - rewrite (proj2 (C87_construct make init lo hi Hm)) in E by tauto. discriminate.
    - rewrite (proj2 (C87_construct make init lo hi Hm)) in E by tauto. discriminate. }
  destruct H as (Ho & Hw). split.
  - intros W. destruct (C87_bounded make init lo hi d v Hm E) as (w & Eg & _ & K). rewrite (K W) in Eg. split; [|exact Eg].
    destruct (scalar_shape make init lo hi Hm Ho Hw) as (ls & E' & Hls). rewrite E in E'. injection E' as ->.
    unfold set_value. cbn [mkd d_layers]. destruct Hls as [(-> & -> & ->)|(u & g & ->)]; [reflexivity|]. cbn [set_layers].
    rewrite clip_backward by auto. apply checker_iff in W. rewrite W. reflexivity.
  - intros W. destruct (scalar_shape make init lo hi Hm Ho Hw) as (ls & E' & Hls). rewrite E in E'. injection E' as ->.
    unfold set_value. cbn [mkd d_layers]. destruct Hls as [(-> & -> & ->)|(u & g & ->)].
    + exfalso. apply W. split; intros ? K; discriminate.
    + cbn [set_layers]. rewrite clip_backward by auto. destruct (checker lo hi v) eqn:Ec; [apply checker_iff in Ec; contradiction|reflexivity].
Qed.
(** [set_bounds] on a number, with any method but "constraint": the values are within the bounds and the
    current value is kept. *)
Theorem C87_set_bounds (v s : R) (c : list (option R * option R)) (lo hi : option R) (m : method) (full : option bool) (d : data) :
  m <> Constraint -> set_bounds (base_data v s c) lo hi m full = (d, None) ->
  get_value d = Ok (v, d) /\ within lo hi v /\ d_sigma d = s /\
  forall raw, exists w r, get_value (with_raw d raw) = Ok (w, with_raw d r) /\ within lo hi w.
Proof.
  intros Hm E. unfold set_bounds in E. rewrite get_base in E. destruct (new_bound m lo hi full) as [b|e] eqn:En; [|discriminate].
  assert (Hb : b = mkb m lo hi (uni lo hi full) false /\ in_order lo hi /\ enough m lo hi /\ (uni lo hi full = true -> both lo hi = true)).
  { unfold new_bound in En. fold (both lo hi) in En. fold (uni lo hi full) in En. destruct (uni lo hi full && negb (both lo hi)) eqn:Eu; [discriminate|].
    destruct (match lo, hi with Some l, Some h => rle h l | _, _ => false end) eqn:Er; [discriminate|].
    assert (Ho : in_order lo hi) by (intros l h -> ->; now apply rle_false).
    assert (Hu : uni lo hi full = true -> both lo hi = true) by (intros K; rewrite K in Eu; now destruct (both lo hi)).
    destruct m, lo as [l|], hi as [h|]; try discriminate En; injection En as <-; (split; [reflexivity|split; [exact Ho|split; [|exact Hu]]]); cbn; auto; (left; discriminate) || (right; discriminate). }
  destruct Hb as (-> & Ho & He & Hu). cbn [mkb b_method b_lower b_upper b_uniform] in E.
  assert (Hw : wf_bound (mkb m lo hi (uni lo hi full) true)).
  { split; [exact Ho|]. cbn. destruct m; try exact I; cbn in He; destruct lo, hi; try discriminate; eauto. }
  destruct (bound_backward (mkb m lo hi (uni lo hi full) true) v) as [r|e] eqn:Eb.
  - assert (E' : set_bounds (base_data v s c) lo hi m full = (mkd r s c [Bound (mkb m lo hi (uni lo hi full) true)], None)).
    { rewrite (set_bounds_base m lo hi full v s c r He Ho Hu Eb). destruct m; try reflexivity. now contradict Hm. }
    unfold set_bounds in E'. rewrite get_base, En in E'. cbn [mkb b_method b_lower b_upper b_uniform] in E'. rewrite E' in E. injection E as <-.
    assert (Eg : get_layers [Bound (mkb m lo hi (uni lo hi full) true)] r = Ok (v, r)).
    { apply set_get; [constructor; [exact Hw|constructor]|]. cbn [set_layers]. rewrite Eb. reflexivity. }
    split; [unfold get_value; cbn [mkd d_layers d_raw]; rewrite Eg; reflexivity|].
    split; [|split; [reflexivity|]].
    + destruct (bound_get m lo hi (uni lo hi full) true r Hm Hw) as (w & r' & Ew & W). rewrite Eg in Ew. injection Ew as -> _. exact W.
    + intros raw. destruct (bound_get m lo hi (uni lo hi full) true raw Hm Hw) as (w & r' & Ew & W). exists w, r'.
      unfold get_value. cbn [with_raw mkd d_layers d_raw]. rewrite Ew. split; [reflexivity|exact W].
  - exfalso. set (d0 := match m with Constraint => with_check (base_data v s c) (lo, hi) | _ => base_data v s c end) in E.
    replace d0 with (base_data v s c) in E by (unfold d0; destruct m; try reflexivity; now contradict Hm).
    pose proof (call_err _ v s c e Eb) as K. unfold mkb in K. destruct (call_bound _ _) as [d1 o]. cbn in K. subst o. discriminate.
Qed.
(** Data that went over a bound bounces once: it comes back by as much as it went over, at most to the
    other bound. *)
Theorem C87_bounce (make : option R -> option R -> option R -> result data) (init : option R) (l h : R) (d : data) (t : R) :
  make = new_scalar \/ make = new_array -> make init (Some l) (Some h) = Ok d -> 0 < t ->
  let over := with_raw d (h + t) in let under := with_raw d (l - t) in
  get_value over = Ok (Rmax l (h - t), with_raw d (Rmax l (h - t))) /\
  get_value under = Ok (Rmin h (l + t), with_raw d (Rmin h (l + t))).
Proof.
  intros Hm E Ht.
  assert (H : in_order (Some l) (Some h) /\ within (Some l) (Some h) (starting init (Some l) (Some h))).
  { destruct (in_order_dec (Some l) (Some h)) as [Ho|Ho]; [destruct (within_dec (Some l) (Some h) (starting init (Some l) (Some h))) as [Hw|Hw]|].
    - now split.
    - rewrite (proj2 (C87_construct make init (Some l) (Some h) Hm)) in E by tauto. discriminate.
    - rewrite (proj2 (C87_construct make init (Some l) (Some h) Hm)) in E by tauto. discriminate. }
  destruct H as (Ho & Hw). destruct (scalar_shape make init (Some l) (Some h) Hm Ho Hw) as (ls & E' & Hls). rewrite E in E'. injection E' as ->.
  specialize (Ho l h eq_refl eq_refl). destruct Hls as [(K & _)|(u & g & ->)]; [discriminate|].
  cbn zeta. unfold get_value. cbn [with_raw mkd d_layers d_raw get_layers bind mkb b_method b_lower b_upper fst snd].
  replace (checker (Some l) (Some h) (h + t)) with false.
  2:{ symmetry. destruct (checker _ _ _) eqn:Ec; [|reflexivity]. apply checker_iff in Ec. destruct Ec as (_ & Ec). specialize (Ec h eq_refl). lra. }
  replace (checker (Some l) (Some h) (l - t)) with false.
  2:{ symmetry. destruct (checker _ _ _) eqn:Ec; [|reflexivity]. apply checker_iff in Ec. destruct Ec as (Ec & _). specialize (Ec l eq_refl). lra. }
  cbn [set_layers bind fst snd]. unfold outside_forward, oclip.
  assert (A : Rmin (Rmax (h + t) l) h = h) by (unfold Rmin, Rmax; destruct (Rle_dec (h + t) l), (Rle_dec _ _); lra).
  assert (B : Rmin (Rmax (l - t) l) h = l) by (unfold Rmin, Rmax; destruct (Rle_dec (l - t) l), (Rle_dec _ _); lra).
  rewrite A, B.
  assert (C : Rmin (Rmax (2 * h - (h + t)) l) h = Rmax l (h - t)).
  { replace (2 * h - (h + t)) with (h - t) by ring. unfold Rmin, Rmax. destruct (Rle_dec (h - t) l), (Rle_dec l (h - t)), (Rle_dec _ _); lra. }
  assert (D : Rmin (Rmax (2 * l - (l - t)) l) h = Rmin h (l + t)).
  { replace (2 * l - (l - t)) with (l + t) by ring. unfold Rmin, Rmax. destruct (Rle_dec (l + t) l), (Rle_dec h (l + t)), (Rle_dec _ _); lra. }
  rewrite C, D. split; reflexivity.
Qed.

(** * Log *)
(** the documented initial value and the base of the exponentials *)
Definition log_starting (init lo hi : option R) : option R :=
  match init, lo, hi with Some v, _, _ => Some v | None, Some l, Some h => Some (sqrt (l * h)) | None, _, _ => None end.
Definition log_base (exponent lo hi : option R) : R :=
  match exponent, lo, hi with Some e, _, _ => e | None, Some l, Some h => Rpower (h / l) (/ 6) | None, _, _ => 2 end.
Lemma log_base_gt exponent lo hi : (forall e, exponent = Some e -> 1 < e) -> positive lo hi -> in_order lo hi -> 1 < log_base exponent lo hi.
Proof.
  intros He (P1 & P2) Ho. unfold log_base. destruct exponent as [e|]; [auto|]. destruct lo as [l|]; [|lra]. destruct hi as [h|]; [|lra].
  specialize (P1 l eq_refl). specialize (Ho l h eq_refl eq_refl). unfold Rpower. rewrite <- exp_0. apply exp_increasing.
  assert (0 < ln (h / l)); [|lra]. apply ln_pos_gt1. apply (Rmult_lt_reg_r l); [exact P1|]. unfold Rdiv. rewrite Rmult_assoc, Rinv_l by lra. lra.
Qed.
Definition log_layers (e : R) (init lo hi : option R) : list layer :=
  Exponent e false :: match lo, hi with
                      | None, None => []
                      | _, _ => [Bound (mkb Bouncing (olg e lo) (olg e hi) (both lo hi && match init with None => true | _ => false end) false)]
                      end.
(** the steps of the constructor up to the bounds *)
Lemma log_steps init exponent lo hi v : positive lo hi -> log_starting init lo hi = Some v -> 0 < v ->
  (forall e, exponent = Some e -> 0 < e /\ e <> 1) -> let e := log_base exponent lo hi in 0 < e -> e <> 1 ->
  new_log init exponent lo hi =
  bind (match olg e lo, olg e hi with
        | None, None => Ok (plain (lg e v))
        | _, _ => bind (new_bound Bouncing (olg e lo) (olg e hi) (Some (both lo hi && match init with None => true | _ => false end)))
                    (fun b => finish (call_bound b (plain (lg e v))))
        end) (fun d => Ok (with_layers d (Exponent e false :: d_layers d))).
Proof.
  intros (P1 & P2) Hs Hv He e Hpe Hne. unfold new_log.
  assert (A : match init, lo, hi with Some v, _, _ => Ok v | None, Some l, Some h => if rlt (l * h) 0 then Err NotFinite else Ok (sqrt (l * h)) | None, _, _ => Err ValueError end = Ok v).
  { destruct init; cbn in Hs; [congruence|]. destruct lo as [l|]; [|discriminate]. destruct hi as [h|]; [|discriminate].
    specialize (P1 l eq_refl). specialize (P2 h eq_refl). assert (0 < l * h) by now apply Rmult_lt_0_compat.
    replace (rlt (l * h) 0) with false by (symmetry; apply rlt_false; lra). congruence. }
  rewrite A. cbn [bind].
  assert (B : match exponent, lo, hi with Some e, _, _ => Ok e | None, Some l, Some h => bind (finite (np_log h)) (fun a => bind (finite (np_log l)) (fun b => Ok (exp ((a - b) / 6)))) | None, _, _ => Ok 2 end = Ok e).
  { unfold e, log_base. destruct exponent; [reflexivity|]. destruct lo as [l|]; [|reflexivity]. destruct hi as [h|]; [|reflexivity].
    specialize (P1 l eq_refl). specialize (P2 h eq_refl). rewrite !np_log_pos by assumption. cbn [finite bind]. f_equal. unfold Rpower.
    unfold Rdiv at 2. rewrite ln_mult, ln_Rinv by (auto; now apply Rinv_0_lt_compat). f_equal. field. }
  rewrite B. cbn [bind]. unfold new_exponent. destruct (Rle_dec e 0); [lra|]. cbn [bind].
  assert (K : forall x, (forall y, x = Some y -> 0 < y) -> match x with None => Ok None | Some x => bind (finite (op_backward (OExponent e) x)) (fun y => Ok (Some y)) end = Ok (olg e x)).
  { intros [x|] Hx; [|reflexivity]. rewrite exp_back by auto. reflexivity. }
  rewrite (K lo P1). cbn [bind]. rewrite (K hi P2). cbn [bind]. rewrite exp_back by auto. cbn [finite bind]. reflexivity.
Qed.
Lemma log_shape init exponent lo hi v : positive lo hi -> log_starting init lo hi = Some v -> 0 < v -> (forall e, exponent = Some e -> 1 < e) ->
  in_order lo hi -> within lo hi v -> let e := log_base exponent lo hi in
  new_log init exponent lo hi = Ok (mkd (lg e v) 1 [] (log_layers e init lo hi)).
Proof.
  intros Hp Hs Hv He Ho Hw e. pose proof (log_base_gt exponent lo hi He Hp Ho) as Hb. fold e in Hb.
  rewrite (log_steps init exponent lo hi v Hp Hs Hv) by (fold e; try lra; intros x Ex; specialize (He x Ex); lra). fold e.
  assert (K : lo <> None \/ hi <> None -> forall u, (u = true -> both lo hi = true) ->
    bind (new_bound Bouncing (olg e lo) (olg e hi) (Some u)) (fun b => finish (call_bound b (plain (lg e v)))) = Ok (mkd (lg e v) 1 [] [Bound (mkb Bouncing (olg e lo) (olg e hi) u false)])).
  { intros Hn u Hu. assert (Ho' := in_order_lg e lo hi Hb Hp Ho). rewrite new_bound_ok.
    - cbn [bind uni]. change (plain (lg e v)) with (base_data (lg e v) 1 []). rewrite (call_ok _ _ 1 [] (lg e v)); [reflexivity|split; [exact Ho'|exact I]|].
      rewrite clip_backward by auto. replace (checker (olg e lo) (olg e hi) (lg e v)) with true; [reflexivity|]. symmetry. apply checker_iff. now apply within_lg.
    - cbn. destruct Hn as [Hn|Hn]; [left|right]; [destruct lo|destruct hi]; try discriminate; now contradict Hn.
    - exact Ho'.
    - cbn. intros Hu'. specialize (Hu Hu'). now destruct lo, hi. }
  unfold log_layers. destruct lo as [l|], hi as [h|]; cbn [olg option_map both andb].
  - rewrite K; [reflexivity|left; discriminate|reflexivity].
  - rewrite K; [reflexivity|left; discriminate|discriminate].
  - rewrite K; [reflexivity|right; discriminate|discriminate].
  - reflexivity.
Qed.
Lemma log_get e init lo hi raw : 1 < e -> positive lo hi -> in_order lo hi ->
  exists v, get_layers (log_layers e init lo hi) raw = Ok (v, lg e v) /\ 0 < v /\ within lo hi v /\ (within lo hi (Rpower e raw) -> v = Rpower e raw).
Proof.
  intros He Hp Ho. unfold log_layers. set (u := (_ && _)%bool).
  assert (K : lo <> None \/ hi <> None -> exists v, get_layers [Exponent e false; Bound (mkb Bouncing (olg e lo) (olg e hi) u false)] raw = Ok (v, lg e v) /\
      0 < v /\ within lo hi v /\ (within lo hi (Rpower e raw) -> v = Rpower e raw)).
  { intros Hn. destruct (bounce_get Bouncing (olg e lo) (olg e hi) u false raw (or_intror eq_refl) (in_order_lg e lo hi He Hp Ho)) as (x & Eg & W & Hx).
    exists (Rpower e x). split.
    - change (get_layers (?a :: ?b) raw) with (bind (get_layers b raw) (fun p => bind (finite (op_forward (OExponent e) (fst p))) (fun v => Ok (v, snd p)))).
      rewrite Eg. cbn [bind fst snd]. rewrite exp_forw by lra. cbn [finite bind]. rewrite lg_rpower by lra. reflexivity.
    - split; [apply exp_pos|]. split; [now apply within_rpower|]. intros W'. f_equal. apply Hx.
      rewrite <- (lg_rpower e raw) by lra. apply within_lg; auto. apply exp_pos. }
  destruct lo as [l|], hi as [h|]; [apply K; left; discriminate|apply K; left; discriminate|apply K; right; discriminate|].
  exists (Rpower e raw). cbn [get_layers bind fst snd]. rewrite exp_forw by lra. cbn [finite bind]. rewrite lg_rpower by lra.
  split; [reflexivity|]. split; [apply exp_pos|]. split; [split; intros ? Q; discriminate|reflexivity].
Qed.

(** With positive arguments and an exponent over 1, if given: a logarithmic scalar is made exactly when
    it has an initial value or two bounds, the bounds are in order and the initial value is within them. *)
Theorem C87_log (init exponent lo hi : option R) :
  (forall v, init = Some v -> 0 < v) -> (forall e, exponent = Some e -> 1 < e) -> positive lo hi -> in_order lo hi ->
  match log_starting init lo hi with
  | None => new_log init exponent lo hi = Err ValueError
  | Some v =>
      (within lo hi v -> exists d, new_log init exponent lo hi = Ok d /\ get_value d = Ok (v, d) /\ d_sigma d = 1) /\
      (~ within lo hi v -> new_log init exponent lo hi = Err ValueError)
  end.
Proof.
  intros Hi He Hp Ho. destruct (log_starting init lo hi) as [v|] eqn:Hs.
  2:{ unfold new_log. destruct init; cbn in Hs; [discriminate|]. destruct lo, hi; try discriminate; reflexivity. }
  assert (Hv : 0 < v).
  { destruct init; cbn in Hs; [injection Hs as <-; auto|]. destruct lo as [l|]; [|discriminate]. destruct hi as [h|]; [|discriminate]. injection Hs as <-.
    apply sqrt_lt_R0. destruct Hp as (P1 & P2). apply Rmult_lt_0_compat; auto. }
  pose proof (log_base_gt exponent lo hi He Hp Ho) as Hb. split.
  - intros Hw. eexists. split; [apply log_shape with (v := v); auto|]. split; [|reflexivity]. set (e := log_base exponent lo hi) in *.
    unfold get_value. cbn [mkd d_layers d_raw]. destruct (log_get e init lo hi (lg e v) Hb Hp Ho) as (w & Eg & _ & _ & K).
    rewrite rpower_lg in K by lra. rewrite Eg, (K Hw). reflexivity.
  - intros Hw. rewrite (log_steps init exponent lo hi v Hp Hs Hv) by (try lra; intros x Ex; specialize (He x Ex); lra).
    set (e := log_base exponent lo hi) in *.
    assert (K : lo <> None \/ hi <> None -> forall u, (u = true -> both lo hi = true) ->
      bind (new_bound Bouncing (olg e lo) (olg e hi) (Some u)) (fun b => finish (call_bound b (plain (lg e v)))) = Err ValueError).
    { intros Hn u Hu. rewrite new_bound_ok.
      - cbn [bind uni]. pose proof (call_err (mkb Bouncing (olg e lo) (olg e hi) u false) (lg e v) 1 [] ValueError) as Ke. rewrite clip_backward in Ke by auto.
        destruct (checker (olg e lo) (olg e hi) (lg e v)) eqn:Ec.
        + exfalso. apply Hw. apply checker_iff in Ec. rewrite <- (rpower_lg e v) by lra. now apply within_rpower.
        + specialize (Ke eq_refl). change (plain (lg e v)) with (base_data (lg e v) 1 []). destruct (call_bound _ _) as [d o]. cbn in Ke. subst o. reflexivity.
      - cbn. destruct Hn as [Hn|Hn]; [left|right]; [destruct lo|destruct hi]; try discriminate; now contradict Hn.
      - now apply in_order_lg.
      - cbn. intros Hu'. specialize (Hu Hu'). now destruct lo, hi. }
    destruct lo as [l|], hi as [h|]; cbn [olg option_map both andb]; try (rewrite K; [reflexivity|first [left; discriminate|right; discriminate]|first [reflexivity|discriminate]]).
    exfalso. apply Hw. split; intros ? Q; discriminate.
Qed.
(** Whatever the data, the value is positive and within the bounds; data moved by [g] standard deviations
    multiplies the value by the [g]-th power of the base, while this stays within the bounds. *)
Theorem C87_log_bounded (init exponent lo hi : option R) (v : R) (d : data) :
  positive lo hi -> log_starting init lo hi = Some v -> 0 < v -> (forall e, exponent = Some e -> 1 < e) -> in_order lo hi -> within lo hi v ->
  new_log init exponent lo hi = Ok d ->
  (forall raw, exists w d', get_value (with_raw d raw) = Ok (w, d') /\ 0 < w /\ within lo hi w) /\
  (forall g, let w := v * Rpower (log_base exponent lo hi) g in within lo hi w ->
     exists d', get_value (with_raw d (d_raw d + d_sigma d * g)) = Ok (w, d')).
Proof.
  intros Hp Hs Hv He Ho Hw E. pose proof (log_base_gt exponent lo hi He Hp Ho) as Hb.
  rewrite (log_shape init exponent lo hi v) in E by auto. injection E as <-. set (e := log_base exponent lo hi) in *. split.
  - intros raw. destruct (log_get e init lo hi raw Hb Hp Ho) as (w & Eg & Pw & W & _). unfold get_value. cbn [with_raw mkd d_layers d_raw]. rewrite Eg. cbn [bind fst snd]. eauto.
  - intros g w W. unfold get_value. cbn [with_raw mkd d_layers d_raw d_sigma].
    destruct (log_get e init lo hi (lg e v + 1 * g) Hb Hp Ho) as (w' & Eg & _ & _ & K). rewrite Eg. cbn [bind fst snd]. eexists.
    rewrite Rpower_plus, rpower_lg in K by lra. replace (1 * g) with g in K by ring. rewrite (K W). reflexivity.
Qed.
(** It accepts the positive values within its bounds, gives them back, and raises for positive values out
    of them. *)
Theorem C87_log_set (init exponent lo hi : option R) (v x : R) (d : data) :
  positive lo hi -> log_starting init lo hi = Some v -> 0 < v -> (forall e, exponent = Some e -> 1 < e) -> in_order lo hi -> within lo hi v ->
  new_log init exponent lo hi = Ok d -> 0 < x ->
  (within lo hi x -> exists d', set_value d x = Ok d' /\ get_value d' = Ok (x, d')) /\ (~ within lo hi x -> set_value d x = Err ValueError).
Proof.
  intros Hp Hs Hv He Ho Hw E Hx. pose proof (log_base_gt exponent lo hi He Hp Ho) as Hb.
  rewrite (log_shape init exponent lo hi v) in E by auto. injection E as <-. set (e := log_base exponent lo hi) in *.
  assert (S : within lo hi x -> set_layers (log_layers e init lo hi) x = Ok (lg e x)).
  { intros W. unfold log_layers. cbn [set_layers]. rewrite exp_back by lra. cbn [finite bind].
    destruct lo as [l|], hi as [h|]; cbn [set_layers]; try (rewrite clip_backward by auto; match goal with |- context [checker ?a ?b ?c] => replace (checker a b c) with true; [reflexivity|symmetry; apply checker_iff] end; (apply (within_lg e (Some l) (Some h)) || apply (within_lg e (Some l) None) || apply (within_lg e None (Some h))); auto).
    reflexivity. }
  split.
  - intros W. unfold set_value, get_value. cbn [mkd d_layers]. rewrite (S W). cbn [bind]. eexists. split; [reflexivity|]. cbn [with_raw mkd d_layers d_raw].
    destruct (log_get e init lo hi (lg e x) Hb Hp Ho) as (w & Eg & _ & _ & K). rewrite rpower_lg in K by lra. rewrite Eg, (K W). reflexivity.
  - intros W. unfold set_value. cbn [mkd d_layers]. unfold log_layers. cbn [set_layers]. rewrite exp_back by lra. cbn [finite bind].
    assert (C : checker (olg e lo) (olg e hi) (lg e x) = false).
    { destruct (checker _ _ _) eqn:Ec; [|reflexivity]. exfalso. apply W. apply checker_iff in Ec. rewrite <- (rpower_lg e x) by lra. now apply within_rpower. }
    destruct lo as [l|], hi as [h|]; cbn [set_layers]; try (rewrite clip_backward by auto; rewrite C; reflexivity).
    exfalso. apply W. split; intros ? Q; discriminate.
Qed.
(** With two bounds and neither an initial value nor an exponent, the data of the initial value, 0
    standard deviations away, is the middle of the data of the two bounds, three standard deviations away on each side. *)
Theorem C87_log_scale (l h : R) : 0 < l -> l < h -> exists d, new_log None None (Some l) (Some h) = Ok d /\
  exists a b, set_value d l = Ok a /\ set_value d h = Ok b /\
    d_raw d - d_raw a = 3 * d_sigma d /\ d_raw b - d_raw d = 3 * d_sigma d.
Proof.
  intros Hl Hh.
  assert (Hp : positive (Some l) (Some h)) by (split; intros ? [= <-]; lra).
  assert (Ho : in_order (Some l) (Some h)) by (now intros ? ? [= <-] [= <-]).
  assert (Hlh : 0 < l * h) by (apply Rmult_lt_0_compat; lra). assert (Hsq := sqrt_lt_R0 _ Hlh).
  assert (Hw : within (Some l) (Some h) (sqrt (l * h))).
  { split; intros ? [= <-].
    - rewrite <- (sqrt_square l) at 1 by lra. apply sqrt_le_1_alt. nra.
    - rewrite <- (sqrt_square h) at 2 by lra. apply sqrt_le_1_alt. nra. }
  pose proof (log_base_gt None (Some l) (Some h) ltac:(discriminate) Hp Ho) as Hb.
  pose proof (log_shape None None (Some l) (Some h) (sqrt (l * h)) Hp eq_refl Hsq ltac:(discriminate) Ho Hw) as E. cbv zeta in E.
  set (e := log_base None (Some l) (Some h)) in *. eexists. split; [exact E|].
  assert (Hln : ln e = (ln h - ln l) / 6).
  { unfold e, log_base, Rpower. rewrite ln_exp. unfold Rdiv at 1. rewrite ln_mult, ln_Rinv by (try lra; apply Rinv_0_lt_compat; lra). field. }
  assert (Hpos := ln_pos_gt1 e Hb).
  assert (S : forall x, x = l \/ x = h -> set_value (mkd (lg e (sqrt (l * h))) 1 [] (log_layers e None (Some l) (Some h))) x = Ok (mkd (lg e x) 1 [] (log_layers e None (Some l) (Some h)))).
  { intros x Hx. unfold set_value, log_layers. cbn [mkd d_layers set_layers]. rewrite exp_back by (destruct Hx; subst; lra). cbn [finite bind]. rewrite clip_backward by auto.
    replace (checker _ _ _) with true; [reflexivity|]. symmetry. apply checker_iff. apply within_lg; auto; [destruct Hx; subst; lra|].
    split; intros ? [= <-]; destruct Hx; subst; lra. }
  eexists _, _. split; [apply S; now left|]. split; [apply S; now right|]. cbn [mkd d_raw d_sigma]. unfold lg.
  assert (Hs : ln (sqrt (l * h)) = (ln l + ln h) / 2).
  { rewrite <- (sqrt_sqrt (l * h)) in Hlh by lra. assert (2 * ln (sqrt (l * h)) = ln l + ln h); [|lra].
    rewrite <- ln_mult by lra. rewrite <- (sqrt_sqrt (l * h)) at 2 by nra. rewrite ln_mult by assumption. ring. }
  rewrite Hs, Hln in *. split; field; lra.
Qed.

(** * Sampling *)
Lemma scalar_both init l h : l < h -> l <= starting init (Some l) (Some h) <= h ->
  new_scalar init (Some l) (Some h) = Ok (mkd (starting init (Some l) (Some h)) ((h - l) / 6) [] [Bound (mkb Bouncing (Some l) (Some h) (match init with None => true | _ => false end) true)]).
Proof.
  intros H W. unfold new_scalar. set (v := starting init (Some l) (Some h)) in *.
  replace (match init with Some v => v | None => (l + h) / 2 end) with v by (unfold v; destruct init; reflexivity).
  change (with_sigma (plain v) ((h - l) / 6)) with (base_data v ((h - l) / 6) []).
  rewrite (set_bounds_base Bouncing (Some l) (Some h) (Some (match init with None => true | _ => false end)) v ((h - l) / 6) [] v); [reflexivity|left; discriminate| |reflexivity|].
  - now intros ? ? [= <-] [= <-].
  - rewrite clip_backward by auto. replace (checker (Some l) (Some h) v) with true; [reflexivity|]. symmetry. apply checker_iff. split; intros ? [= <-]; lra.
Qed.
(** A scalar made from two bounds only is sampled uniformly over its whole range. *)
Theorem C87_sample_scalar (l h : R) (d : data) : new_scalar None (Some l) (Some h) = Ok d ->
  (forall u g, 0 <= u <= 1 -> exists d', sample d u g = Ok d' /\ get_value d' = Ok (l + (h - l) * u, d')) /\
  (forall v, l <= v <= h -> exists u, 0 <= u <= 1 /\ forall g, exists d', sample d u g = Ok d' /\ get_value d' = Ok (v, d')).
Proof.
  intros E. destruct (Rlt_le_dec l h) as [H|H].
  2:{ rewrite (proj2 (C87_construct new_scalar None (Some l) (Some h) (or_introl eq_refl))) in E; [discriminate|]. intros (Ho & _). specialize (Ho l h eq_refl eq_refl). lra. }
  assert (K : forall u g, 0 <= u <= 1 -> exists d', sample d u g = Ok d' /\ get_value d' = Ok (l + (h - l) * u, d')).
  { rewrite scalar_both in E by (cbn; lra). injection E as <-. intros u g Hu. unfold sample. cbn [mkd d_layers sample_layers mkb b_uniform b_lower b_upper set_layers].
    set (w := (h - l) * u + l). assert (Hc : checker (Some l) (Some h) w = true) by (apply checker_iff; unfold w; split; intros ? [= <-]; nra).
    rewrite (clip_backward Bouncing) by auto. rewrite Hc. cbn [bind]. eexists. split; [reflexivity|].
    unfold get_value. cbn [with_raw mkd d_layers d_raw get_layers bind mkb b_method b_lower b_upper fst snd]. rewrite Hc. cbn [bind fst snd].
    replace (l + (h - l) * u) with w by (unfold w; ring). reflexivity. }
  split; [exact K|]. intros v Hv. exists ((v - l) / (h - l)). assert (Hu : 0 <= (v - l) / (h - l) <= 1).
  { split; [apply Rmult_le_pos; [lra|left; apply Rinv_0_lt_compat; lra]|]. apply (Rmult_le_reg_r (h - l)); [lra|]. unfold Rdiv. rewrite Rmult_assoc, Rinv_l by lra. lra. }
  split; [exact Hu|]. intros g. destruct (K _ g Hu) as (d' & A & B). exists d'. split; [exact A|]. rewrite B. do 2 f_equal. field. lra.
Qed.
(** A logarithmic scalar made from two bounds only is sampled log-uniformly over its whole range. *)
Theorem C87_sample_log (exponent : option R) (l h : R) (d : data) : 0 < l -> l < h -> (forall e, exponent = Some e -> 1 < e) ->
  new_log None exponent (Some l) (Some h) = Ok d ->
  (forall u g, 0 <= u <= 1 -> exists d', sample d u g = Ok d' /\ get_value d' = Ok (exp (ln l + (ln h - ln l) * u), d')) /\
  (forall v, l <= v <= h -> exists u, 0 <= u <= 1 /\ forall g, exists d', sample d u g = Ok d' /\ get_value d' = Ok (v, d')).
Proof.
  intros Hl Hh He E.
  assert (Hp : positive (Some l) (Some h)) by (split; intros ? [= <-]; lra).
  assert (Ho : in_order (Some l) (Some h)) by (now intros ? ? [= <-] [= <-]).
  assert (Hlh : 0 < l * h) by (apply Rmult_lt_0_compat; lra). assert (Hsq := sqrt_lt_R0 _ Hlh).
  assert (Hw : within (Some l) (Some h) (sqrt (l * h))).
  { split; intros ? [= <-].
    - rewrite <- (sqrt_square l) at 1 by lra. apply sqrt_le_1_alt. nra.
    - rewrite <- (sqrt_square h) at 2 by lra. apply sqrt_le_1_alt. nra. }
  pose proof (log_base_gt exponent (Some l) (Some h) He Hp Ho) as Hb.
  rewrite (log_shape None exponent (Some l) (Some h) (sqrt (l * h)) Hp eq_refl Hsq He Ho Hw) in E. injection E as <-. set (e := log_base exponent (Some l) (Some h)) in *.
  assert (Hle : 0 < ln e) by now apply ln_pos_gt1. assert (Hln : ln l < ln h) by now apply ln_increasing.
  assert (K : forall u g, 0 <= u <= 1 -> exists d', sample (mkd (lg e (sqrt (l * h))) 1 [] (log_layers e None (Some l) (Some h))) u g = Ok d' /\ get_value d' = Ok (exp (ln l + (ln h - ln l) * u), d')).
  { intros u g Hu. unfold sample, log_layers. cbn [mkd d_layers sample_layers mkb b_uniform b_lower b_upper both andb olg option_map].
    set (w := (lg e h - lg e l) * u + lg e l).
    assert (Hc : checker (Some (lg e l)) (Some (lg e h)) w = true).
    { pose proof (lg_increasing e l h Hb Hl Hh). apply checker_iff; unfold w; split; intros ? [= <-]; nra. }
    cbn [set_layers]. rewrite (clip_backward Bouncing) by auto. rewrite Hc. cbn [bind]. eexists. split; [reflexivity|].
    unfold get_value. cbn [with_raw mkd d_layers d_raw get_layers bind mkb b_method b_lower b_upper fst snd]. rewrite Hc. cbn [bind fst snd]. rewrite exp_forw by lra. cbn [finite bind fst snd].
    replace (Rpower e w) with (exp (ln l + (ln h - ln l) * u)); [reflexivity|]. unfold Rpower, w, lg. f_equal. field. lra. }
  split; [exact K|]. intros v Hv. exists ((ln v - ln l) / (ln h - ln l)). assert (A1 : ln l <= ln v) by (apply ln_mono; lra). assert (A2 : ln v <= ln h) by (apply ln_mono; lra).
  assert (Hu : 0 <= (ln v - ln l) / (ln h - ln l) <= 1).
  { split; [apply Rmult_le_pos; [lra|left; apply Rinv_0_lt_compat; lra]|]. apply (Rmult_le_reg_r (ln h - ln l)); [lra|]. unfold Rdiv. rewrite Rmult_assoc, Rinv_l by lra. lra. }
  split; [exact Hu|]. intros g. destruct (K _ g Hu) as (d' & A & B). exists d'. split; [exact A|]. rewrite B.
  replace (ln l + (ln h - ln l) * ((ln v - ln l) / (ln h - ln l))) with (ln v) by (field; lra). rewrite exp_ln by lra. reflexivity.
Qed.
(** With an initial value, or fewer bounds, sampling is a mutation of the current value. *)
Theorem C87_sample_around (init lo hi : option R) (d : data) (u g : R) : (init <> None \/ both lo hi = false) -> new_scalar init lo hi = Ok d ->
  sample d u g = Ok (with_raw d (d_raw d + d_sigma d * g)).
Proof.
  intros Hi E.
  assert (H : in_order lo hi /\ within lo hi (starting init lo hi)).
  { destruct (in_order_dec lo hi) as [Ho|Ho]; [destruct (within_dec lo hi (starting init lo hi)) as [Hw|Hw]|].
    - now split.
    - rewrite (proj2 (C87_construct new_scalar init lo hi (or_introl eq_refl))) in E by tauto. discriminate.
    - rewrite (proj2 (C87_construct new_scalar init lo hi (or_introl eq_refl))) in E by tauto. discriminate. }
  destruct H as (Ho & Hw). destruct lo as [l|], hi as [h|].
  - destruct Hi as [Hi|Hi]; [|discriminate]. destruct init as [v|]; [|now contradict Hi].
    specialize (Ho l h eq_refl eq_refl). destruct Hw as (W1 & W2). rewrite scalar_both in E by (first [exact Ho | split; [apply W1|apply W2]; reflexivity]).
    injection E as <-. reflexivity.
  - unfold new_scalar in E. set (v := match init with Some v => v | None => 0 end) in E. assert (Ev : starting init (Some l) None = v) by (unfold v; destruct init; reflexivity). rewrite Ev in Hw.
    change (plain v) with (base_data v 1 []) in E. rewrite (set_bounds_base Bouncing (Some l) None (Some false) v 1 [] v) in E; [injection E as <-; reflexivity|left; discriminate|exact Ho|discriminate|].
    rewrite clip_backward by auto. apply checker_iff in Hw. now rewrite Hw.
  - unfold new_scalar in E. set (v := match init with Some v => v | None => 0 end) in E. assert (Ev : starting init None (Some h) = v) by (unfold v; destruct init; reflexivity). rewrite Ev in Hw.
    change (plain v) with (base_data v 1 []) in E. rewrite (set_bounds_base Bouncing None (Some h) (Some false) v 1 [] v) in E; [injection E as <-; reflexivity|right; discriminate|exact Ho|discriminate|].
    rewrite clip_backward by auto. apply checker_iff in Hw. now rewrite Hw.
  - injection E as <-. reflexivity.
Qed.
(** "This is activated by default if both bounds are provided": not for an array given its two bounds and its shape, whose samples never
    depend on the uniform draw. *)
Theorem C87_array_sampling_refuted (l h : R) : l < h -> exists d, new_array None (Some l) (Some h) = Ok d /\
  forall u g, sample d u g = Ok (with_raw d ((l + h) / 2 + (h - l) / 6 * g)).
Proof.
  intros H. unfold new_array.
  assert (Ho : in_order (Some l) (Some h)) by (now intros ? ? [= <-] [= <-]).
  rewrite new_bound_ok; [|left; discriminate|exact Ho|discriminate]. cbn [bind uni].
  change (with_sigma (plain ((l + h) / 2)) ((h - l) / 6)) with (base_data ((l + h) / 2) ((h - l) / 6) []).
  rewrite (call_ok _ _ _ _ ((l + h) / 2)); [|split; [exact Ho|exact I]|].
  - eexists. split; [reflexivity|]. intros u g. reflexivity.
  - rewrite clip_backward by auto. replace (checker (Some l) (Some h) ((l + h) / 2)) with true; [reflexivity|]. symmetry. apply checker_iff. split; intros ? [= <-]; lra.
Qed.

(** * Bounds and exponent *)
Lemma backward_same m lo hi u g v : m = Clipping \/ m = Bouncing \/ m = Constraint -> within lo hi v -> bound_backward (mkb m lo hi u g) v = Ok v.
Proof.
  intros [-> |[-> | ->]] W; [| |reflexivity]; rewrite clip_backward by auto; apply checker_iff in W; now rewrite W.
Qed.
Lemma fix_two x y raw s c v r : legacy x = true -> legacy y = true -> get_layers [x; y] raw = Ok (v, r) ->
  fix_legacy (mkd raw s c [x; y]) =
  match x, y with
  | Bound b, Exponent base g | Exponent base g, Bound b =>
      match in_log_space base b with Ok b' => (mkd v s c [Exponent base g; Bound b'], None) | Err e => (mkd v s c [], Some e) end
  | _, _ => (mkd v s c [], Some AttributeError)
  end.
Proof.
  intros Hx Hy Eg. unfold fix_legacy. cbn [mkd d_layers filter]. rewrite Hx, Hy. unfold get_value. cbn [mkd d_layers d_raw]. rewrite Eg.
  cbn [bind fst snd with_raw mkd d_layers legacy_together]. rewrite Hx, Hy. cbn [filter]. rewrite Hx, Hy. cbn [negb]. reflexivity.
Qed.
(** Setting the bounds and then the exponent, or the other way round, gives the same parameter, with the
    same value: [set_bounds] are bounds of the value, and apply to it whenever they are set. For the
    methods "arctan" and "tanh" numpy may go through NaN in the second order, which is not modelled. *)
Theorem C87_either_order (v s base : R) (c : list (option R * option R)) (lo hi : option R) (m : method) (full : option bool) :
  m = Clipping \/ m = Bouncing \/ m = Constraint ->
  0 < v -> 1 < base -> positive lo hi -> in_order lo hi -> (lo <> None \/ hi <> None) -> within lo hi v -> (full = Some true -> both lo hi = true) ->
  exists d1 d2 d, set_bounds (base_data v s c) lo hi m full = (d1, None) /\ set_exponent d1 base = (d, None) /\
    set_exponent (base_data v s c) base = (d2, None) /\ set_bounds d2 lo hi m full = (d, None) /\
    get_value d = Ok (v, d) /\ d_sigma d = s /\
    d_checks d = (match m with Constraint => c ++ [(lo, hi)] | _ => c end) /\
    (m <> Constraint -> forall raw, exists w d', get_value (with_raw d raw) = Ok (w, d') /\ within lo hi w) /\
    (forall l h u g, lo = Some l -> hi = Some h -> full <> Some false -> 0 <= u <= 1 ->
       exists d', sample d u g = Ok d' /\ get_value d' = Ok (exp (ln l + (ln h - ln l) * u), d')).
Proof.
  intros Hm Hv Hb Hp Ho Hn Ha Hfull.
  assert (He : enough m lo hi) by (destruct Hm as [-> |[-> | ->]]; cbn; auto).
  assert (Hu : uni lo hi full = true -> both lo hi = true) by (destruct full as [[|]|]; cbn; auto; discriminate).
  assert (Ho' := in_order_lg base lo hi Hb Hp Ho). assert (Ha' := within_lg base lo hi v Hb Hp Hv Ha).
  set (cg := match m with Constraint => true | _ => false end).
  set (c' := match m with Constraint => c ++ [(lo, hi)] | _ => c end).
  set (b := mkb m lo hi (uni lo hi full) true). set (b' := mkb m (olg base lo) (olg base hi) (uni lo hi full) cg).
  set (D := mkd (lg base v) s c' [Exponent base true; Bound b']).
  assert (Hwb : wf_bound b) by (split; [exact Ho|]; destruct Hm as [-> |[-> | ->]]; exact I).
  assert (Hwb' : wf_bound b') by (split; [exact Ho'|]; destruct Hm as [-> |[-> | ->]]; exact I).
  assert (Er1 : bound_backward b v = Ok v) by now apply backward_same.
  assert (Er : bound_backward b' (lg base v) = Ok (lg base v)) by now apply backward_same.
  assert (Hset : forall r0, set_value (mkd r0 s c' [Exponent base true; Bound b']) v = Ok D).
  { intros r0. unfold set_value. cbn [mkd d_layers set_layers]. rewrite exp_back by lra. cbn [finite bind]. rewrite Er. reflexivity. }
  exists (mkd v s c' [Bound b]), (mkd (lg base v) s c [Exponent base true]), D.
  split; [|split; [|split; [|split; [|split; [|split; [|split; [|split]]]]]]].
  - rewrite (set_bounds_base m lo hi full v s c v He Ho Hu Er1). reflexivity.
  - unfold set_exponent. replace (rle base 0) with false by (symmetry; apply rle_false; lra).
    assert (Eg : get_layers [Bound b] v = Ok (v, v)).
    { apply set_get; [constructor; [exact Hwb|constructor]|]. cbn [set_layers]. rewrite Er1. reflexivity. }
    assert (Egv : get_value (mkd v s c' [Bound b]) = Ok (v, mkd v s c' [Bound b])) by (unfold get_value; cbn [mkd d_layers d_raw]; rewrite Eg; reflexivity).
    rewrite Egv. change (with_layers (mkd v s c' [Bound b]) (Exponent base true :: d_layers (mkd v s c' [Bound b]))) with (mkd v s c' [Exponent base true; Bound b]).
    rewrite (fix_two (Exponent base true) (Bound b) v s c' (Rpower base v) v); [|reflexivity|reflexivity|].
    + unfold b at 1. rewrite in_log_space_ok by auto. fold cg. fold b'. rewrite Hset. reflexivity.
    + change (get_layers [Exponent base true; Bound b] v) with (bind (get_layers [Bound b] v) (fun p => bind (finite (op_forward (OExponent base) (fst p))) (fun v => Ok (v, snd p)))).
      rewrite Eg. cbn [bind fst snd]. rewrite exp_forw by lra. reflexivity.
  - unfold set_exponent. replace (rle base 0) with false by (symmetry; apply rle_false; lra). rewrite get_base.
    match goal with |- context [fix_legacy ?d] => change (fix_legacy d) with (mkd v s c [Exponent base true], @None exn) end. cbv iota beta.
    unfold set_value. cbn [mkd d_layers set_layers]. rewrite exp_back by lra. reflexivity.
  - unfold set_bounds.
    assert (Eg : get_value (mkd (lg base v) s c [Exponent base true]) = Ok (v, mkd (lg base v) s c [Exponent base true])).
    { unfold get_value. cbn [mkd d_layers d_raw get_layers bind fst snd]. rewrite exp_forw by lra. cbn [finite bind fst snd]. rewrite rpower_lg by lra. reflexivity. }
    rewrite Eg, (new_bound_ok m lo hi full He Ho Hu). cbn [mkb b_method b_lower b_upper b_uniform].
    change {| b_method := m; b_lower := lo; b_upper := hi; b_uniform := uni lo hi full; b_legacy := true |} with b.
    replace (match m with Constraint => with_check (mkd (lg base v) s c [Exponent base true]) (lo, hi) | _ => mkd (lg base v) s c [Exponent base true] end)
      with (mkd (lg base v) s c' [Exponent base true]) by (unfold c'; destruct m; reflexivity).
    assert (Sx : forall x, within lo hi x -> 0 < x -> set_layers [Bound b; Exponent base true] x = Ok (lg base x)).
    { intros x W Hx. cbn [set_layers]. assert (Eb : bound_backward b x = Ok x) by now apply backward_same. rewrite Eb. cbn [bind]. rewrite exp_back by lra. reflexivity. }
    assert (Ec : call_bound b (mkd (lg base v) s c' [Exponent base true]) = (mkd (lg base v) s c' [Bound b; Exponent base true], None)).
    { unfold call_bound.
      assert (Eg' : get_value (mkd (lg base v) s c' [Exponent base true]) = Ok (v, mkd (lg base v) s c' [Exponent base true])).
      { unfold get_value. cbn [mkd d_layers d_raw get_layers bind fst snd]. rewrite exp_forw by lra. cbn [finite bind fst snd]. rewrite rpower_lg by lra. reflexivity. }
      assert (Sv : forall x r0, within lo hi x -> 0 < x -> set_value (mkd r0 s c' [Bound b; Exponent base true]) x = Ok (mkd (lg base x) s c' [Bound b; Exponent base true])).
      { intros x r0 W Hx. unfold set_value. cbn [mkd d_layers]. rewrite (Sx x W Hx). reflexivity. }
      rewrite Eg'. change (with_layers (mkd (lg base v) s c' [Exponent base true]) (Bound b :: d_layers (mkd (lg base v) s c' [Exponent base true]))) with (mkd (lg base v) s c' [Bound b; Exponent base true]).
      rewrite (Sv v _ Ha Hv).
      change (b_lower b) with lo. change (b_upper b) with hi. destruct Hp as (P1 & P2). destruct lo as [l|]; [|reflexivity]. destruct hi as [h|]; [|reflexivity].
      specialize (Ho l h eq_refl eq_refl). specialize (P1 l eq_refl). cbv zeta.
      rewrite (Sv l), (Sv h) by (first [lra | split; intros ? [= <-]; lra]). reflexivity. }
    rewrite Ec.
    assert (Eg2 : get_layers [Bound b; Exponent base true] (lg base v) = Ok (v, lg base v)).
    { apply set_get; [constructor; [exact Hwb|constructor; [cbn; lra|constructor]]|now apply Sx]. }
    rewrite (fix_two (Bound b) (Exponent base true) (lg base v) s c' v (lg base v) eq_refl eq_refl Eg2).
    unfold b at 1. rewrite in_log_space_ok by auto. fold cg. fold b'. rewrite Hset. reflexivity.
  - assert (Eg : get_layers [Exponent base true; Bound b'] (lg base v) = Ok (v, lg base v)).
    { apply set_get; [constructor; [cbn; lra|constructor; [exact Hwb'|constructor]]|]. cbn [set_layers]. rewrite exp_back by lra. cbn [finite bind]. rewrite Er. reflexivity. }
    unfold get_value, D. cbn [mkd d_layers d_raw]. rewrite Eg. reflexivity.
  - reflexivity.
  - reflexivity.
  - intros Hc raw. destruct (bound_get m (olg base lo) (olg base hi) (uni lo hi full) cg raw Hc Hwb') as (w & r' & Ew & W).
    exists (Rpower base w). eexists. split; [|now apply within_rpower]. unfold get_value, D. cbn [with_raw mkd d_layers d_raw].
    change (get_layers [Exponent base true; Bound b'] raw) with (bind (get_layers [Bound b'] raw) (fun p => bind (finite (op_forward (OExponent base) (fst p))) (fun v => Ok (v, snd p)))).
    unfold b'. rewrite Ew. cbn [bind fst snd]. rewrite exp_forw by lra. reflexivity.
  - intros l h u g -> -> Hf Hu01. destruct Hp as (P1 & _). specialize (P1 l eq_refl). specialize (Ho l h eq_refl eq_refl).
    assert (Eu : uni (Some l) (Some h) full = true) by (destruct full as [[|]|]; try reflexivity; now contradict Hf).
    unfold sample, D. cbn [mkd d_layers sample_layers]. unfold b'. rewrite Eu. cbn [mkb b_uniform b_lower b_upper olg option_map].
    set (w := (lg base h - lg base l) * u + lg base l).
    assert (Ww : within (Some (lg base l)) (Some (lg base h)) w).
    { pose proof (lg_increasing base l h Hb P1 Ho). unfold w; split; intros ? [= <-]; nra. }
    cbn [set_layers]. rewrite (backward_same m (Some (lg base l)) (Some (lg base h)) true cg w Hm Ww). cbn [bind]. eexists. split; [reflexivity|].
    unfold get_value. cbn [with_raw mkd d_layers d_raw].
    rewrite (set_get _ (Rpower base w) w).
    + cbn [bind fst snd]. replace (Rpower base w) with (exp (ln l + (ln h - ln l) * u)); [reflexivity|]. unfold Rpower, w, lg. f_equal.
      pose proof (ln_pos_gt1 base Hb). field. lra.
    + constructor; [cbn; lra|constructor; [|constructor]]. unfold b' in Hwb'. rewrite Eu in Hwb'. exact Hwb'.
    + cbn [set_layers]. rewrite exp_back by (first [lra | apply exp_pos]). cbn [finite bind]. rewrite lg_rpower by lra.
      pose proof (backward_same m (Some (lg base l)) (Some (lg base h)) true cg w Hm Ww) as Eb. unfold mkb in Eb. cbn [olg option_map mkb]. unfold mkb. rewrite Eb. reflexivity.
Qed.
(** Exponents under 1 are allowed, but bounds cannot be combined with them: [set_mutation] raises, and the
    parameter has lost its bounds. *)
Theorem C87_small_exponent_refuted (v s base l h : R) (c : list (option R * option R)) (m : method) : m = Clipping \/ m = Bouncing ->
  0 < base < 1 -> 0 < l -> l < h -> l <= v <= h ->
  exists d1 d2, set_exponent (base_data v s c) base = (d1, None) /\ get_value d1 = Ok (v, d1) /\
    set_bounds (base_data v s c) (Some l) (Some h) m None = (d2, None) /\
    exists d3, set_exponent d2 base = (d3, Some ValueError) /\ d_layers d3 = [].
Proof.
  intros Hm Hb Hl Hh Hv.
  assert (Ho : in_order (Some l) (Some h)) by (now intros ? ? [= <-] [= <-]).
  assert (W : within (Some l) (Some h) v) by (split; intros ? [= <-]; lra).
  assert (Hm' : m = Clipping \/ m = Bouncing \/ m = Constraint) by tauto.
  set (b := mkb m (Some l) (Some h) true true).
  assert (Er : bound_backward b v = Ok v) by now apply backward_same.
  exists (mkd (lg base v) s c [Exponent base true]), (mkd v s c [Bound b]). split; [|split; [|split]].
  - unfold set_exponent. replace (rle base 0) with false by (symmetry; apply rle_false; lra). rewrite get_base.
    match goal with |- context [fix_legacy ?d] => change (fix_legacy d) with (mkd v s c [Exponent base true], @None exn) end. cbv iota beta.
    unfold set_value. cbn [mkd d_layers set_layers]. rewrite exp_back by lra. reflexivity.
  - unfold get_value. cbn [mkd d_layers d_raw get_layers bind fst snd]. rewrite exp_forw by lra. cbn [finite bind fst snd]. rewrite rpower_lg by lra. reflexivity.
  - rewrite (set_bounds_base m (Some l) (Some h) None v s c v); [destruct Hm as [-> | ->]; reflexivity|destruct Hm as [-> | ->]; left; discriminate|exact Ho|reflexivity|exact Er].
  - assert (Hwb : wf_bound b) by (split; [exact Ho|]; destruct Hm as [-> | ->]; exact I).
    assert (Eg : get_layers [Bound b] v = Ok (v, v)).
    { apply set_get; [constructor; [exact Hwb|constructor]|]. cbn [set_layers]. rewrite Er. reflexivity. }
    unfold set_exponent. replace (rle base 0) with false by (symmetry; apply rle_false; lra).
    assert (Egv : get_value (mkd v s c [Bound b]) = Ok (v, mkd v s c [Bound b])) by (unfold get_value; cbn [mkd d_layers d_raw]; rewrite Eg; reflexivity).
    rewrite Egv. change (with_layers (mkd v s c [Bound b]) (Exponent base true :: d_layers (mkd v s c [Bound b]))) with (mkd v s c [Exponent base true; Bound b]).
    rewrite (fix_two (Exponent base true) (Bound b) v s c (Rpower base v) v); [|reflexivity|reflexivity|].
    2:{ change (get_layers [Exponent base true; Bound b] v) with (bind (get_layers [Bound b] v) (fun p => bind (finite (op_forward (OExponent base) (fst p))) (fun v => Ok (v, snd p)))).
      rewrite Eg. cbn [bind fst snd]. rewrite exp_forw by lra. reflexivity. }
    replace (in_log_space base b) with (@Err bound ValueError); [eexists; split; reflexivity|].
    unfold in_log_space, b. cbn [mkb b_lower b_upper b_method b_uniform b_legacy]. rewrite !exp_back by lra. cbn [finite bind].
    assert (Hd : exists a b, Some (lg base l) = Some a /\ Some (lg base h) = Some b /\ b <= a).
    { eexists _, _. split; [reflexivity|]. split; [reflexivity|]. left. now apply lg_decreasing. }
    destruct Hm as [-> | ->]; rewrite new_bound_disorder by exact Hd; reflexivity.
Qed.
(** Setting bounds a second time raises [AttributeError] instead of replacing them, and leaves the parameter without bounds. *)
Theorem C87_bounds_twice_refuted (v s l h l' h' : R) (c : list (option R * option R)) :
  l < h -> l <= v <= h -> l' < h' -> l' <= v <= h' -> l <= l' -> h' <= h ->
  exists d1 d2, set_bounds (base_data v s c) (Some l) (Some h) Bouncing None = (d1, None) /\
    set_bounds d1 (Some l') (Some h') Bouncing None = (d2, Some AttributeError) /\ d_layers d2 = [].
Proof.
  intros H1 Hv H2 Hv' Hll Hhh.
  assert (Ho : in_order (Some l) (Some h)) by (now intros ? ? [= <-] [= <-]).
  assert (Ho' : in_order (Some l') (Some h')) by (now intros ? ? [= <-] [= <-]).
  set (b := mkb Bouncing (Some l) (Some h) true true). set (b' := mkb Bouncing (Some l') (Some h') true true).
  assert (Er : forall x, l <= x <= h -> bound_backward b x = Ok x) by (intros x Hx; apply backward_same; [auto|split; intros ? [= <-]; lra]).
  assert (Er' : forall x, l' <= x <= h' -> bound_backward b' x = Ok x) by (intros x Hx; apply backward_same; [auto|split; intros ? [= <-]; lra]).
  assert (Eg : get_layers [Bound b] v = Ok (v, v)).
  { apply set_get; [constructor; [split; [exact Ho|exact I]|constructor]|]. cbn [set_layers]. rewrite Er by lra. reflexivity. }
  assert (Eg' : get_layers [Bound b'; Bound b] v = Ok (v, v)).
  { apply set_get; [constructor; [split; [exact Ho'|exact I]|constructor; [split; [exact Ho|exact I]|constructor]]|]. cbn [set_layers]. rewrite Er' by lra. cbn [bind]. rewrite Er by lra. reflexivity. }
  exists (mkd v s c [Bound b]), (mkd v s c []). split; [|split; [|reflexivity]].
  - rewrite (set_bounds_base Bouncing (Some l) (Some h) None v s c v); [reflexivity|left; discriminate|exact Ho|reflexivity|apply Er; lra].
  - assert (Egv : get_value (mkd v s c [Bound b]) = Ok (v, mkd v s c [Bound b])) by (unfold get_value; cbn [mkd d_layers d_raw]; rewrite Eg; reflexivity).
    unfold set_bounds. rewrite Egv.
    rewrite new_bound_ok; [|left; discriminate|exact Ho'|reflexivity]. cbn [mkb b_method b_lower b_upper b_uniform uni both].
    change {| b_method := Bouncing; b_lower := Some l'; b_upper := Some h'; b_uniform := true; b_legacy := true |} with b'.
    assert (Sx : forall x r0, l' <= x <= h' -> set_value (mkd r0 s c [Bound b'; Bound b]) x = Ok (mkd x s c [Bound b'; Bound b])).
    { intros x r0 Hx. unfold set_value. cbn [mkd d_layers set_layers]. rewrite Er' by lra. cbn [bind]. rewrite Er by lra. reflexivity. }
    assert (Ec : call_bound b' (mkd v s c [Bound b]) = (mkd v s c [Bound b'; Bound b], None)).
    { unfold call_bound. rewrite Egv. change (with_layers (mkd v s c [Bound b]) (Bound b' :: d_layers (mkd v s c [Bound b]))) with (mkd v s c [Bound b'; Bound b]).
      rewrite Sx by lra. change (b_lower b') with (Some l'). change (b_upper b') with (Some h'). cbv beta iota zeta. rewrite !Sx by lra. reflexivity. }
    rewrite Ec, (fix_two (Bound b') (Bound b) v s c v v eq_refl eq_refl Eg'). reflexivity.
Qed.
(** A logarithmic scalar whose bounds are given in the wrong order is accepted, where a scalar raises. *)
Theorem C87_log_disorder_refuted (l h : R) : 0 < h < l -> exists d v d', new_log None None (Some l) (Some h) = Ok d /\ get_value d = Ok (v, d') /\ h <= v <= l.
Proof.
  intros H.
  assert (Hp : positive (Some l) (Some h)) by (split; intros ? [= <-]; lra).
  assert (Hlh : 0 < l * h) by (apply Rmult_lt_0_compat; lra). assert (Hsq := sqrt_lt_R0 _ Hlh).
  set (e := log_base None (Some l) (Some h)).
  assert (Hd : ln h < ln l) by (apply ln_increasing; lra).
  assert (Hln : ln e = (ln h - ln l) / 6).
  { unfold e, log_base, Rpower. rewrite ln_exp. unfold Rdiv at 1. rewrite ln_mult, ln_Rinv by (try lra; apply Rinv_0_lt_compat; lra). field. }
  assert (Hpe : 0 < e) by apply exp_pos. assert (Hne : e <> 1) by (intros K; rewrite K, ln_1 in Hln; lra).
  assert (Hs : ln (sqrt (l * h)) = (ln l + ln h) / 2).
  { assert (2 * ln (sqrt (l * h)) = ln l + ln h); [|lra].
    rewrite <- ln_mult by lra. rewrite <- (sqrt_sqrt (l * h)) at 2 by nra. rewrite ln_mult by assumption. ring. }
  assert (E1 : lg e h = lg e l + 6) by (unfold lg; rewrite Hln; field; lra).
  assert (E2 : lg e (sqrt (l * h)) = lg e l + 3) by (unfold lg; rewrite Hln, Hs; field; lra).
  assert (Ho' : in_order (olg e (Some l)) (olg e (Some h))) by (intros ? ? [= <-] [= <-]; lra).
  assert (W : within (olg e (Some l)) (olg e (Some h)) (lg e (sqrt (l * h)))) by (split; intros ? [= <-]; lra).
  eexists _, (sqrt (l * h)), _. split; [|split].
  - rewrite (log_steps None None (Some l) (Some h) (sqrt (l * h)) Hp eq_refl Hsq) by (try discriminate; assumption). fold e. cbn [olg option_map both andb].
    rewrite new_bound_ok; [|left; discriminate|exact Ho'|reflexivity]. cbn [bind uni].
    change (plain (lg e (sqrt (l * h)))) with (base_data (lg e (sqrt (l * h))) 1 []). rewrite (call_ok _ _ _ _ (lg e (sqrt (l * h)))); [reflexivity|split; [exact Ho'|exact I]|].
    apply backward_same; [auto|exact W].
  - unfold get_value. cbn [with_layers mkd d_layers d_raw]. rewrite (set_get _ (sqrt (l * h)) (lg e (sqrt (l * h)))); [reflexivity| |].
    + constructor; [exact Hpe|constructor; [split; [exact Ho'|exact I]|constructor]].
    + cbn [set_layers]. rewrite exp_back by assumption. cbn [finite bind].
      change (Some (lg e l)) with (olg e (Some l)). change (Some (lg e h)) with (olg e (Some h)).
      rewrite (backward_same Bouncing (olg e (Some l)) (olg e (Some h)) true false _ (or_intror (or_introl eq_refl)) W). reflexivity.
  - split.
    + rewrite <- (sqrt_square h) at 1 by lra. apply sqrt_le_1_alt. nra.
    + rewrite <- (sqrt_square l) at 2 by lra. apply sqrt_le_1_alt. nra.
Qed.

(** [Scalar(lower=-1, upper=5)], [Log(lower=1, upper=64)], [Scalar(lower=1)] *)
Example C87_scalar_ex : in_order (Some (-1)) (Some 5) /\ within (Some (-1)) (Some 5) (starting None (Some (-1)) (Some 5)) /\ starting None (Some (-1)) (Some 5) = 2 /\ deviation (Some (-1)) (Some 5) = 1.
Proof.
  cbn. assert (E : (-1 + 5) / 2 = 2) by field. rewrite E. split; [intros ? ? [= <-] [= <-]; lra|]. split; [split; intros ? [= <-]; lra|]. split; [reflexivity|field].
Qed.
Example C87_scalar_lower_ex : new_scalar None (Some 1) None = Err ValueError.
Proof.
  apply (C87_construct new_scalar None (Some 1) None (or_introl eq_refl)). intros (_ & W & _). specialize (W 1 eq_refl). cbn in W. lra.
Qed.
Example C87_log_ex : positive (Some 1) (Some 64) /\ in_order (Some 1) (Some 64) /\ log_starting None (Some 1) (Some 64) = Some 8 /\ within (Some 1) (Some 64) 8 /\ log_base None (Some 1) (Some 64) = 2.
Proof.
  split; [split; intros ? [= <-]; lra|]. split; [intros ? ? [= <-] [= <-]; lra|]. split.
  - cbn. f_equal. replace (1 * 64) with (8 * 8) by ring. apply sqrt_square. lra.
  - split; [split; intros ? [= <-]; lra|]. cbn. replace (64 / 1) with (2 ^ 6) by field. rewrite <- (Rpower_pow 6) by lra. rewrite Rpower_mult.
    replace (INR 6 * / 6) with 1 by (cbn; field). apply Rpower_1. lra.
Qed.
Print Assumptions C87_set_get. Print Assumptions C87_get_again. Print Assumptions C87_construct. Print Assumptions C87_bounded.
Print Assumptions C87_set. Print Assumptions C87_set_bounds. Print Assumptions C87_bounce. Print Assumptions C87_log.
Print Assumptions C87_log_bounded. Print Assumptions C87_log_set. Print Assumptions C87_log_scale. Print Assumptions C87_sample_scalar.
Print Assumptions C87_sample_log. Print Assumptions C87_sample_around. Print Assumptions C87_array_sampling_refuted. Print Assumptions C87_either_order.
Print Assumptions C87_small_exponent_refuted. Print Assumptions C87_bounds_twice_refuted. Print Assumptions C87_log_disorder_refuted.

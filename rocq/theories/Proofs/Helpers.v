(** Lemmas about the helpers of parametrizations. *)
From Coq Require Import Reals Lra Lia List Bool Arith.
From Verif.Model Require Import Prelude RTransforms DataParam Helpers.
From Verif.Spec Require Import DataParam Helpers.
From Verif.Proofs Require Import RTransforms DataParam.
From Verif.Props Require Import DataParam.
Import ListNotations.
Open Scope R_scope.

(** The layers of ordinary numbers: exponents over at most one bound, in order, with the bounds its method needs. *)
Definition is_exponent (l : layer) : Prop := match l with Exponent base _ => 0 < base | _ => False end.
Definition sound_bound (b : bound) : Prop :=
  in_order (b_lower b) (b_upper b) /\
  match b_method b with Arctan | Tanh => (exists l, b_lower b = Some l) /\ (exists h, b_upper b = Some h) | _ => True end.
Definition ordinary (d : data) : Prop :=
  d_sigma d <> 0 /\ exists ups, Forall is_exponent ups /\ (d_layers d = ups \/ exists b, sound_bound b /\ d_layers d = ups ++ [Bound b]).
(** its two bounds, if it has both *)
Definition bounds_of (d : data) : option (R * R) :=
  match last (d_layers d) (Exponent 1 false) with
  | Bound b => match b_lower b, b_upper b with Some l, Some h => Some (l, h) | _, _ => None end
  | _ => None
  end.
(** An array of ordinary numbers, all of them with both bounds or none. *)
Definition ordinary_leaf (lf : leaf) : Prop :=
  l_coords lf <> [] /\ Forall ordinary (l_coords lf) /\
  ((forall d, In d (l_coords lf) -> bounds_of d <> None) \/ (forall d, In d (l_coords lf) -> bounds_of d = None)).
(** * Layers *)
Lemma pick_ups only ups ls : Forall is_exponent ups -> pick only (ups ++ ls) = pick only ls.
Proof. induction 1 as [|[b|base g] ups H Hs IH]; [reflexivity|destruct H|exact IH]. Qed.
(** through the exponents *)
Fixpoint up (ups : list layer) (v : R) : R :=
  match ups with Exponent base _ :: ups' => Rpower base (up ups' v) | _ => v end.
Lemma get_ups ups ls raw : Forall is_exponent ups ->
  get_layers (ups ++ ls) raw = bind (get_layers ls raw) (fun p => Ok (up ups (fst p), snd p)).
Proof.
  induction 1 as [|[b|base g] ups H Hs IH]; [cbn [app up]; now destruct (get_layers ls raw) as [(v, r)|e]|destruct H|].
  cbn [app get_layers up]. rewrite IH. destruct (get_layers ls raw) as [(v, r)|e]; [|reflexivity]. cbn [bind fst snd]. rewrite exp_forw by exact H. reflexivity.
Qed.
Lemma last_app_one {A} (l : list A) x y : last (l ++ [x]) y = x.
Proof. apply last_last. Qed.
Lemma last_ups ups : Forall is_exponent ups -> match last ups (Exponent 1 false) with Bound _ => False | _ => True end.
Proof. induction 1 as [|[b|base g] ups H Hs IH]; [exact I|destruct H|]. destruct ups; [exact I|exact IH]. Qed.
(** the bound that the normalizer uses *)
Lemma pick_none d : ordinary d -> bounds_of d = None -> pick false (d_layers d) = None.
Proof.
  intros (_ & ups & Hu & [E|(b & Hb & E)]) K; unfold bounds_of in K; rewrite E in *.
  - rewrite <- (app_nil_r ups), pick_ups by exact Hu. reflexivity.
  - rewrite last_app_one in K. rewrite pick_ups by exact Hu. cbn. destruct (b_lower b), (b_upper b); try discriminate; reflexivity.
Qed.
Lemma pick_some d l h : ordinary d -> bounds_of d = Some (l, h) ->
  exists ups b, Forall is_exponent ups /\ sound_bound b /\ d_layers d = ups ++ [Bound b] /\ b_lower b = Some l /\ b_upper b = Some h /\
    l < h /\ pick false (d_layers d) = Some (l, h, [Bound b]).
Proof.
  intros (_ & ups & Hu & [E|(b & Hb & E)]) K; unfold bounds_of in K; rewrite E in *.
  - pose proof (last_ups ups Hu) as L. destruct (last ups _); [destruct L|discriminate].
  - rewrite last_app_one in K. exists ups, b. destruct (b_lower b) as [l'|] eqn:El; [|discriminate]. destruct (b_upper b) as [h'|] eqn:Eh; [|discriminate].
    injection K as -> ->. repeat split; auto; [apply Hb|apply Hb|now apply Hb|]. rewrite pick_ups by exact Hu. cbn. now rewrite El, Eh.
Qed.
Lemma sound_wf b : sound_bound b -> wf_layer (Bound b).
Proof. intros H. exact H. Qed.

Lemma arctan_defined lo hi v : lo < v < hi -> in_range false (TArctan lo hi) v = true /\ exists u, apply true (TArctan lo hi) v = Fin u.
Proof.
  intros H. cbn [in_range apply]. destruct (Rlt_dec hi v); [lra|]. destruct (Rlt_dec v lo); [lra|]. split; [reflexivity|]. unfold np_tan.
  pose proof PI_RGT_0 as Hpi. set (t := (v - (hi + lo) / 2) / ((hi - lo) / PI)).
  assert (Hv : t = PI * ((v - (hi + lo) / 2) / (hi - lo))) by (unfold t; field; lra).
  assert (Hq : - (1 / 2) < (v - (hi + lo) / 2) / (hi - lo) < 1 / 2).
  { split; apply (Rmult_lt_reg_r (hi - lo)); try lra; unfold Rdiv at 2; rewrite ?Rmult_assoc, ?Rinv_l by lra; unfold Rdiv; try rewrite Rmult_assoc, Rinv_l by lra; lra. }
  destruct (Req_EM_T t (PI / 2)) as [E|_]; [rewrite Hv in E; nra|]. destruct (Req_EM_T t (- (PI / 2))) as [E|_]; [rewrite Hv in E; nra|]. eauto.
Qed.
Lemma tanh_defined lo hi v : lo < v < hi -> in_range false (TTanh lo hi) v = true /\ exists u, apply true (TTanh lo hi) v = Fin u.
Proof.
  intros H. cbn [in_range apply]. destruct (Rlt_dec hi v); [lra|]. destruct (Rlt_dec v lo); [lra|]. split; [reflexivity|]. unfold np_arctanh.
  set (t := (v - (hi + lo) / 2) / ((hi - lo) / 2)).
  assert (Hq : - (1) < t < 1).
  { unfold t. split; apply (Rmult_lt_reg_r ((hi - lo) / 2)); try lra; unfold Rdiv at 2; rewrite ?Rmult_assoc, ?Rinv_l by lra; unfold Rdiv; try rewrite Rmult_assoc, Rinv_l by lra; lra. }
  destruct (Req_EM_T t 1); [lra|]. destruct (Req_EM_T t (-1)); [lra|]. destruct (Rlt_dec (-1) t); [|lra]. destruct (Rlt_dec t 1); [|lra]. eauto.
Qed.
(** the open methods do not reach the bounds *)
Definition allowed (b : bound) (u : R) : Prop := match b_method b with Arctan | Tanh => 0 < u < 1 | _ => 0 <= u <= 1 end.
Lemma bound_set b l h u : sound_bound b -> b_lower b = Some l -> b_upper b = Some h -> allowed b u ->
  exists r, set_layers [Bound b] ((h - l) * u + l) = Ok r.
Proof.
  intros (Ho & Hm) El Eh Hu. cbn [set_layers]. unfold bound_backward. unfold allowed in Hu. rewrite El, Eh in *. specialize (Ho l h eq_refl eq_refl).
  assert (Hc : 0 <= u <= 1 -> checker (Some l) (Some h) ((h - l) * u + l) = true).
  { intros K. apply checker_iff. split; intros x [= <-]; nra. }
  destruct (b_method b); try (rewrite Hc by exact Hu; cbn; eauto).
  - destruct (arctan_defined l h ((h - l) * u + l)) as (E1 & r & E2); [nra|]. rewrite E1, E2. cbn. eauto.
  - destruct (tanh_defined l h ((h - l) * u + l)) as (E1 & r & E2); [nra|]. rewrite E1, E2. cbn. eauto.
  - cbn. eauto.
Qed.
Definition coord_allowed (d : data) (u : R) : Prop :=
  match last (d_layers d) (Exponent 1 false) with Bound b => allowed b u | _ => True end.
Lemma coord_back d l h u : ordinary d -> bounds_of d = Some (l, h) -> coord_allowed d u ->
  exists ups x r, Forall is_exponent ups /\ back_coord false d u = Ok x /\ forw_coord false d x = Ok u /\
    set_std d x = Ok (up ups ((h - l) * u + l), with_raw d r) /\ exists b, d_layers d = ups ++ [Bound b].
Proof.
  intros Hd Hb Hu. destruct (pick_some d l h Hd Hb) as (ups & b & Hups & Hsb & El & Elo & Ehi & Hlt & Ep). destruct Hd as (Hs & _).
  unfold coord_allowed in Hu. rewrite El, last_app_one in Hu. destruct (bound_set b l h u Hsb Elo Ehi Hu) as (r & Er).
  assert (Hg : get_layers [Bound b] r = Ok ((h - l) * u + l, r)) by (apply set_get; [repeat constructor; apply Hsb|exact Er]).
  set (x := (r - d_raw d) / d_sigma d). assert (Hx : d_sigma d * (x + d_raw d / d_sigma d) = r) by (unfold x; field; exact Hs).
  assert (Hstd : set_std d x = Ok (up ups ((h - l) * u + l), with_raw d r)).
  { unfold set_std, get_value. cbn [with_raw d_layers d_raw]. rewrite Hx, El, get_ups, Hg by exact Hups. reflexivity. }
  exists ups, x, r. split; [exact Hups|]. split; [unfold back_coord; now rewrite Ep, Er|]. split.
  - unfold forw_coord. rewrite Ep, Hstd. cbn [bind fst snd with_raw d_raw]. rewrite Hg. cbn [bind fst]. f_equal. field. lra.
  - split; [exact Hstd|eauto].
Qed.

(** * Vectors *)
Lemma each2_map3 {A B C} (f : A -> B -> result C) (P : A -> B -> C -> Prop) la lb : length la = length lb ->
  (forall a b, In a la -> In b lb -> exists c, f a b = Ok c /\ P a b c) -> exists lc, each2 f la lb = Ok lc /\ Forall3 P la lb lc.
Proof.
  revert lb. induction la as [|a la IH]; intros [|b lb] Hl H; try discriminate; [exists []; split; [reflexivity|constructor]|].
  destruct (H a b (or_introl eq_refl) (or_introl eq_refl)) as (c & E & Hc).
  destruct (IH lb) as (lc & El & Hlc); [now injection Hl|intros; apply H; now right|]. exists (c :: lc). cbn. rewrite E, El. split; [reflexivity|now constructor].
Qed.
Lemma Forall3_length {A B C} (P : A -> B -> C -> Prop) la lb lc : Forall3 P la lb lc -> length la = length lb /\ length lb = length lc.
Proof. induction 1 as [|? ? ? ? ? ? ? H (IH1 & IH2)]; cbn; auto. Qed.
Lemma Forall3_app {A B C} (P : A -> B -> C -> Prop) la lb lc la' lb' lc' : Forall3 P la lb lc -> Forall3 P la' lb' lc' -> Forall3 P (la ++ la') (lb ++ lb') (lc ++ lc').
Proof. induction 1; cbn; [auto|]. intros H'. constructor; auto. Qed.
Lemma Forall3_impl {A B C} (P Q : A -> B -> C -> Prop) la lb lc : (forall a b c, In a la -> P a b c -> Q a b c) -> Forall3 P la lb lc -> Forall3 Q la lb lc.
Proof.
  intros H F. induction F as [|a b c la lb lc Hp F IH]; constructor; [apply H; [now left|exact Hp]|apply IH; intros; apply H; auto; now right].
Qed.
Lemma each2_inverse {A B C} (f : A -> B -> result C) (g : A -> C -> result B) la lb lc : Forall3 (fun a b c => f a b = Ok c /\ g a c = Ok b) la lb lc ->
  each2 f la lb = Ok lc /\ each2 g la lc = Ok lb.
Proof. induction 1 as [|a b c la lb lc (E1 & E2) F (I1 & I2)]; [split; reflexivity|]. cbn. rewrite E1, E2. cbn. rewrite I1, I2. split; reflexivity. Qed.

Lemma default_inverse u : 0 < u < 1 -> in_range false default_trans u = true /\ apply true default_trans u = Fin (cauchy_ppf u) /\ apply false default_trans (cauchy_ppf u) = Fin u.
Proof.
  intros Hu. destruct (arctan_defined 0 1 u) as (E1 & r & E2); [lra|]. unfold default_trans.
  assert (Er : r = cauchy_ppf u).
  { cbn [apply] in E2. unfold np_tan in E2. destruct (Req_EM_T _ _); [discriminate|]. destruct (Req_EM_T _ _); [discriminate|]. injection E2 as <-. unfold cauchy_ppf. f_equal.
    field. pose proof PI_RGT_0. lra. }
  subst r. split; [exact E1|]. split; [exact E2|]. apply (arctan_point 0 1 u (cauchy_ppf u)); [lra|exact E2|exact E1].
Qed.
Lemma utrans_inverse (us : list R) : Forall (fun u => 0 < u < 1) us ->
  utrans default_trans false us = Ok (map cauchy_ppf us) /\ utrans default_trans true (map cauchy_ppf us) = Ok us.
Proof.
  intros H. unfold utrans. cbn [negb].
  assert (E1 : forallb (in_range false default_trans) us = true).
  { apply forallb_forall. intros u Hu. rewrite Forall_forall in H. now apply default_inverse, H. }
  assert (E2 : forallb (in_range true default_trans) (map cauchy_ppf us) = true) by (apply forallb_forall; reflexivity).
  rewrite E1, E2. clear E1 E2. rewrite map_length. induction H as [|u us Hu H (I1 & I2)]; [split; reflexivity|]. cbn [length repeat map each2].
  destruct (default_inverse u Hu) as (_ & -> & ->). cbn [finite bind]. rewrite I1, I2. split; reflexivity.
Qed.

Definition coord_rel (d : data) (u x : R) : Prop :=
  match bounds_of d with
  | Some _ => back_coord false d u = Ok x /\ forw_coord false d x = Ok u
  | None => x = cauchy_ppf u
  end.
Lemma leaf_bounds lf : ordinary_leaf lf ->
  (has_bounds false lf = true /\ forall d, In d (l_coords lf) -> bounds_of d <> None) \/ (has_bounds false lf = false /\ forall d, In d (l_coords lf) -> bounds_of d = None).
Proof.
  intros (Hn & Ho & Hb). unfold has_bounds. rewrite Forall_forall in Ho. destruct (l_coords lf) as [|d ds]; [contradiction|]. specialize (Ho d (or_introl eq_refl)).
  destruct Hb as [Hb|Hb]; [left|right]; (split; [|exact Hb]); specialize (Hb d (or_introl eq_refl)).
  - destruct (bounds_of d) as [(l, h)|] eqn:E; [|contradiction]. destruct (pick_some d l h Ho E) as (? & ? & ? & ? & ? & ? & ? & ? & ->). reflexivity.
  - now rewrite (pick_none d Ho Hb).
Qed.
Lemma leaf_inverse lf us : ordinary_leaf lf -> length us = length (l_coords lf) -> Forall (fun u => 0 < u < 1) us ->
  exists xs, conv_leaf default_trans false false lf us = Ok xs /\ length xs = length us /\ Forall3 coord_rel (l_coords lf) us xs /\
    (writable (l_shape lf) = true -> conv_leaf default_trans false true lf xs = Ok us).
Proof.
  intros Hlf Hl Hu. pose proof Hlf as (Hn & Ho & _). rewrite Forall_forall in Ho. unfold conv_leaf. destruct (leaf_bounds lf Hlf) as [(-> & Hb)|(-> & Hb)].
  - assert (exists xs, each2 (back_coord false) (l_coords lf) us = Ok xs /\ Forall3 (fun d u x => back_coord false d u = Ok x /\ forw_coord false d x = Ok u) (l_coords lf) us xs) as (xs & E & H).
    { apply each2_map3; [now symmetry|]. intros d u Hd Hin. specialize (Hb d Hd). destruct (bounds_of d) as [(l, h)|] eqn:Eb; [|contradiction].
      rewrite Forall_forall in Hu. specialize (Hu u Hin). destruct (coord_back d l h u (Ho d Hd) Eb) as (ups & x & r & _ & E1 & E2 & _).
      - unfold coord_allowed. destruct (last _ _) as [b|]; [|exact I]. unfold allowed. destruct (b_method b); lra.
      - exists x. auto. }
    exists xs. split; [exact E|]. destruct (Forall3_length _ _ _ _ H) as (L1 & L2). split; [now rewrite <- L2|]. split.
    + revert H. apply Forall3_impl. intros a b c Ha Hp. unfold coord_rel. specialize (Hb a Ha). destruct (bounds_of a); [exact Hp|contradiction].
    + intros W. rewrite W. destruct (each2_inverse _ _ _ _ _ H) as (_ & ->). reflexivity.
  - destruct (utrans_inverse us Hu) as (E1 & E2). exists (map cauchy_ppf us). split; [exact E1|]. split; [apply map_length|]. split; [|intros _; exact E2].
    clear E1 E2 Hn Hu Hlf. revert us Hl. revert Hb. generalize (l_coords lf). induction l as [|d ds IH]; intros Hb us Hl; destruct us as [|u us]; try discriminate; [constructor|]. cbn.
    constructor; [unfold coord_rel; now rewrite (Hb d (or_introl eq_refl))|]. apply IH; [intros; apply Hb; now right|now injection Hl].
Qed.
Lemma leaves_inverse leaves us : Forall ordinary_leaf leaves -> length us = length (numbers leaves) -> Forall (fun u => 0 < u < 1) us ->
  exists xs, apply_unsafe (conv_leaf default_trans false false) leaves us = (xs, None) /\ length xs = length us /\ Forall3 coord_rel (numbers leaves) us xs /\
    (Forall (fun lf => writable (l_shape lf) = true) leaves -> apply_unsafe (conv_leaf default_trans false true) leaves xs = (us, None)).
Proof.
  intros H. revert us. induction H as [|lf leaves Hlf H IH]; intros us Hl Hu.
  - destruct us; [|discriminate]. exists []. repeat split; constructor.
  - cbn [numbers flat_map] in Hl. rewrite app_length in Hl. set (n := length (l_coords lf)) in *.
    assert (Hf : length (firstn n us) = n) by (rewrite firstn_length; lia).
    rewrite <- (firstn_skipn n us) in Hu. apply Forall_app in Hu. destruct Hu as (Hu1 & Hu2).
    destruct (leaf_inverse lf (firstn n us) Hlf Hf Hu1) as (xs & E & Lx & F & B).
    destruct (IH (skipn n us)) as (ys & E' & Ly & F' & B'); [rewrite skipn_length; unfold numbers; lia|exact Hu2|].
    exists (xs ++ ys). cbn [apply_unsafe]. fold n. rewrite E, E'. split; [reflexivity|]. split; [rewrite app_length, Lx, Ly, <- app_length, firstn_skipn; reflexivity|]. split.
    + cbn [numbers flat_map]. rewrite <- (firstn_skipn n us) at 1. now apply Forall3_app.
    + intros W. inversion W as [|? ? W1 W2]; subst.
      assert (Ex : firstn n (xs ++ ys) = xs) by (rewrite <- (app_nil_r xs) at 2; rewrite <- Hf, <- Lx, firstn_app, Nat.sub_diag, firstn_all; reflexivity).
      assert (Ey : skipn n (xs ++ ys) = ys) by (rewrite <- Hf, <- Lx, skipn_app, Nat.sub_diag, skipn_all; reflexivity).
      rewrite Ex, Ey, (B W1), (B' W2). now rewrite firstn_skipn.
Qed.

(** * Forward stays in the unit cube *)
Lemma bound_get b l h raw : sound_bound b -> b_lower b = Some l -> b_upper b = Some h -> b_method b <> Constraint ->
  exists v r, get_layers [Bound b] raw = Ok (v, r) /\ l <= v <= h.
Proof.
  intros (Ho & Hm) El Eh Hc. cbn [get_layers bind fst snd set_layers]. rewrite El, Eh in *. specialize (Ho l h eq_refl eq_refl).
  assert (K : in_order (Some l) (Some h)) by (intros ? ? [= <-] [= <-]; exact Ho).
  assert (K2 : forall v, within (Some l) (Some h) v -> l <= v <= h) by (intros v (A & B); split; auto).
  destruct (b_method b); try contradiction.
  - destruct (checker (Some l) (Some h) raw) eqn:E; [apply checker_iff in E|]; eexists _, _; (split; [reflexivity|apply K2; auto; now apply outside_within]).
  - destruct (checker (Some l) (Some h) raw) eqn:E; [apply checker_iff in E|]; eexists _, _; (split; [reflexivity|apply K2; auto; now apply outside_within]).
  - destruct (arctan_inside l h raw Ho) as (v & -> & Hv). cbn. exists v, raw. split; [reflexivity|lra].
  - destruct (tanh_inside l h raw Ho) as (v & -> & Hv). cbn. exists v, raw. split; [reflexivity|lra].
Qed.

(** * The numbers made by the constructors *)
Lemma made_scalar_ok make init lo hi d : make = new_scalar \/ make = new_array -> make init lo hi = Ok d -> in_order lo hi /\ within lo hi (starting init lo hi).
Proof.
  intros Hm E. destruct (in_order_dec lo hi) as [Ho|Ho]; [destruct (within_dec lo hi (starting init lo hi)) as [Hw|Hw]|].
  - now split.
  - rewrite (proj2 (C87_construct make init lo hi Hm)) in E by tauto. discriminate.
  - rewrite (proj2 (C87_construct make init lo hi Hm)) in E by tauto. discriminate.
Qed.
Lemma set_bounds_shape v s lo hi m full d : set_bounds (base_data v s []) lo hi m full = (d, None) ->
  exists r c u, d = mkd r s c [Bound (mkb m lo hi u true)] /\ wf_bound (mkb m lo hi u true).
Proof.
  intros E. unfold set_bounds in E. rewrite get_base in E. destruct (new_bound m lo hi full) as [b|e] eqn:En; [|discriminate].
  assert (Hb : b = mkb m lo hi (uni lo hi full) false /\ in_order lo hi /\ enough m lo hi /\ (uni lo hi full = true -> both lo hi = true)).
  { unfold new_bound in En. fold (both lo hi) in En. fold (uni lo hi full) in En. destruct (uni lo hi full && negb (both lo hi)) eqn:Eu; [discriminate|].
    destruct (match lo, hi with Some l, Some h => rle h l | _, _ => false end) eqn:Er; [discriminate|].
    assert (Ho : in_order lo hi) by (intros l h -> ->; now apply rle_false).
    assert (Hu : uni lo hi full = true -> both lo hi = true) by (intros K; rewrite K in Eu; now destruct (both lo hi)).
    destruct m, lo as [l|], hi as [h|]; try discriminate En; injection En as <-; (split; [reflexivity|split; [exact Ho|split; [|exact Hu]]]); cbn; auto; (left; discriminate) || (right; discriminate). }
  destruct Hb as (-> & Ho & He & Hu). cbn [mkb b_method b_lower b_upper b_uniform] in E.
  assert (Hw : wf_bound (mkb m lo hi (uni lo hi full) true)).
  { split; [exact Ho|]. cbn. destruct m; try exact I; cbn in He; destruct lo, hi; try discriminate; eauto. }
  destruct (bound_backward (mkb m lo hi (uni lo hi full) true) v) as [r|e] eqn:Eb.
  - pose proof (set_bounds_base m lo hi full v s [] r He Ho Hu Eb) as E'. unfold set_bounds in E'. rewrite get_base, En in E'. cbn [mkb b_method b_lower b_upper b_uniform] in E'.
    rewrite E' in E. injection E as <-. eauto.
  - exfalso. set (d0 := match m with Constraint => with_check (base_data v s []) (lo, hi) | _ => base_data v s [] end) in E.
    assert (K : exists c, d0 = base_data v s c) by (unfold d0; destruct m; eexists; reflexivity). destruct K as (c & Ec). rewrite Ec in E.
    pose proof (call_err _ v s c e Eb) as K. unfold mkb in K. destruct (call_bound _ _) as [d1 o]. cbn in K. subst o. discriminate.
Qed.
Lemma bounds_one d ups b : d_layers d = ups ++ [Bound b] -> bounds_of d = match b_lower b, b_upper b with Some l, Some h => Some (l, h) | _, _ => None end.
Proof. intros E. unfold bounds_of. rewrite E, last_app_one. reflexivity. Qed.
Lemma made_ordinary d m f : made d m f -> ordinary d /\
  match f with
  | None => bounds_of d = None
  | Some g => exists ups b l h, Forall is_exponent ups /\ sound_bound b /\ d_layers d = ups ++ [Bound b] /\ b_method b = m /\ b_lower b = Some l /\ b_upper b = Some h /\
      forall u, g u = up ups ((h - l) * u + l)
  end.
Proof.
  assert (Lin : forall d m lo hi b, d_sigma d <> 0 -> d_layers d = [Bound b] -> wf_bound b -> b_method b = m -> b_lower b = lo -> b_upper b = hi ->
    ordinary d /\ match linear lo hi with None => bounds_of d = None | Some g => exists ups b l h, Forall is_exponent ups /\ sound_bound b /\ d_layers d = ups ++ [Bound b] /\ b_method b = m /\
      b_lower b = Some l /\ b_upper b = Some h /\ forall u, g u = up ups ((h - l) * u + l) end).
  { intros d0 m0 lo hi b Hs El Hw Hm Hl Hh. split.
    - split; [exact Hs|]. exists []. split; [constructor|]. right. exists b. split; [exact Hw|exact El].
    - pose proof (bounds_one d0 [] b El) as K. rewrite Hl, Hh in K. unfold linear. destruct lo as [l|], hi as [h|]; try exact K.
      exists [], b, l, h. repeat split; auto; try apply Hw. intros u. cbn. ring. }
  intros H. destruct H as [make init lo hi d Hm E|v s m lo hi full d Hs E|init exponent lo hi d Hi He Hp Ho E].
  - destruct (made_scalar_ok make init lo hi d Hm E) as (Ho & Hw). destruct (scalar_shape make init lo hi Hm Ho Hw) as (ls & E' & Hls). rewrite E in E'. injection E' as ->.
    assert (Hs : deviation lo hi <> 0) by (unfold deviation; destruct lo as [l|], hi as [h|]; try lra; specialize (Ho l h eq_refl eq_refl); lra).
    destruct Hls as [(-> & -> & ->)|(u & g & ->)].
    + split; [|reflexivity]. split; [exact Hs|]. exists []. split; [constructor|]. now left.
    + apply (Lin _ _ _ _ (mkb Bouncing lo hi u g)); try reflexivity; [exact Hs|]. split; [exact Ho|exact I].
  - change {| d_raw := v; d_layers := []; d_sigma := s; d_checks := [] |} with (base_data v s []) in E. destruct (set_bounds_shape v s lo hi m full d E) as (r & c & u & -> & Hw).
    now apply (Lin _ _ _ _ (mkb m lo hi u true)).
  - assert (K : exists v, log_starting init lo hi = Some v /\ 0 < v /\ within lo hi v).
    { pose proof (C87_log init exponent lo hi Hi He Hp Ho) as K. destruct (log_starting init lo hi) as [v|] eqn:Es; [|congruence]. destruct K as (_ & K). exists v. split; [reflexivity|].
      destruct (within_dec lo hi v) as [W|W]; [|now rewrite (K W) in E]. split; [|exact W]. unfold log_starting in Es.
      destruct init; [injection Es as <-; auto|]. destruct lo as [l|]; [|discriminate]. destruct hi as [h|]; [|discriminate]. injection Es as <-.
      apply sqrt_lt_R0. destruct Hp as (P1 & P2). apply Rmult_lt_0_compat; auto. }
    destruct K as (v & Hs & Hv & Hw). rewrite (log_shape init exponent lo hi v Hp Hs Hv He Ho Hw) in E. injection E as <-.
    pose proof (log_base_gt exponent lo hi He Hp Ho) as Hb. set (e := log_base exponent lo hi) in *. set (u := (both lo hi && match init with None => true | _ => false end)%bool).
    assert (Hup : Forall is_exponent [Exponent e false]) by (repeat constructor; cbn; lra).
    assert (Hwb : sound_bound (mkb Bouncing (olg e lo) (olg e hi) u false)) by (split; [now apply in_order_lg|exact I]).
    destruct (both lo hi) eqn:Eb.
    + destruct lo as [l|]; [|discriminate]. destruct hi as [h|]; [|discriminate]. cbn [geometric]. split.
      * split; [cbn; lra|]. exists [Exponent e false]. split; [exact Hup|]. right. eexists. split; [exact Hwb|reflexivity].
      * exists [Exponent e false]. eexists. exists (lg e l), (lg e h). split; [exact Hup|]. split; [exact Hwb|]. split; [reflexivity|]. repeat split.
        intros w. cbn [up]. unfold Rpower, lg. f_equal. assert (ln e <> 0) by (apply Rgt_not_eq, ln_pos_gt1; exact Hb). field. assumption.
    + assert (Hn : geometric lo hi = None) by (destruct lo, hi; try discriminate; reflexivity). rewrite Hn.
      assert (Hl : log_layers e init lo hi = [Exponent e false] \/ log_layers e init lo hi = [Exponent e false] ++ [Bound (mkb Bouncing (olg e lo) (olg e hi) u false)])
        by (unfold log_layers, u; destruct lo, hi; try discriminate; auto).
      split.
      * split; [cbn; lra|]. exists [Exponent e false]. split; [exact Hup|]. destruct Hl as [Hl|Hl]; [left; exact Hl|right]. eexists. split; [exact Hwb|exact Hl].
      * destruct Hl as [Hl|Hl].
        -- unfold bounds_of. cbn [mkd d_layers]. rewrite Hl. reflexivity.
        -- rewrite (bounds_one (mkd (lg e v) 1 [] (log_layers e init lo hi)) _ _ Hl). cbn. destruct lo, hi; try discriminate; reflexivity.
Qed.
Lemma made_some d m g : made d m (Some g) -> bounds_of d <> None.
Proof. intros H. apply made_ordinary in H. destruct H as (_ & ups & b & l & h & _ & _ & E & _ & El & Eh & _). rewrite (bounds_one _ _ _ E), El, Eh. discriminate. Qed.
Lemma regular_ordinary ok lf : regular_with ok lf -> ordinary_leaf lf.
Proof.
  intros (Hn & H). split; [exact Hn|]. destruct H as [H|H]; split.
  - apply Forall_forall. intros d Hd. destruct (H d Hd) as (m & f & _ & K). now apply made_ordinary in K.
  - left. intros d Hd. destruct (H d Hd) as (m & f & _ & K). now apply made_some in K.
  - apply Forall_forall. intros d Hd. destruct (H d Hd) as (m & _ & K). now apply made_ordinary in K.
  - right. intros d Hd. destruct (H d Hd) as (m & _ & K). apply made_ordinary in K. apply K.
Qed.

(** * Forward on any vector *)
Lemma coord_forward d m g x : made d m (Some g) -> m <> Constraint -> exists u, forw_coord false d x = Ok u /\ 0 <= u <= 1.
Proof.
  intros H Hm. pose proof (made_some _ _ _ H) as Hn. apply made_ordinary in H. destruct H as (Hd & ups & b & l & h & Hups & Hb & El & Ebm & Elo & Ehi & _).
  destruct (bounds_of d) as [(l', h')|] eqn:Eb; [|contradiction]. rewrite (bounds_one _ _ _ El), Elo, Ehi in Eb. injection Eb as <- <-.
  assert (Hlt : l < h) by (now apply Hb). unfold forw_coord. rewrite El, pick_ups by exact Hups. cbn [pick]. rewrite Elo, Ehi. cbn [negb orb].
  unfold set_std, get_value. cbn [with_raw d_layers d_raw]. rewrite El, get_ups by exact Hups. rewrite <- Ebm in Hm.
  destruct (bound_get b l h (d_sigma d * (x + d_raw d / d_sigma d)) Hb Elo Ehi Hm) as (v & r & E1 & _). rewrite E1. cbn [bind fst snd with_raw d_raw].
  destruct (bound_get b l h r Hb Elo Ehi Hm) as (v' & r' & E2 & Hv). rewrite E2. cbn [bind fst]. eexists. split; [reflexivity|].
  split; [apply Rmult_le_pos; [lra|]; left; apply Rinv_0_lt_compat; lra|]. apply (Rmult_le_reg_r (h - l)); [lra|]. unfold Rdiv. rewrite Rmult_assoc, Rinv_l by lra. lra.
Qed.
Lemma utrans_forward xs : exists us, utrans default_trans true xs = Ok us /\ length us = length xs /\ Forall (fun u => 0 <= u <= 1) us.
Proof.
  unfold utrans. assert (E : forallb (in_range true default_trans) xs = true) by (apply forallb_forall; reflexivity). rewrite E. clear E.
  induction xs as [|x xs (us & IH & Hl & Hu)]; [exists []; repeat split; constructor|]. cbn [length repeat each2 negb].
  destruct (arctan_inside 0 1 x) as (v & Ev & Hv); [lra|]. unfold default_trans at 1. rewrite Ev. cbn [finite bind]. cbn [negb] in IH. rewrite IH. cbn [bind].
  exists (v :: us). split; [reflexivity|]. split; [cbn; now rewrite Hl|]. constructor; [lra|exact Hu].
Qed.
Lemma each2_total {A B C} (f : A -> B -> result C) (P : C -> Prop) la lb : length la = length lb ->
  (forall a b, In a la -> exists c, f a b = Ok c /\ P c) -> exists lc, each2 f la lb = Ok lc /\ length lc = length lb /\ Forall P lc.
Proof.
  revert lb. induction la as [|a la IH]; intros [|b lb] Hl H; try discriminate; [exists []; repeat split; constructor|].
  destruct (H a b (or_introl eq_refl)) as (c & E & Hc). destruct (IH lb) as (lc & El & Ll & Hlc); [now injection Hl|intros; apply H; now right|].
  exists (c :: lc). cbn. rewrite E, El. split; [reflexivity|]. split; [now rewrite Ll|now constructor].
Qed.
Definition soft : leaf -> Prop := regular_with (fun m => m <> Constraint).
Lemma leaf_forward lf xs : soft lf -> writable (l_shape lf) = true -> length xs = length (l_coords lf) ->
  exists us, conv_leaf default_trans false true lf xs = Ok us /\ length us = length xs /\ Forall (fun u => 0 <= u <= 1) us.
Proof.
  intros Hr Hw Hl. unfold conv_leaf. pose proof (regular_ordinary _ lf Hr) as Ho. destruct Hr as (Hn & Hr). destruct (leaf_bounds lf Ho) as [(-> & Hb)|(-> & Hb)]; [|apply utrans_forward].
  destruct Hr as [Hr|Hr].
  2:{ destruct (l_coords lf) as [|d ds]; [contradiction|]. destruct (Hr d (or_introl eq_refl)) as (m & _ & K). apply made_ordinary in K. destruct K as (_ & K). now apply Hb in K; [|left]. }
  rewrite Hw. destruct (each2_total (forw_coord false) (fun u => 0 <= u <= 1) (l_coords lf) xs) as (us & E & Lu & Hu); [now symmetry| |].
  - intros d x Hd. destruct (Hr d Hd) as (m & f & Hm & K). apply (coord_forward d m f); [exact K|exact Hm].
  - exists us. rewrite E. auto.
Qed.
Lemma leaves_forward leaves xs : Forall soft leaves -> Forall (fun lf => writable (l_shape lf) = true) leaves -> length xs = length (numbers leaves) ->
  exists us, apply_unsafe (conv_leaf default_trans false true) leaves xs = (us, None) /\ length us = length xs /\ Forall (fun u => 0 <= u <= 1) us.
Proof.
  intros H. revert xs. induction H as [|lf leaves Hlf H IH]; intros xs Hw Hl.
  - destruct xs; [|discriminate]. exists []. repeat split; constructor.
  - inversion Hw as [|? ? W1 W2]; subst. cbn [numbers flat_map] in Hl. rewrite app_length in Hl. set (n := length (l_coords lf)) in *.
    destruct (leaf_forward lf (firstn n xs) Hlf W1) as (us & E & Lu & Hu); [rewrite firstn_length; lia|].
    destruct (IH (skipn n xs) W2) as (us' & E' & Lu' & Hu'); [rewrite skipn_length; unfold numbers; lia|].
    exists (us ++ us'). cbn [apply_unsafe]. fold n. rewrite E, E'. split; [reflexivity|]. split; [rewrite app_length, Lu, Lu', <- app_length, firstn_skipn; reflexivity|]. apply Forall_app. auto.
Qed.

(** * deterministic_sampling *)
Section Sampling.
Context {Raw V Draw : Type}.
Variable cast : list bool -> Draw -> Raw -> V.
Notation cell := (@cell Raw V).
Notation run_body := (@run_body Raw V Draw cast).
Lemma on_cell_nth i (f : cell -> cell) cs j : nth_error (on_cell i f cs) j = if (i =? j)%nat then option_map f (nth_error cs j) else nth_error cs j.
Proof.
  unfold on_cell. destruct (nth_error cs i) as [c|] eqn:E.
  - assert (Hi : (i < length cs)%nat) by (apply nth_error_Some; congruence).
    assert (Lf : length (firstn i cs) = i) by (rewrite firstn_length; lia).
    destruct (Nat.eqb_spec i j) as [<-|Hj].
    + rewrite nth_error_app2, Lf, Nat.sub_diag by lia. cbn. now rewrite E.
    + destruct (Nat.lt_ge_cases j i) as [Hlt|Hge].
      * rewrite nth_error_app1 by lia. clear E Lf Hj. revert i j Hi Hlt. induction cs as [|x cs IH]; intros [|i] [|j] Hi Hlt; cbn in *; try lia; auto. apply IH; lia.
      * rewrite nth_error_app2, Lf by lia. destruct (j - i)%nat as [|k] eqn:Ek; [lia|]. cbn [nth_error]. replace j with (S i + k)%nat by lia.
        clear. revert i. induction cs as [|x cs IH]; intros [|i]; try (destruct k; reflexivity). apply (IH i).
  - destruct (Nat.eqb_spec i j) as [<-|Hj]; [now rewrite E|reflexivity].
Qed.
Lemma on_cell_map {B} (g : cell -> B) i f cs : (forall c, g (f c) = g c) -> map g (on_cell i f cs) = map g cs.
Proof.
  intros H. unfold on_cell. destruct (nth_error cs i) as [c|] eqn:E; [|reflexivity]. rewrite map_app. cbn [map]. rewrite H. rewrite <- map_cons, <- map_app. f_equal.
  revert i E. induction cs as [|x cs IH]; intros [|i] E; try discriminate; cbn in *; [now injection E as ->|]. now rewrite (IH i E).
Qed.
Lemma read_flags draw (c : cell) : flags (snd (read cast draw c)) = flags c.
Proof. unfold read. now destruct (cache c). Qed.
Lemma read_raw draw (c : cell) : raw (snd (read cast draw c)) = raw c.
Proof. unfold read. now destruct (cache c). Qed.
Lemma body_flags body cs : map flags (fst (run_body body cs)) = map flags cs.
Proof.
  revert cs. induction body as [|[i r d|i d|e] body IH]; intros cs; cbn [Helpers.run_body]; try reflexivity; rewrite IH; apply on_cell_map; intros c; [unfold write_cell; now rewrite read_flags|apply read_flags].
Qed.
Lemma body_thrown body cs : snd (run_body body cs) = thrown body.
Proof. revert cs. induction body as [|[i r d|i d|e] body IH]; intros cs; cbn; auto. Qed.
Lemma on_cell_length i (f : cell -> cell) cs : length (on_cell i f cs) = length cs.
Proof. rewrite <- (map_length (fun _ => tt)), (on_cell_map (fun _ => tt)), map_length; reflexivity. Qed.
(** the value kept is the deterministic one *)
Definition settled (c : cell) : Prop := cache c = None \/ exists d, cache c = Some (cast (flags c) d (raw c)).
Lemma settled_read d c : settled c -> settled (snd (read cast d c)).
Proof. unfold read, settled. intros [H|(d' & H)]; rewrite H; cbn; eauto. Qed.
Lemma settled_write r d c : settled (write_cell cast r d c).
Proof. unfold write_cell. apply settled_read. now left. Qed.
Lemma body_settled body cs i c : nth_error cs i = Some c -> settled c \/ (exists r d, In (Set_raw i r d) (executed body)) ->
  exists c', nth_error (fst (run_body body cs)) i = Some c' /\ settled c'.
Proof.
  revert cs c. induction body as [|a body IH]; intros cs c Hc H; [destruct H as [H|(r & d & [])]; exists c; auto|].
  destruct a as [j r d|j d|e]; cbn [Helpers.run_body executed] in *.
  - set (f := write_cell cast r d). assert (K := on_cell_nth j f cs i). rewrite Hc in K. destruct (Nat.eqb_spec j i) as [->|Hj]; cbn in K.
    + apply (IH _ _ K). left. apply settled_write.
    + apply (IH _ _ K). destruct H as [H|(r' & d' & [H|H])]; [now left|injection H as -> _ _; contradiction|right; eauto].
  - set (f := fun c => snd (read cast d c)). assert (K := on_cell_nth j f cs i). rewrite Hc in K. destruct (Nat.eqb_spec j i) as [->|Hj]; cbn in K.
    + apply (IH _ _ K). destruct H as [H|(r' & d' & [H|H])]; [left; now apply settled_read|discriminate|right; eauto].
    + apply (IH _ _ K). destruct H as [H|(r' & d' & [H|H])]; [now left|discriminate|right; eauto].
  - destruct H as [H|(r & d & [])]. exists c. auto.
Qed.
End Sampling.

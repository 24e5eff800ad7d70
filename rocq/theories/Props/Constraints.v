(** C59: penalties of constraints. *)
From Coq Require Import Reals Bool Lra Lia List.
From Verif.Model Require Import Prelude Constraints.
Import ListNotations.
Open Scope R_scope.

(** a constraint is met: True, or a float which is not negative *)
Definition met (o : output) : Prop := match o with OBool b => b = true | OFloat x => 0 <= x | ONan => False | OOther => False end.
Definition supported (o : output) : Prop := o <> OOther /\ o <> ONan.
(** how far a constraint is from being met *)
Definition violation (o : output) : R :=
  match o with OBool b => if b then 0 else 1 | OFloat x => Rmax 0 (- x) | _ => 0 end.

Lemma float_penalty_spec o : supported o -> float_penalty o = Ok (violation o) /\ 0 <= violation o /\ (violation o = 0 <-> met o).
Proof.
  intros H. destruct o as [b|x| |]; cbn.
  - destruct b; repeat split; try lra; try discriminate.
  - assert (E : - Rmin 0 x = Rmax 0 (- x)). { unfold Rmin, Rmax. destruct (Rle_dec 0 x), (Rle_dec 0 (- x)); lra. }
    rewrite E. split; [reflexivity|]. unfold Rmax. destruct (Rle_dec 0 (- x)); split; try lra; split; intros; lra.
  - now destruct H.
  - now destruct H.
Qed.
Lemma sum_spec outputs : Forall supported outputs ->
  sum_penalties outputs = Ok (fold_right (fun o s => violation o + s) 0 outputs) /\
  0 <= fold_right (fun o s => violation o + s) 0 outputs /\
  (fold_right (fun o s => violation o + s) 0 outputs = 0 <-> Forall met outputs).
Proof.
  induction 1 as [|o l Ho Hl (IH1 & IH2 & IH3)]; cbn; [repeat split; try lra; constructor|].
  destruct (float_penalty_spec o Ho) as (E & H1 & H2). rewrite E, IH1. cbn. split; [reflexivity|]. split; [lra|].
  split.
  - intros Hs. constructor; [apply H2; lra|apply IH3; lra].
  - intros Hf. inversion Hf as [|? ? Ha Hb]; subst. apply H2 in Ha. apply IH3 in Hb. lra.
Qed.
Lemma satisfied_spec outputs : Forall supported outputs ->
  exists b, satisfied outputs = Ok b /\ (b = true <-> Forall met outputs).
Proof.
  induction 1 as [|o l Ho Hl (b & E & Hb)]; cbn; [exists true; repeat split; constructor|].
  destruct (float_penalty_spec o Ho) as (Eo & H1 & H2). rewrite Eo. cbn. destruct (Rle_dec (violation o) 0) as [L|L].
  - exists b. split; [exact E|]. rewrite Hb, Forall_cons_iff. assert (met o) by (apply H2; lra). tauto.
  - exists false. split; [reflexivity|]. split; [discriminate|]. intros Hf. inversion Hf as [|? ? Ha _]; subst. apply H2 in Ha. lra.
Qed.
Lemma Rpower_pos x y : 0 < Rpower x y.
Proof. apply exp_pos. Qed.

Section C59.
Variables (m : manager) (budget : option nat).
Hypothesis Hfactor : 0 < mg_factor m.

(** The penalty is a positive coefficient times the sum of the violations: it is not negative,
    and zero exactly when the constraints are met. *)
Theorem C59_penalty (num_ask : nat) (outputs : list output) : Forall supported outputs ->
  exists x, penalty m num_ask budget outputs = Ok x /\ 0 <= x /\ (x = 0 <-> Forall met outputs) /\
    (x = 0 <-> satisfied outputs = Ok true).
Proof.
  intros Hs. destruct (sum_spec outputs Hs) as (E & H1 & H2). destruct (satisfied_spec outputs Hs) as (b & Eb & Hb).
  unfold penalty. rewrite E. cbn [bind]. eexists. split; [reflexivity|].
  assert (Hc : 0 < coefficient m num_ask budget). { unfold coefficient. apply Rmult_lt_0_compat; [exact Hfactor|apply Rpower_pos]. }
  assert (Hz : coefficient m num_ask budget * fold_right (fun o s => violation o + s) 0 outputs = 0 <-> Forall met outputs).
  { rewrite <- H2. split; intros Hx; [|rewrite Hx; lra]. apply Rmult_integral in Hx as [Hx|Hx]; [lra|exact Hx]. }
  split; [apply Rmult_le_pos; lra|]. split; [exact Hz|]. rewrite Hz, <- Hb, Eb. split; congruence.
Qed.
(** It does not decrease with the number of asks. *)
Theorem C59_monotone (n1 n2 : nat) (outputs : list output) (x1 x2 : R) : 1 <= mg_exponent m ->
  (0 < match budget with None => 1 | Some b => b end)%nat ->
  Forall supported outputs -> (n1 <= n2)%nat ->
  penalty m n1 budget outputs = Ok x1 -> penalty m n2 budget outputs = Ok x2 -> x1 <= x2.
Proof.
  intros He Hb Hs Hn E1 E2. destruct (sum_spec outputs Hs) as (E & H1 & _). unfold penalty in E1, E2. rewrite E in E1, E2.
  cbn [bind] in E1, E2. injection E1 as <-. injection E2 as <-. apply Rmult_le_compat_r; [exact H1|].
  unfold coefficient. apply Rmult_le_compat_l; [lra|].
  set (bu := match budget with None => 1%nat | Some b => b end) in *.
  assert (Hq : 0 < sqrt (INR bu)) by (apply sqrt_lt_R0; now apply lt_0_INR).
  unfold Rpower. destruct (Req_dec (mg_exponent m) 1) as [E0|E0].
  - rewrite E0, ln_1. rewrite !Rmult_0_r. lra.
  - assert (Hl : 0 < ln (mg_exponent m)) by (rewrite <- ln_1; apply ln_increasing; lra).
    destruct (Req_dec (INR n1 / sqrt (INR bu) * ln (mg_exponent m)) (INR n2 / sqrt (INR bu) * ln (mg_exponent m))) as [Ee|Ee]; [rewrite Ee; lra|].
    left. apply exp_increasing. apply le_INR in Hn.
    assert (INR n1 / sqrt (INR bu) * ln (mg_exponent m) <= INR n2 / sqrt (INR bu) * ln (mg_exponent m)); [|lra].
    apply Rmult_le_compat_r; [lra|]. unfold Rdiv. apply Rmult_le_compat_r; [|exact Hn]. left. now apply Rinv_0_lt_compat.
Qed.
End C59.
(** An output of another type raises. *)
Theorem C59_unsupported (m : manager) num_ask budget before after : Forall supported before ->
  penalty m num_ask budget (before ++ OOther :: after) = Err TypeError.
Proof.
  intros Hs. unfold penalty. enough (E : sum_penalties (before ++ OOther :: after) = Err TypeError) by now rewrite E.
  induction Hs as [|o l Ho Hl IH]; [reflexivity|]. cbn. destruct (float_penalty_spec o Ho) as (E & _). rewrite E. cbn. now rewrite IH.
Qed.

(** The manager: an exponent smaller than 1 is refused by [update]... *)
Theorem C59_update (m : manager) trials factor exponent :
  snd (mg_update m trials factor exponent) = Err ValueError <->
  match exponent with Some e => e < 1 | None => mg_exponent m < 1 end.
Proof.
  unfold mg_update. cbn. destruct exponent as [e|]; cbn; (destruct (Rlt_dec _ 1); split; intros; try discriminate; try lra; reflexivity).
Qed.
(** ... but kept: the penalties then decrease. *)
Theorem C59_refused_kept_refuted : exists m exponent,
  m = fst (mg_update new_manager None None (Some exponent)) /\
  snd (mg_update new_manager None None (Some exponent)) = Err ValueError /\
  exists x1 x2, penalty m 0 None [OBool false] = Ok x1 /\ penalty m 1 None [OBool false] = Ok x2 /\ x2 < x1.
Proof.
  exists (fst (mg_update new_manager None None (Some (1/2)))), (1/2). split; [reflexivity|]. split.
  { apply C59_update. lra. }
  do 2 eexists. split; [reflexivity|]. split; [reflexivity|]. cbn. unfold coefficient. cbn. rewrite sqrt_1.
  unfold Rdiv. rewrite Rinv_1, !Rmult_1_r, Rplus_0_r, !Rmult_1_r, !Rmult_1_l.
  rewrite Rpower_O by lra. rewrite Rpower_1 by lra. lra.
Qed.

(** The penalty ignores the constraints of the sub-parameters: it may be zero on a parameter
    which does not satisfy its constraints. *)
Theorem C59_nested_refuted : exists c, all_satisfied c = Ok false /\
  forall m num_ask budget, penalty m num_ask budget (outputs_of c) = Ok 0.
Proof.
  exists (Checked [OBool true] [Checked [OBool false] []]). split.
  - cbn. destruct (Rle_dec 1 0); [lra|]. reflexivity.
  - intros. unfold penalty. cbn. f_equal. ring.
Qed.
(** A constraint which returns nan is not met, but counts as satisfied and is not penalised. *)
Theorem C59_nan_refuted : ~ met ONan /\ satisfied [ONan] = Ok true /\ forall m num_ask budget, penalty m num_ask budget [ONan] = Ok 0.
Proof.
  split; [easy|]. split.
  - cbn. destruct (Rle_dec 0 0); [reflexivity|lra].
  - intros. unfold penalty. cbn. f_equal. ring.
Qed.
Example C59_ex : Forall supported [OBool true; OFloat (-2); OFloat 3] /\ sum_penalties [OBool true; OFloat (-2); OFloat 3] = Ok (0 + (2 + (0 + 0))).
Proof.
  split; [repeat constructor; easy|].
  assert (Hs : Forall supported [OBool true; OFloat (-2); OFloat 3]) by (repeat constructor; easy).
  destruct (sum_spec _ Hs) as (E & _). rewrite E. cbn. f_equal.
  unfold Rmax. destruct (Rle_dec 0 (- -2)), (Rle_dec 0 (- (3))); lra.
Qed.

Print Assumptions C59_penalty.
Print Assumptions C59_monotone.
Print Assumptions C59_unsupported.
Print Assumptions C59_update.
Print Assumptions C59_refused_kept_refuted.
Print Assumptions C59_nested_refuted.
Print Assumptions C59_nan_refuted.

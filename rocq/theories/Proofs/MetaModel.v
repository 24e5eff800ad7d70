From Coq Require Import List Arith Lia QArith Lqa Bool Permutation Sorted.
From Verif.Model Require Import Prelude MultiValue Nsga2 MetaModel.
From Verif.Spec Require Import Spsa Cma MetaModel.
From Verif.Proofs Require Import MultiValue Cma.
Import ListNotations.
Open Scope nat_scope.

(** ** Arrays *)
Lemma vadd_length a b : length (vadd a b) = Nat.min (length a) (length b).
Proof. unfold vadd. rewrite map_length. apply combine_length. Qed.
Lemma vsub_length a b : length (vsub a b) = Nat.min (length a) (length b).
Proof. unfold vsub. rewrite map_length. apply combine_length. Qed.
Lemma vscale_length c a : length (vscale c a) = length a.
Proof. apply map_length. Qed.
Lemma vadd_nth a b : forall i x y, nth_error a i = Some x -> nth_error b i = Some y -> nth_error (vadd a b) i = Some (x + y)%Q.
Proof.
  unfold vadd. revert b. induction a as [|u a IH]; intros [|v b] [|i] x y Hx Hy; try discriminate; cbn in *.
  - injection Hx as ->. injection Hy as ->. reflexivity.
  - auto.
Qed.
Lemma vsub_nth a b : forall i x y, nth_error a i = Some x -> nth_error b i = Some y -> nth_error (vsub a b) i = Some (x - y)%Q.
Proof.
  unfold vsub. revert b. induction a as [|u a IH]; intros [|v b] [|i] x y Hx Hy; try discriminate; cbn in *.
  - injection Hx as ->. injection Hy as ->. reflexivity.
  - auto.
Qed.
Lemma sumsq_vsub a : forall b, (sumsq (vsub a b) == dist2 a b)%Q.
Proof.
  induction a as [|x a IH]; intros [|y b]; try reflexivity. cbn [dist2]. rewrite <- IH. reflexivity.
Qed.
Lemma sumsq_nonneg a : (0 <= sumsq a)%Q.
Proof.
  induction a as [|x a IH]; [apply Qle_refl|]. cbn [sumsq fold_right]. fold (sumsq a). assert (0 <= x * x)%Q; [|lra]. destruct (Qlt_le_dec x 0).
  - setoid_replace (x * x)%Q with ((- x) * (- x))%Q by ring. apply Qmult_le_0_compat; lra.
  - apply Qmult_le_0_compat; lra.
Qed.
(** moving from [m] by [c v] *)
Lemma dist2_move c : forall m v, length v = length m -> (dist2 (vadd m (vscale c v)) m == c * c * sumsq v)%Q.
Proof.
  induction m as [|x m IH]; intros [|y v] L; try discriminate L; [cbn; ring|].
  cbn [vscale map]. change (vadd (x :: m) (c * y :: map (fun x => c * x) v))%Q with ((x + c * y)%Q :: vadd m (vscale c v)).
  cbn [dist2]. rewrite IH by (cbn in L; lia). cbn [sumsq fold_right]. fold (sumsq v). ring.
Qed.

(** ** The mean *)
Lemma fold_vadd d pts : forall acc, length acc = d -> (forall p, In p pts -> length p = d) ->
  length (fold_left vadd pts acc) = d /\
  forall i a, nth_error acc i = Some a -> exists s, nth_error (fold_left vadd pts acc) i = Some s /\
    (s == a + fold_right Qplus 0 (map (fun p => nth i p 0) pts))%Q.
Proof.
  induction pts as [|p pts IH]; intros acc La P.
  - cbn. split; [exact La|]. intros i a E. exists a. split; [exact E|ring].
  - cbn [fold_left]. destruct (IH (vadd acc p)) as (L & H).
    + rewrite vadd_length, (P p (or_introl eq_refl)), La. apply Nat.min_id.
    + intros q Hq. apply P. right. exact Hq.
    + split; [exact L|]. intros i a E.
      destruct (nth_error p i) as [y|] eqn:Ey.
      * destruct (H i (a + y)%Q (vadd_nth _ _ _ _ _ E Ey)) as (s & Es & Q). exists s. split; [exact Es|]. rewrite Q.
        cbn [map fold_right]. rewrite (nth_error_nth p i 0%Q Ey). ring.
      * exfalso. apply nth_error_None in Ey. assert (nth_error acc i <> None) as X by congruence. apply nth_error_Some in X.
        pose proof (P p (or_introl eq_refl)). lia.
Qed.
Lemma middle_mean d k best : length best = k -> 0 < k -> (forall b, In b best -> length (i_x b) = d) ->
  mean_of d (map i_x best) (middle_of k best).
Proof.
  intros L K P. destruct best as [|b best]; [cbn in L; lia|]. unfold middle_of. set (pts := map i_x (b :: best)).
  assert (Pp : forall p, In p pts -> length p = d) by (intros p Hp; apply in_map_iff in Hp as (c & <- & Hc); auto).
  destruct (fold_vadd d pts (repeat 0%Q (length (i_x b)))) as (La & H).
  { rewrite repeat_length. apply P. left. reflexivity. } { exact Pp. }
  split; [rewrite vscale_length; exact La|]. intros i y E. unfold vscale in E.
  rewrite nth_error_map in E. destruct (nth_error (fold_left vadd pts (repeat 0%Q (length (i_x b)))) i) as [s|] eqn:Es; cbn in E; [|discriminate E].
  injection E as <-. assert (Ei : i < d) by (rewrite <- La; apply nth_error_Some; congruence).
  destruct (H i 0%Q) as (s' & Es' & Q).
  { apply nth_error_repeat. rewrite (P b (or_introl eq_refl)). exact Ei. }
  rewrite Es in Es'. injection Es' as <-. rewrite Q. assert (Lp : length pts = k) by (unfold pts; rewrite map_length; exact L). rewrite Lp.
  fold (qnat k). pose proof (qnat_pos k K). field. lra.
Qed.

(** ** First and last of a sorted list *)
Lemma extremes_sorted (l : list item) b0 : StronglySorted (fun a b => (i_average a <= i_average b)%Q) (b0 :: l) ->
  extremes (b0 :: l) b0 (last (b0 :: l) b0).
Proof.
  intros S. split; [left; reflexivity|]. split.
  - destruct (exists_last (l := b0 :: l)) as (l' & a & E); [discriminate|]. rewrite E, last_last. apply in_or_app. right. left. reflexivity.
  - intros b Hb. split.
    + inversion S as [|? ? S' F]; subst. destruct Hb as [<-|Hb]; [apply Qle_refl|]. rewrite Forall_forall in F. auto.
    + destruct (exists_last (l := b0 :: l)) as (l' & a & E); [discriminate|]. rewrite E in *. rewrite last_last.
      apply in_app_iff in Hb as [Hb|[<-|[]]]; [|apply Qle_refl]. clear - S Hb. induction l' as [|c l' IH]; [destruct Hb|].
      inversion S as [|? ? S' F]; subst. destruct Hb as [->|Hb]; [|auto]. rewrite Forall_forall in F. apply F. apply in_or_app. right. left. reflexivity.
Qed.
Lemma firstn_sorted {A} (R : A -> A -> Prop) l k : StronglySorted R l -> StronglySorted R (firstn k l).
Proof.
  intros S. revert k. induction S as [|x l S IH F]; intros [|k]; cbn; try constructor; auto.
  rewrite Forall_forall in *. intros y Hy. apply F. rewrite <- (firstn_skipn k l). apply in_or_app. left. exact Hy.
Qed.

(** ** Increasing outputs *)
Lemma increasing_sorted l : increasing l = true -> StronglySorted Qlt l.
Proof.
  induction l as [|x l IH]; [constructor|]. cbn [increasing]. destruct l as [|y l]; [repeat constructor|].
  intros H. apply andb_true_iff in H as (H1 & H2). apply qlt_iff in H1. specialize (IH H2). constructor; [exact IH|].
  inversion IH as [|? ? S F]; subst. constructor; [exact H1|]. eapply Forall_impl; [|exact F]. cbn. intros z Hz. lra.
Qed.
Lemma sorted_before {A} (R : A -> A -> Prop) l x y : StronglySorted R l -> In x l -> In y l -> x = y \/ R x y \/ R y x.
Proof.
  induction 1 as [|a l S IH F]; intros Hx Hy; [destruct Hx|]. rewrite Forall_forall in F.
  destruct Hx as [<-|Hx], Hy as [<-|Hy]; auto.
Qed.
(** the order of the outputs is that of the values *)
Lemma outputs_ranked argsort y outs : sorting argsort -> length outs = length y ->
  increasing (map (fun i => nth i outs 0%Q) (argsort y)) = true ->
  forall i j, i < length y -> j < length y -> (nth i y 0 < nth j y 0)%Q -> (nth i outs 0 < nth j outs 0)%Q.
Proof.
  intros Hs L H i j Hi Hj Lt. destruct (Hs y) as (P & S). apply increasing_sorted in H.
  assert (Ii : In i (argsort y)) by (eapply Permutation_in; [symmetry; exact P|apply in_seq; lia]).
  assert (Ij : In j (argsort y)) by (eapply Permutation_in; [symmetry; exact P|apply in_seq; lia]).
  clear P. induction (argsort y) as [|a l IH]; [destruct Ii|]. cbn [map] in H. inversion H as [|? ? H1 F1]; subst. inversion S as [|? ? S1 F2]; subst.
  rewrite Forall_forall in F1, F2. destruct Ii as [->|Ii], Ij as [->|Ij].
  - lra.
  - apply F1. apply in_map_iff. exists j. auto.
  - specialize (F2 i Ii). cbn in F2. lra.
  - auto.
Qed.

Section Learn.
  Variable root : Q -> Q.
  Variable fit : list (list Q) -> list Q -> (list Q -> Q).
  Variable argsort : list Q -> list nat.
  Variable minimise : (list Q -> Q) -> result (list Q).
  Notation learn := (learn_on_k_best root fit argsort minimise).

  Lemma learn_inv archive k x : learn archive k = Proposed x -> exists best y minimum predict,
    best = firstn k (stable_sort (fun a b => qle (i_average a) (i_average b)) archive) /\ length best = k /\
    (1 / inject_Z (10 ^ 20) < lmax (map i_pessimistic best) - lmin (map i_pessimistic best))%Q /\
    y = map (fun v => (v - lmin (map i_pessimistic best)) / (lmax (map i_pessimistic best) - lmin (map i_pessimistic best)))%Q (map i_pessimistic best) /\
    predict = fit (map (fun b => vscale (1 / normalization_of root best) (vsub (i_x b) (middle_of k best))) best) y /\
    increasing (map (fun i => nth i (map predict (map (fun b => vscale (1 / normalization_of root best) (vsub (i_x b) (middle_of k best))) best)) 0%Q) (argsort y)) = true /\
    minimise predict = Ok minimum /\ (predict minimum <= nth 0 y 0)%Q /\ (sumsq minimum <= 1)%Q /\
    x = vadd (middle_of k best) (vscale (normalization_of root best) minimum).
  Proof.
    unfold learn_on_k_best. set (best := firstn k _). destruct (length best =? k) eqn:L; cbn [negb]; [|discriminate]. apply Nat.eqb_eq in L.
    destruct (qlt (1 / inject_Z (10 ^ 20)) (lmax (map i_pessimistic best) - lmin (map i_pessimistic best))) eqn:D; cbn [negb]; [|discriminate].
    apply qlt_iff in D. set (y := map (fun v => ((v - _) / _)%Q) _). set (predict := fit _ y).
    destruct (increasing _) eqn:I; cbn [negb]; [|discriminate].
    destruct (minimise predict) as [m|e] eqn:M; [|destruct e; discriminate].
    destruct (qlt (nth 0 y 0%Q) (predict m)) eqn:G; [discriminate|]. destruct (qlt 1 (sumsq m)) eqn:B; [discriminate|].
    intros H. injection H as <-. apply qlt_false in G. apply qlt_false in B.
    exists best, y, m, predict. repeat split; auto.
  Qed.
End Learn.

(** ** Schedule *)
Lemma frequency_ge ratio d w size : 13 <= frequency ratio d w size /\ w <= frequency ratio d w size /\ d <= frequency ratio d w size /\ ratio size <= frequency ratio d w size.
Proof. unfold frequency. lia. Qed.
Lemma multiples f a b : 0 < f -> a mod f = 0 -> b mod f = 0 -> a < b -> a + f <= b.
Proof.
  intros F A B L. apply Nat.mod_divide in A as (p & ->); [|lia]. apply Nat.mod_divide in B as (q & ->); [|lia].
  assert (p < q) by nia. nia.
Qed.

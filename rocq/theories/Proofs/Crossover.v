(** Lemmas on the crossovers. *)
From Coq Require Import Arith ZArith Bool Lia List.
From Verif.Model Require Import Prelude Crossover.
From Verif.Spec Require Import Crossover.
Import ListNotations.
Open Scope nat_scope.

Section S.
Context {A : Type}.
Implicit Types x y : list A.

Lemma nth_error_firstn n x i : nth_error (firstn n x) i = if i <? n then nth_error x i else None.
Proof.
  revert x i. induction n as [|n IH]; intros x i; cbn [firstn].
  - destruct (Nat.ltb_spec i 0); [lia|]. now destruct i.
  - destruct x as [|a x]; [destruct (i <? S n); now destruct i|]. destruct i as [|i]; [reflexivity|]. cbn. apply IH.
Qed.
Lemma nth_error_skipn n x i : nth_error (skipn n x) i = nth_error x (n + i).
Proof.
  revert x. induction n as [|n IH]; intros x; [reflexivity|]. destruct x as [|a x]; cbn; [now destruct i|]. apply IH.
Qed.
Lemma slice_nth lo hi x i : nth_error (slice lo hi x) i = if i <? hi - lo then nth_error x (lo + i) else None.
Proof. unfold slice. rewrite nth_error_firstn. destruct (i <? hi - lo); [|reflexivity]. apply nth_error_skipn. Qed.
Lemma slice_length lo hi x : lo <= hi <= length x -> length (slice lo hi x) = hi - lo.
Proof. intros H. unfold slice. rewrite firstn_length, skipn_length. lia. Qed.
Lemma put_slice_length lo hi y x : lo <= hi <= length x -> length y = hi - lo -> length (put_slice lo hi y x) = length x.
Proof. intros H Hy. unfold put_slice. rewrite !app_length, firstn_length, skipn_length. lia. Qed.
Lemma put_slice_nth lo hi y x i : lo <= hi <= length x -> length y = hi - lo ->
  nth_error (put_slice lo hi y x) i = if (lo <=? i) && (i <? hi) then nth_error y (i - lo) else nth_error x i.
Proof.
  intros H Hy. unfold put_slice.
  destruct (Nat.leb_spec lo i) as [H1|H1]; cbn [andb].
  - rewrite nth_error_app2 by (rewrite firstn_length; lia). rewrite firstn_length, (Nat.min_l lo) by lia.
    destruct (Nat.ltb_spec i hi) as [H2|H2].
    + now rewrite nth_error_app1 by lia.
    + rewrite nth_error_app2 by lia. rewrite nth_error_skipn. f_equal. lia.
  - rewrite nth_error_app1 by (rewrite firstn_length; lia). rewrite nth_error_firstn.
    destruct (Nat.ltb_spec i lo); [reflexivity|lia].
Qed.
(** one window taken at the same place *)
Lemma put_slice_takes lo hi x y : length y = length x -> lo <= hi <= length x ->
  takes (fun i => lo <= i < hi) x y (put_slice lo hi (slice lo hi y) x).
Proof.
  intros El H. split; [apply put_slice_length; [exact H|apply slice_length; lia]|].
  intros i Hi. rewrite put_slice_nth by (try assumption; apply slice_length; lia). rewrite slice_nth.
  destruct (Nat.leb_spec lo i), (Nat.ltb_spec i hi); cbn [andb]; split; intros HP; try lia; try reflexivity.
  destruct (Nat.ltb_spec (i - lo) (hi - lo)); [|lia]. f_equal. lia.
Qed.
Lemma takes_trans (P Q : nat -> Prop) x y z w : (forall i, Q i \/ ~ Q i) ->
  takes P x y z -> takes Q z y w -> takes (fun i => P i \/ Q i) x y w.
Proof.
  intros HQ [L1 H1] [L2 H2]. split; [congruence|]. intros i Hi. destruct (H1 i Hi) as [A1 A2].
  destruct (H2 i) as [B1 B2]; [congruence|]. split.
  - intros HPQ. destruct (HQ i) as [HH|HH]; [auto|]. rewrite B2 by assumption. apply A1. tauto.
  - intros HN. rewrite B2, A2 by tauto. reflexivity.
Qed.
Lemma takes_ext (P Q : nat -> Prop) x y out : (forall i, i < length x -> P i <-> Q i) -> takes P x y out -> takes Q x y out.
Proof.
  intros H [L1 H1]. split; [exact L1|]. intros i Hi. destruct (H1 i Hi) as [A1 A2]. specialize (H i Hi).
  split; intros; [apply A1|apply A2]; tauto.
Qed.
Lemma takes_coordinatewise (P : nat -> Prop) x y out : (forall i, P i \/ ~ P i) -> takes P x y out -> coordinatewise x y out.
Proof.
  intros HP [L H]. split; [exact L|]. intros i Hi. destruct (H i Hi) as [H1 H2]. destruct (HP i); [right|left]; auto.
Qed.
Lemma nth_error_combine {B C} (l : list B) (l' : list C) i :
  nth_error (combine l l') i = match nth_error l i, nth_error l' i with Some a, Some b => Some (a, b) | _, _ => None end.
Proof.
  revert l' i. induction l as [|a l IH]; intros l' i; [now destruct i|].
  destruct l' as [|b l']; [cbn; destruct i; cbn; [reflexivity|now destruct (nth_error l i)]|].
  destruct i; [reflexivity|]. cbn. apply IH.
Qed.
Lemma put_mask_takes mask x y : length y = length x -> length mask = length x ->
  takes (fun i => nth_error mask i = Some true) x y (put_mask mask x y).
Proof.
  intros Hy Hm. unfold put_mask. split.
  - rewrite map_length, !combine_length. lia.
  - intros i Hi. rewrite nth_error_map, !nth_error_combine.
    destruct (nth_error mask i) as [b|] eqn:Em. 2:{ apply nth_error_None in Em. lia. }
    destruct (nth_error x i) as [a|] eqn:Ex. 2:{ apply nth_error_None in Ex. lia. }
    destruct (nth_error y i) as [c|] eqn:Ey. 2:{ apply nth_error_None in Ey. lia. }
    destruct b; cbn; split; intros H; congruence.
Qed.
Lemma nth_error_seq n i : i < n -> nth_error (seq 0 n) i = Some i.
Proof.
  intros H. rewrite (nth_error_nth' _ 0) by (rewrite seq_length; exact H). now rewrite seq_nth.
Qed.

Lemma variablewise_takes R (u : nat -> bool) x y : length y = length x ->
  takes (fun i : nat => i <> R /\ u i = true) x y (variablewise R u x y).
Proof.
  intros El. unfold variablewise. eapply takes_ext; [|apply put_mask_takes; [exact El|now rewrite map_length, seq_length]].
  intros i Hi. cbv beta. rewrite nth_error_map, nth_error_seq by exact Hi. cbn [option_map].
  destruct (Nat.eqb_spec i R), (u i); cbn; split; intros H; try congruence; try tauto; destruct H; congruence.
Qed.
Lemma onepoint_takes R (flip : bool) x y : length y = length x -> R < length x ->
  takes (fun i => if flip then R <= i else i < R) x y (onepoint R flip x y).
Proof.
  intros El H. unfold onepoint. destruct flip; (eapply takes_ext; [|apply put_slice_takes; [exact El|lia]]); intros i Hi; cbn; lia.
Qed.
(** the bounds drawn for two points *)
Lemma two_bounds_ok n c1 c2 which r : 2 <= n -> c1 <= n -> c2 <= n -> c1 <> c2 -> 1 <= r < n ->
  exists b0 b1, two_bounds n c1 c2 which r = Ok (b0, b1) /\ b0 < b1 <= n /\ ~ (b0 = 0 /\ b1 = n).
Proof.
  intros Hn H1 H2 Hne Hr. unfold two_bounds.
  destruct (Nat.eqb_spec (max c1 c2) n), (Nat.eqb_spec (min c1 c2) 0); cbn [andb].
  - destruct (Nat.leb_spec n 1); [lia|]. destruct which; eexists _, _; (split; [reflexivity|lia]).
  - eexists _, _; (split; [reflexivity|lia]).
  - eexists _, _; (split; [reflexivity|lia]).
  - eexists _, _; (split; [reflexivity|lia]).
Qed.
Lemma indices_length shape : length (indices shape) = fold_right Nat.mul 1 shape.
Proof.
  induction shape as [|n shape IH]; [reflexivity|]. cbn [indices fold_right].
  set (m := fold_right Nat.mul 1 shape) in *.
  generalize 0 as k. induction n as [|n IHn]; intros k; [reflexivity|]. cbn [seq flat_map Nat.mul].
  rewrite app_length, map_length, IH, IHn. reflexivity.
Qed.
Lemma dist2_self ix : dist2 ix ix = 0%Z.
Proof. induction ix as [|a ix IH]; cbn; [reflexivity|]. rewrite IH. lia. Qed.
Lemma dist2_nonneg ix iy : (0 <= dist2 ix iy)%Z.
Proof. revert iy. induction ix as [|a ix IH]; intros [|b iy]; cbn; try lia. specialize (IH iy). pose proof (Z.square_nonneg (Z.of_nat a - Z.of_nat b)). lia. Qed.
End S.

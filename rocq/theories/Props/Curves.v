(** C126: the curves, rankings and titles of experiment plots. *)
From Coq Require Import Bool Arith List String Ascii ZArith QArith Lia Lqa Sorting.Permutation Sorting.Sorted.
From Verif Require Import Model.Prelude Model.MultiValue Model.Planning Model.Pruning Model.Curves Spec.Curves
  Proofs.MultiValue Proofs.Pruning Proofs.Curves.
Import ListNotations.
Open Scope nat_scope.
Open Scope list_scope.

(** C126: every optimizer has one curve, whose budgets are exactly those of its rows, in strictly increasing order *)
Theorem C126_budgets no_limit names rows :
  map fst (make_data no_limit names rows) = names /\
  forall o c, In (o, c) (make_data no_limit names rows) ->
    StronglySorted Z.lt (map p_budget c) /\
    forall b, In b (map p_budget c) <-> exists r, In r rows /\ r_opt r = o /\ r_budget r = b.
Proof.
  split; [unfold make_data; rewrite map_map; cbn; apply map_id|]. intros o c I.
  unfold make_data in I. apply in_map_iff in I as (o' & [= -> <-] & _). unfold curve. rewrite map_map. cbn. rewrite map_id.
  split; [apply budgets_sorted|apply budgets_in].
Qed.
Print Assumptions C126_budgets.

(** C126: a point is the median (the mean without limit) of the losses of its group which are not NaN, with their number and
    their unbiased variance; the loss is NaN exactly when all are, the deviation when there are fewer than two *)
Theorem C126_points no_limit names rows o c p : In (o, c) (make_data no_limit names rows) -> In p c ->
  exists l, group_losses o (p_budget p) rows l /\ p_nums p = List.length l /\
    (p_loss p = None <-> l = []) /\
    (forall m, p_loss p = Some m -> if no_limit then is_mean l m else is_median l m) /\
    (p_var p = None <-> List.length l <= 1) /\ (forall v, p_var p = Some v -> is_variance l v).
Proof.
  intros I Ip. unfold make_data in I. apply in_map_iff in I as (o' & [= -> <-] & _). unfold curve in Ip.
  apply in_map_iff in Ip as (b & <- & _). cbn [p_budget p_loss p_var p_nums]. set (l := losses o b rows).
  exists l. split; [apply losses_group|]. split; [easy|].
  assert (L : forall v, variance l = Some v -> 1 < List.length l).
  { intros v E. unfold variance in E. destruct (mean l); [|easy]. destruct (Nat.leb_spec (List.length l) 1); [easy|lia]. }
  split; [|split]; [| |split].
  - destruct no_limit.
    + destruct (mean_spec l) as [[-> E]|(m & E & _)]; rewrite E; [easy|]. split; [easy|]. intros ->. discriminate.
    + destruct (median_spec l) as [[-> E]|(m & E & _)]; rewrite E; [easy|]. split; [easy|]. intros ->. discriminate.
  - intros m E. destruct no_limit.
    + destruct (mean_spec l) as [[_ E2]|(m' & E2 & H)]; congruence.
    + destruct (median_spec l) as [[_ E2]|(m' & E2 & H)]; congruence.
  - destruct (variance_spec l) as [[H E]|(v & E & _)]; rewrite E; [easy|]. specialize (L v E). split; [easy|lia].
  - intros v E. destruct (variance_spec l) as [[_ E2]|(v' & E2 & H)]; congruence.
Qed.
Print Assumptions C126_points.

(** C126: the text file has one line per budget of the curves; it gives the smallest loss at this budget and the first optimizer
    which reached it, or "none" when every loss is NaN *)
Theorem C126_best vals : NoDup (map fst (save_txt vals)) /\
  (forall b, In b (map fst (save_txt vals)) <-> exists o x, reached vals o b x) /\
  forall b v, In (b, v) (save_txt vals) ->
    (v = (None, "none"%string) /\ forall o x, reached vals o b x -> x = None) \/
    (exists x o, v = (Some x, o) /\ reached vals o b (Some x) /\ forall o' y, reached vals o' b (Some y) -> (x <= y)%Q).
Proof.
  rewrite save_flat. destruct (keys_run (flat vals)) as [N K]. split; [easy|]. split.
  - intros b. rewrite K. split.
    + intros (o & p & I & E). apply flat_in in I as (c & I & Ip). exists o, (p_loss p), c, p. auto.
    + intros (o & x & c & p & I & Ip & E & _). exists o, p. split; [apply flat_in; now exists c|easy].
  - intros b v I. pose proof (good_run (flat vals) b) as G. rewrite (bget_in b v _ N I) in G. destruct v as [vx vo].
    destruct G as [(A & B & C)|(x & o & p & bef & aft & E & F & Eb & El & M & _)].
    + left. cbn in A, B. subst. split; [easy|]. intros o x (c & p & Ic & Ip & Eb & <-). apply (C o p); [|easy].
      apply flat_in. now exists c.
    + right. exists x, o. split; [easy|]. split.
      * assert (H : In (o, p) (flat vals)) by (rewrite F; apply in_or_app; right; now left).
        apply flat_in in H as (c & Ic & Ip). now exists c, p.
      * intros o' y (c & p' & Ic & Ip & Eb' & El'). apply (M o' p'); [|easy|easy]. apply flat_in. now exists c.
Qed.
Print Assumptions C126_best.

(** C126: an earlier optimizer of the dictionary was strictly worse at this budget *)
Theorem C126_first before o c after b x :
  NoDup (map fst (before ++ (o, c) :: after)) ->
  In (b, (Some x, o)) (save_txt (before ++ (o, c) :: after)) ->
  forall o' y, reached before o' b (Some y) -> (x < y)%Q.
Proof.
  intros U I o' y (c' & p' & Ic & Ip & Eb & El). rewrite save_flat in I.
  set (vals := before ++ (o, c) :: after) in *.
  destruct (keys_run (flat vals)) as [N _]. pose proof (good_run (flat vals) b) as G. rewrite (bget_in b _ _ N I) in G.
  destruct G as [(A & _)|(x' & o2 & p & bef & aft & E & F & Eb2 & El2 & M & L)]; [discriminate|]. injection E as <- <-.
  (* the winning point is in the curve of o, after the points of the earlier optimizers *)
  assert (Fo : flat vals = flat before ++ (map (fun p => (o, p)) c ++ flat after)).
  { unfold flat, vals. rewrite flat_map_app. reflexivity. }
  assert (No : ~ In o (map fst before)).
  { intros H. unfold vals in U. rewrite map_app in U. cbn [map fst] in U. apply NoDup_remove_2 in U. apply U. apply in_or_app. now left. }
  assert (Hin : In (o', p') (flat before)) by (apply flat_in; now exists c').
  rewrite Fo in F.
  assert (T : exists tail, bef = flat before ++ tail).
  { clear - F No. assert (G : forall a, (forall q, ~ In (o, q) a) -> forall bef r, a ++ r = bef ++ (o, p) :: aft -> exists tail, bef = a ++ tail).
    { induction a as [|z a IH]; intros H bf r E; [now exists bf|]. destruct bf as [|z' bf]; cbn in E; injection E as -> E.
      - exfalso. apply (H p). now left.
      - destruct (IH (fun q Hq => H q (or_intror Hq)) bf r E) as [tail ->]. now exists tail. }
    apply (G (flat before)) with (r := map (fun p => (o, p)) c ++ flat after); [|easy].
    intros q H. apply flat_in in H as (cc & H & _). apply No. apply in_map_iff. now exists (o, cc). }
  destruct T as [tail ->]. apply (L o' p'); [|easy|easy]. apply in_or_app. now left.
Qed.
Print Assumptions C126_first.

(** C126: with at most 35 optimizers all are drawn, from the greatest to the smallest final loss; with more, the first drawn one has
    the greatest final loss, the 35 others are the best ones: nothing left out is better than any of them *)
Theorem C126_drawn l :
  (List.length l <= 35 -> Permutation (drawn l) l /\ StronglySorted (fun x y => (snd y <= snd x)%Q) (drawn l)) /\
  (35 < List.length l -> exists w out best, drawn l = w :: best /\ List.length best = 35 /\ Permutation (w :: out ++ best) l /\
     (forall x, In x l -> (snd x <= snd w)%Q) /\
     (forall x y, In x out -> In y best -> (snd y <= snd x)%Q) /\
     StronglySorted (fun x y => (snd y <= snd x)%Q) best).
Proof.
  pose proof (ranking_perm l) as P. pose proof (ranking_sorted l) as O. pose proof (Permutation_length P) as E.
  unfold drawn. rewrite E. split.
  - intros H. destruct (Nat.ltb_spec 35 (List.length l)); [lia|]. split; [easy|exact O].
  - intros H. destruct (Nat.ltb_spec 35 (List.length l)); [|lia].
    destruct (ranking l) as [|w s] eqn:Es; [cbn in E; lia|].
    assert (Ek : List.length l - 35 = S (List.length l - 36)) by lia. rewrite Ek.
    cbn [skipn firstn List.app]. cbn in E. set (k := List.length l - 36) in *.
    exists w, (firstn k s), (skipn k s). split; [easy|].
    split; [rewrite skipn_length; lia|]. rewrite firstn_skipn. split; [easy|].
    inversion O as [|? ? O' F]; subst. rewrite Forall_forall in F. split; [|split].
    + intros x I. apply (Permutation_in _ (Permutation_sym P)) in I as [->|I]; [lra|]. now apply F.
    + intros x y Ix Iy. apply (sorted_split s (firstn k s) (skipn k s) x y O'); [now rewrite firstn_skipn|easy|easy].
    + clear - O'. clearbody k. revert k. induction O' as [|x s O' IH F]; intros k; [rewrite skipn_nil; constructor|].
      destruct k; [now constructor|]. apply IH.
Qed.
Print Assumptions C126_drawn.

(** C126: a title is split in two at the comma closest to its middle when it has more than 60 characters and a comma; otherwise it
    does not change; nothing but the line break is added *)
Theorem C126_title t :
  (List.length t <= 60 \/ ~ In ","%char t -> split_long_title t = t) /\
  (60 < List.length t -> In ","%char t -> exists b, nth_error t b = Some ","%char /\
     split_long_title t = firstn (b + 1) t ++ newline :: skipn (b + 1) t /\
     forall i, nth_error t i = Some ","%char ->
       (Z.abs (Z.of_nat b - Z.of_nat (List.length t / 2)) <= Z.abs (Z.of_nat i - Z.of_nat (List.length t / 2)))%Z).
Proof.
  unfold split_long_title. split.
  - intros [H|H]; [now destruct (Nat.leb_spec (List.length t) 60); [|lia]|]. destruct (_ <=? 60); [easy|].
    destruct (comma_indices 0 t) as [|i l] eqn:E; [easy|]. exfalso. apply H.
    assert (I : In i (comma_indices 0 t)) by (rewrite E; now left). apply comma_in in I as (k & _ & I). now apply nth_error_In in I.
  - intros H I. destruct (Nat.leb_spec (List.length t) 60); [lia|]. apply In_nth_error in I as [k0 I].
    assert (I0 : In k0 (comma_indices 0 t)) by (apply comma_in; now exists k0).
    destruct (comma_indices 0 t) as [|i l] eqn:E; [easy|].
    set (m := List.length t / 2). destruct (closest_spec m l i) as (A & B & C). set (b := closest m i l) in *.
    assert (Ib : In b (comma_indices 0 t)) by (rewrite E; destruct A as [->|A]; [now left|now right]).
    apply comma_in in Ib as (k & Ek & Ib). cbn in Ek. exists b. split; [now subst|]. split; [easy|].
    intros j Hj. assert (Ij : In j (comma_indices 0 t)) by (apply comma_in; now exists j). rewrite E in Ij.
    assert (D : absdiff b m <= absdiff j m) by (destruct Ij as [<-|Ij]; auto). unfold absdiff in D. lia.
Qed.
Print Assumptions C126_title.

(** C126, a case: three rows of A at budget 10 (one NaN), one at 5, two of B at 10 *)
Definition c126_rows : list row :=
  [Row "A" 10 (Some 4); Row "A" 10 None; Row "B" 10 (Some 3); Row "A" 5 (Some 1); Row "A" 10 (Some 2); Row "B" 10 (Some 3)]%Q.
Example C126_case :
  map (fun oc => (fst oc, map (fun p => (p_budget p, option_map Qred (p_loss p), option_map Qred (p_var p), p_nums p)) (snd oc)))
      (make_data false ["B"; "A"]%string c126_rows) =
    [("B"%string, [(10%Z, Some 3%Q, Some 0%Q, 2)]); ("A"%string, [(5%Z, Some 1%Q, None, 1); (10%Z, Some 3%Q, Some 2%Q, 2)])] /\
  map (fun e => (fst e, option_map Qred (fst (snd e)), snd (snd e))) (save_txt (make_data false ["B"; "A"]%string c126_rows)) =
    [(10%Z, Some 3%Q, "B"%string); (5%Z, Some 1%Q, "A"%string)].
Proof. split; reflexivity. Qed.
Example C126_title_case :
  let t := (repeat "a"%char 20 ++ [","%char] ++ repeat "b"%char 9 ++ [","%char] ++ repeat "c"%char 40)%list in
  split_long_title t = (repeat "a"%char 20 ++ [","%char] ++ repeat "b"%char 9 ++ [","%char; newline] ++ repeat "c"%char 40)%list.
Proof. reflexivity. Qed.

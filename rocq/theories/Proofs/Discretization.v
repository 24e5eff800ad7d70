(** Lemmas on softmax sampling. *)
From Coq Require Import Reals ZArith Bool Lra Lia List.
From Verif.Model Require Import Prelude Discretization.
Import ListNotations.
Open Scope R_scope.

(** comparison of weights, nan being the lowest *)
Definition less (a b : weight) : Prop :=
  match a, b with
  | WFin x, WFin y => x < y
  | (WMInf | WNan), (WFin _ | WPInf) => True
  | WFin _, WPInf => True
  | _, _ => False
  end.
Lemma wlt_less a b : wlt (clean a) (clean b) = true <-> less a b.
Proof.
  destruct a as [x| | |], b as [y| | |]; cbn; try (split; [discriminate|tauto]); try tauto; try (split; [tauto|reflexivity]).
  destruct (Rlt_dec x y); split; auto; discriminate.
Qed.
Lemma less_trans a b c : less a b -> less b c -> less a c.
Proof. destruct a, b, c; cbn; try tauto. lra. Qed.
Lemma less_irrefl a : ~ less a a.
Proof. destruct a; cbn; try tauto. lra. Qed.
Lemma nless_trans a b c : ~ less a b -> ~ less b c -> ~ less a c.
Proof. destruct a, b, c; cbn; try tauto. lra. Qed.
Lemma less_nless_trans a b c : less a b -> ~ less c b -> less a c.
Proof. destruct a, b, c; cbn; try tauto. lra. Qed.

Lemma argmax_from_spec ws : forall best ibest i, (ibest < i)%nat ->
  let r := argmax_from (clean best) ibest i (map clean ws) in
  (r = ibest /\ (forall j w, nth_error ws j = Some w -> ~ less best w)) \/
  (exists j w, r = (i + j)%nat /\ nth_error ws j = Some w /\ less best w /\
     (forall k v, nth_error ws k = Some v -> ~ less w v) /\ (forall k v, (k < j)%nat -> nth_error ws k = Some v -> less v w)).
Proof.
  induction ws as [|w ws IH]; intros best ibest i Hi; cbn zeta.
  - left. split; [reflexivity|]. intros j w H. now destruct j.
  - cbn [map argmax_from]. destruct (wlt (clean best) (clean w)) eqn:E.
    + apply wlt_less in E. destruct (IH w i (S i) ltac:(lia)) as [(-> & H)|(j & v & -> & Hv & Hl & Hmax & Hfirst)].
      * right. exists 0%nat, w. split; [lia|]. split; [reflexivity|]. split; [exact E|]. split; [|intros; lia].
        intros [|k] v Hv; cbn in Hv; [injection Hv as <-; apply less_irrefl|now apply (H k)].
      * right. exists (S j), v. split; [lia|]. split; [exact Hv|]. split; [eapply less_trans; eauto|]. split.
        -- intros [|k] u Hu; cbn in Hu; [injection Hu as <-; intros Hc; apply (less_irrefl w); eapply less_trans; eauto|now apply (Hmax k)].
        -- intros [|k] u Hk Hu; cbn in Hu; [now injection Hu as <-|]. apply (Hfirst k); [lia|exact Hu].
    + assert (E' : ~ less best w) by (rewrite <- wlt_less; congruence).
      destruct (IH best ibest (S i) ltac:(lia)) as [(-> & H)|(j & v & -> & Hv & Hl & Hmax & Hfirst)].
      * left. split; [reflexivity|]. intros [|k] v Hv; cbn in Hv; [now injection Hv as <-|now apply (H k)].
      * right. exists (S j), v. split; [lia|]. split; [exact Hv|]. split; [exact Hl|]. split.
        -- intros [|k] u Hu; cbn in Hu; [|now apply (Hmax k)]. injection Hu as <-. intros Hc. apply E'. eapply less_trans; eauto.
        -- intros [|k] u Hk Hu; cbn in Hu; [|apply (Hfirst k); [lia|exact Hu]]. injection Hu as <-.
           destruct best, w, v; cbn in *; try tauto; lra.
Qed.
Lemma argmax_spec row i : argmax (map clean row) = Ok i ->
  exists w, nth_error row i = Some w /\ (forall k v, nth_error row k = Some v -> ~ less w v) /\
    (forall k v, (k < i)%nat -> nth_error row k = Some v -> less v w).
Proof.
  destruct row as [|w row]; [discriminate|]. cbn [map argmax]. intros E. injection E as E.
  destruct (argmax_from_spec row w 0 1 ltac:(lia)) as [(Hr & H)|(j & v & Hr & Hv & Hl & Hmax & Hfirst)]; rewrite E in Hr; clear E; subst i.
  - exists w. split; [reflexivity|]. split; [|intros; lia]. intros [|k] v Hv; cbn in Hv; [injection Hv as <-; apply less_irrefl|now apply (H k)].
  - exists v. split; [exact Hv|]. split.
    + intros [|k] u Hu; cbn in Hu; [|now apply (Hmax k)]. injection Hu as <-. intros Hc. apply (less_irrefl w). eapply less_trans; eauto.
    + intros [|k] u Hk Hu; cbn in Hu; [now injection Hu as <-|]. apply (Hfirst k); [lia|exact Hu].
Qed.

(** the maximum of a row *)
Lemma max_from_spec ws : forall best, let m := max_from (clean best) (map clean ws) in
  In m (map clean (best :: ws)) /\ (forall w, In w (best :: ws) -> ~ less m w).
Proof.
  assert (Hc : forall w, ~ less (clean w) w) by (intros w; destruct w; cbn; lra || tauto).
  induction ws as [|w ws IH]; intros best; cbn zeta.
  - cbn. split; [auto|]. intros w [<-|[]]. apply Hc.
  - cbn [map max_from]. destruct (wlt (clean best) (clean w)) eqn:E.
    + apply wlt_less in E. destruct (IH w) as (Hin & Hmax). split; [right; exact Hin|].
      intros v [<-|Hv]; [|now apply Hmax]. intros Hl. apply (Hmax w (or_introl eq_refl)). eapply less_trans; eauto.
    + assert (E' : ~ less best w) by (rewrite <- wlt_less; congruence). destruct (IH best) as (Hin & Hmax). split.
      * destruct Hin as [Hin|Hin]; [now left|right; now right].
      * intros v [<-|[<-|Hv]]; [apply Hmax; now left| |apply Hmax; now right].
        intros Hl. apply (Hmax best (or_introl eq_refl)). eapply less_nless_trans; eauto.
Qed.

Lemma rsum_nonneg l : Forall (fun x => 0 <= x) l -> 0 <= rsum l.
Proof. induction 1; cbn; lra. Qed.
Lemma rsum_pos l : Forall (fun x => 0 <= x) l -> (exists x, In x l /\ 0 < x) -> 0 < rsum l.
Proof.
  induction 1 as [|x l Hx Hl IH]; intros (y & Hy & Hp); [destruct Hy|]. cbn. pose proof (rsum_nonneg l Hl). destruct Hy as [->|Hy]; [lra|].
  assert (0 < rsum l) by (apply IH; eauto). lra.
Qed.
Lemma rsum_div l s : rsum (map (fun x => x / s) l) = rsum l / s.
Proof. induction l as [|x l IH]; cbn; [unfold Rdiv; ring|]. rewrite IH. unfold Rdiv. ring. Qed.
Lemma rsum_app a b : rsum (a ++ b) = rsum a + rsum b.
Proof. induction a as [|x a IH]; cbn; [ring|]. rewrite IH. ring. Qed.
Lemma rsum_zero l : Forall (fun x => x = 0) l -> rsum l = 0.
Proof. induction 1 as [|x l -> _ IH]; cbn; lra. Qed.
Lemma rsum_ones {A} (l : list A) : rsum (map (fun _ => 1) l) = INR (length l).
Proof. induction l as [|x l IH]; [reflexivity|]. cbn [map rsum length]. rewrite S_INR, IH. ring. Qed.

Lemma Forall2_map_self {A B} (P : A -> B -> Prop) g l : (forall v, In v l -> P v (g v)) -> Forall2 P l (map g l).
Proof. induction l as [|a l IH]; cbn; constructor; auto. Qed.
Definition is_pinf (w : weight) : Prop := w = WPInf.
Definition is_fin (w : weight) : Prop := exists x, w = WFin x.
(** the unnormalised probability of an option *)
Definition share (row : list weight) (w : weight) (e : R) : Prop :=
  0 <= e /\ (0 < e <->
   (is_pinf w \/ (is_fin w /\ ~ In WPInf row) \/ (~ In WPInf row /\ forall v, In v row -> ~ is_fin v))).
Lemma exps_spec row : row <> [] -> exists e,
  (let e0 := exps (map clean row) in if Req_EM_T (rsum e0) 0 then map (fun _ => 1) e0 else e0) = e /\
  Forall2 (share row) row e /\ 0 < rsum e /\
  (forall i j x y a b, nth_error row i = Some (WFin x) -> nth_error row j = Some (WFin y) -> ~ In WPInf row ->
     nth_error e i = Some a -> nth_error e j = Some b -> a * exp y = b * exp x).
Proof.
  intros Hne. destruct row as [|w0 row]; [congruence|]. clear Hne. destruct (max_from_spec row w0) as (Hin & Hmax). cbn zeta in Hin, Hmax.
  set (R := w0 :: row) in *. set (m := max_from (clean w0) (map clean row)) in *.
  set (f := exp_of m). set (e0 := map f (map clean R)).
  assert (E0 : exps (map clean R) = e0) by reflexivity. rewrite E0. cbn zeta.
  assert (Ee0 : e0 = map (fun w => f (clean w)) R) by (unfold e0; now rewrite map_map).
  assert (Hf0 : forall w, 0 <= f w). { intros w. unfold f, exp_of. destruct w; try lra. destruct m; try lra; left; apply exp_pos. }
  assert (Hnn : Forall (fun x => 0 <= x) e0). { rewrite Ee0. apply Forall_forall. intros x Hx. apply in_map_iff in Hx as (w & <- & _). apply Hf0. }
  assert (Hpinf : m = WPInf <-> In WPInf R).
  { split.
    - intros E. rewrite E in Hin. apply in_map_iff in Hin as (v & Ev & Hv). destruct v; try discriminate. exact Hv.
    - intros H. specialize (Hmax _ H). destruct m; cbn in Hmax; try tauto; try lra. }
  assert (Hnone : m = WMInf <-> (~ In WPInf R /\ forall v, In v R -> ~ is_fin v)).
  { split.
    - intros E. split; [intros H; apply Hpinf in H; congruence|]. intros v Hv (x & ->). specialize (Hmax _ Hv). rewrite E in Hmax. cbn in Hmax. tauto.
    - intros (H1 & H2). destruct m eqn:Em; [| | |].
      + exfalso. apply in_map_iff in Hin as (v & Ev & Hv). destruct v; try discriminate. apply (H2 _ Hv). eexists; reflexivity.
      + exfalso. apply H1, Hpinf. reflexivity.
      + reflexivity.
      + exfalso. apply in_map_iff in Hin as (v & Ev & Hv). destruct v; discriminate. }
  assert (Hmnan : m <> WNan). { intros E. rewrite E in Hin. apply in_map_iff in Hin as (v & Ev & Hv). destruct v; discriminate. }
  destruct (Req_EM_T (rsum e0) 0) as [Hz|Hz].
  - (* all zero *)
    assert (Hm : m = WMInf).
    { destruct m as [x| | |] eqn:Em; [| |reflexivity|congruence]; exfalso.
      - assert (0 < rsum e0); [|lra]. apply rsum_pos; [exact Hnn|]. exists (f (WFin x)). split.
        + unfold e0. apply in_map. exact Hin.
        + unfold f, exp_of. apply exp_pos.
      - assert (0 < rsum e0); [|lra]. apply rsum_pos; [exact Hnn|]. exists (f WPInf). split; [unfold e0; apply in_map; exact Hin|unfold f, exp_of; lra]. }
    apply Hnone in Hm as Hm'. exists (map (fun _ => 1) e0). split; [reflexivity|]. split; [|split].
    + rewrite Ee0, map_map. assert (Hall : forall v, In v R -> share R v 1).
      { intros v _. split; [lra|]. split; [intros _; right; right; exact Hm'|lra]. }
      apply Forall2_map_self. exact Hall.
    + rewrite rsum_ones. apply lt_0_INR. rewrite Ee0, map_length. cbn. lia.
    + intros i j x y a b Hi _ _ _ _. exfalso. apply nth_error_In in Hi. destruct Hm' as (_ & Hm'). apply (Hm' _ Hi). eexists; reflexivity.
  - assert (Hm : m <> WMInf).
    { intros E. apply Hz. rewrite Ee0. apply rsum_zero. apply Forall_forall. intros x Hx. apply in_map_iff in Hx as (v & <- & Hv).
      apply Hnone in E as (H1 & H2). destruct v; cbn; try reflexivity; exfalso; [apply (H2 _ Hv); eexists; reflexivity|now apply H1]. }
    exists e0. split; [reflexivity|]. split; [|split].
    + rewrite Ee0. assert (Hall : forall v, In v R -> share R v (f (clean v))).
      { intros v Hv. split; [apply Hf0|]. destruct m as [x| | |] eqn:Em; [| |congruence|congruence].
        - assert (Hno : ~ In WPInf R) by (intros H; apply Hpinf in H; congruence).
          destruct v as [y| | |]; unfold f, exp_of; cbn [clean].
          + split; [|intros _; apply exp_pos]. intros _. right. left. split; [eexists; reflexivity|exact Hno].
          + contradiction.
          + split; [lra|]. intros [H|[(( z & H) & _)|(_ & H)]]; try discriminate. exfalso. apply Hm. apply Hnone. auto.
          + split; [lra|]. intros [H|[((z & H) & _)|(_ & H)]]; try discriminate. exfalso. apply Hm. apply Hnone. auto.
        - assert (Hyes : In WPInf R) by now apply Hpinf.
          destruct v as [y| | |]; unfold f, exp_of; cbn [clean].
          + split; [lra|]. intros [H|[(_ & H)|(H & _)]]; [discriminate|contradiction|contradiction].
          + split; [intros _; left; reflexivity|lra].
          + split; [lra|]. intros [H|[(_ & H)|(H & _)]]; [discriminate|contradiction|contradiction].
          + split; [lra|]. intros [H|[(_ & H)|(H & _)]]; [discriminate|contradiction|contradiction]. }
      apply Forall2_map_self. exact Hall.
    + pose proof (rsum_nonneg e0 Hnn). lra.
    + intros i j x y a b Hi Hj Hno Ha Hb. rewrite Ee0 in Ha, Hb. rewrite nth_error_map, Hi in Ha. rewrite nth_error_map, Hj in Hb. cbn in Ha, Hb.
      assert (Hmp : m <> WPInf) by (intros E; apply Hno, Hpinf, E). destruct m as [z| | |]; try congruence. injection Ha as <-. injection Hb as <-.
      rewrite <- !exp_plus. f_equal. ring.
Qed.

(** sampling *)
Lemma first_false_spec l : forall i k, first_false i l = Some k ->
  exists j, k = (i + j)%nat /\ nth_error l j = Some false /\ forall m, (m < j)%nat -> nth_error l m = Some true.
Proof.
  induction l as [|b l IH]; intros i k; cbn; [discriminate|]. destruct b.
  - intros H. apply IH in H as (j & -> & Hj & Hall). exists (S j). split; [lia|]. split; [exact Hj|]. intros [|m] Hm; [reflexivity|]. apply Hall. lia.
  - intros H. injection H as <-. exists 0%nat. split; [lia|]. split; [reflexivity|]. intros; lia.
Qed.
Lemma first_false_none l : forall i, first_false i l = None -> forall j b, nth_error l j = Some b -> b = true.
Proof.
  induction l as [|b l IH]; intros i H j c Hc; [now destruct j|]. cbn in H. destruct b; [|discriminate].
  destruct j; cbn in Hc; [congruence|eauto].
Qed.
Lemma cumsum_nth l : forall acc i, (i < length l)%nat -> nth_error (cumsum acc l) i = Some (acc + rsum (firstn (S i) l)).
Proof.
  induction l as [|x l IH]; intros acc i Hi; cbn in Hi; [lia|]. destruct i as [|i].
  - cbn. f_equal. ring.
  - cbn [cumsum nth_error]. rewrite IH by lia. f_equal. cbn. ring.
Qed.
Lemma cumsum_length l : forall acc, length (cumsum acc l) = length l.
Proof. induction l as [|x l IH]; intros; cbn; [reflexivity|now rewrite IH]. Qed.

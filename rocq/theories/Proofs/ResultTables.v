(** Lemmas on tables. *)
From Coq Require Import Arith ZArith Bool Lia String Permutation Sorted List.
From Verif.Model Require Import Prelude Configured ResultTables.
From Verif.Spec Require Import ResultTables.
From Verif.Proofs Require Import Configured.
Import ListNotations.
Open Scope list_scope.
Open Scope nat_scope.

Lemma has_iff l n : has l n = true <-> In n l.
Proof.
  unfold has. rewrite existsb_exists. split.
  - intros [x [H1 H2]]. apply String.eqb_eq in H2. subst. exact H1.
  - intros H. exists n. split; [exact H|apply String.eqb_refl].
Qed.
Lemma has_false l n : has l n = false <-> ~ In n l.
Proof. rewrite <- has_iff. destruct (has l n); split; congruence. Qed.

Section P.
Context {V : Type} (nan : V).
Notation table := (table V).
Notation content := (content nan).

Lemma sget_combine (cs : list string) : forall (row : list V) n v, NoDup cs ->
  (sget n (combine cs row) = Some v <-> exists k, nth_error cs k = Some n /\ nth_error row k = Some v).
Proof.
  induction cs as [|c cs IH]; intros row n v Hn.
  - cbn. split; [discriminate|]. intros [k [H _]]. destruct k; discriminate.
  - apply NoDup_cons_iff in Hn as [Hc Hn]. destruct row as [|x row].
    + cbn. split; [discriminate|]. intros [k [_ H]]. destruct k; discriminate.
    + cbn [combine sget]. destruct (String.eqb n c) eqn:E.
      * apply String.eqb_eq in E. subst. split.
        -- intros H. exists 0. cbn. split; [reflexivity|exact H].
        -- intros [k [H1 H2]]. destruct k; [exact H2|]. exfalso. apply Hc. cbn in H1. apply nth_error_In in H1. exact H1.
      * apply String.eqb_neq in E. rewrite (IH row n v Hn). split.
        -- intros [k H]. exists (S k). exact H.
        -- intros [k [H1 H2]]. destruct k; [cbn in H1; congruence|]. exists k. auto.
Qed.

Definition value (cs : list string) (row : list V) (n : string) : V :=
  match cell cs row n with Some v => v | None => nan end.

Lemma cell_some cs (row : list V) n : NoDup cs -> List.length row = List.length cs -> In n cs -> exists v, cell cs row n = Some v.
Proof.
  intros Hn Hl Hi. apply In_nth_error in Hi as [k Hk].
  destruct (nth_error row k) as [v|] eqn:E.
  - exists v. apply sget_combine; [exact Hn|]. exists k. auto.
  - apply nth_error_None in E. assert (k < List.length cs) by (apply nth_error_Some; congruence). lia.
Qed.
Lemma cell_none cs (row : list V) n : NoDup cs -> ~ In n cs -> cell cs row n = None.
Proof.
  intros Hn Hi. destruct (cell cs row n) as [v|] eqn:E; [|reflexivity].
  apply sget_combine in E; [|exact Hn]. destruct E as [k [H _]]. exfalso. apply Hi. apply nth_error_In in H. exact H.
Qed.
Lemma content_value (t : table) row n v : NoDup (cols t) -> List.length row = List.length (cols t) ->
  (content t row n v <-> v = value (cols t) row n).
Proof.
  intros Hn Hl. unfold value. split.
  - intros H. inversion H as [k w H1 H2|H1]; subst.
    + assert (E : cell (cols t) row n = Some v) by (apply sget_combine; [exact Hn|exists k; auto]). rewrite E. reflexivity.
    + rewrite (cell_none _ _ _ Hn H1). reflexivity.
  - intros ->. destruct (in_dec string_dec n (cols t)) as [Hi|Hi].
    + destruct (cell_some _ _ _ Hn Hl Hi) as [w E]. rewrite E.
      apply sget_combine in E; [|exact Hn]. destruct E as [k [H1 H2]]. econstructor 1; eassumption.
    + rewrite (cell_none _ _ _ Hn Hi). constructor 2. exact Hi.
Qed.

Lemma value_map cs (g : string -> V) n : NoDup cs -> value cs (map g cs) n = if has cs n then g n else nan.
Proof.
  intros Hn. unfold value. destruct (has cs n) eqn:E.
  - apply has_iff in E. apply In_nth_error in E as [k Hk].
    assert (H : cell cs (map g cs) n = Some (g n)).
    { apply sget_combine; [exact Hn|]. exists k. split; [exact Hk|]. apply map_nth_error. exact Hk. }
    rewrite H. reflexivity.
  - apply has_false in E. rewrite (cell_none _ _ _ Hn E). reflexivity.
Qed.

Lemma value_app cs ex (row : list V) n : NoDup (cs ++ ex) -> List.length row = List.length cs ->
  value (cs ++ ex) (row ++ map (fun _ => nan) ex) n = value cs row n.
Proof.
  intros Hn Hl. assert (Hn1 : NoDup cs). { clear Hl. induction cs; [constructor|]. cbn in Hn. apply NoDup_cons_iff in Hn as [H1 H2].
    constructor; [intros H; apply H1; apply in_or_app; auto|auto]. }
  unfold value at 2. destruct (cell cs row n) as [v|] eqn:E.
  - apply sget_combine in E; [|exact Hn1]. destruct E as [k [H1 H2]]. unfold value.
    assert (E : cell (cs ++ ex) (row ++ map (fun _ => nan) ex) n = Some v).
    { apply sget_combine; [exact Hn|]. exists k. rewrite !nth_error_app1; auto; apply nth_error_Some; congruence. }
    rewrite E. reflexivity.
  - unfold value. destruct (cell (cs ++ ex) (row ++ map (fun _ => nan) ex) n) as [v|] eqn:E2; [|reflexivity].
    apply sget_combine in E2; [|exact Hn]. destruct E2 as [k [H1 H2]].
    destruct (le_lt_dec (List.length cs) k) as [Hk|Hk].
    + rewrite nth_error_app2 in H2 by lia. apply nth_error_In in H2. apply in_map_iff in H2 as [x [Hx _]]. congruence.
    + rewrite nth_error_app1 in H1 by lia. rewrite nth_error_app1 in H2 by lia.
      assert (cell cs row n = Some v) by (apply sget_combine; [exact Hn1|exists k; auto]). congruence.
Qed.

Lemma nodup_union (a b : list string) : NoDup a -> NoDup b -> NoDup (a ++ filter (fun c => negb (has a c)) b).
Proof.
  intros Ha Hb. assert (H : forall x, In x a -> ~ In x (filter (fun c => negb (has a c)) b)).
  { intros x Hx Hf. apply filter_In in Hf as [_ Hf]. apply negb_true_iff, has_false in Hf. auto. }
  assert (Hf := NoDup_filter (fun c => negb (has a c)) Hb).
  revert H Hf. generalize (filter (fun c => negb (has a c)) b) as f. intros f. clear b Hb.
  induction Ha as [|x l Hx Ha IH]; intros H Hf; [exact Hf|]. cbn. constructor.
  - intros Hi. apply in_app_or in Hi as [Hi|Hi]; [auto|]. apply (H x); [left; reflexivity|exact Hi].
  - apply IH; [|exact Hf]. intros y Hy. apply H. right. exact Hy.
Qed.

Lemma concat_wf (a b : table) : well_formed a -> well_formed b -> well_formed (concat_tables nan a b).
Proof.
  intros [Ha1 Ha2] [Hb1 Hb2]. split; cbn [concat_tables cols rows].
  - apply nodup_union; assumption.
  - rewrite Forall_forall in *. intros r Hr. apply in_app_or in Hr as [Hr|Hr]; apply in_map_iff in Hr as [r0 [<- Hr]].
    + rewrite !app_length, map_length, (Ha2 r0 Hr). reflexivity.
    + rewrite map_length. reflexivity.
Qed.

Lemma Forall2_map_l {A B C} (f : A -> B) (R : B -> C -> Prop) l : forall l', Forall2 (fun x => R (f x)) l l' -> Forall2 R (map f l) l'.
Proof. induction l; intros l' H; inversion H; subst; cbn; constructor; auto. Qed.
Lemma Forall2_self {A B} (R : A -> B -> Prop) (f : A -> B) l : (forall x, In x l -> R x (f x)) -> Forall2 R l (map f l).
Proof. induction l; intros H; cbn; constructor; [apply H; left; reflexivity|apply IHl; intros; apply H; right; assumption]. Qed.
Lemma Forall2_strong {A B} (R R' : A -> B -> Prop) l : forall l', Forall2 R l l' ->
  (forall x y, In x l -> R x y -> R' x y) -> Forall2 R' l l'.
Proof. induction l; intros l' H Hi; inversion H; subst; constructor; [apply Hi; [left; reflexivity|assumption]|apply IHl; [assumption|intros; apply Hi; [right|]; assumption]]. Qed.

Lemma gathers_self (t : table) : gathers nan t [t].
Proof.
  split.
  - cbn. rewrite app_nil_r. apply Forall2_self. intros r _ n v. cbn. reflexivity.
  - intros n. split; [intros H; exists t; cbn; auto|]. intros [t' [[<-|[]] H]]. exact H.
Qed.

Lemma gathers_concat (t b : table) ts : well_formed t -> well_formed b -> gathers nan t ts ->
  gathers nan (concat_tables nan t b) (ts ++ [b]).
Proof.
  intros Ht Hb [H1 H2]. pose proof (concat_wf _ _ Ht Hb) as [Hc1 Hc2].
  destruct Ht as [Ht1 Ht2], Hb as [Hb1 Hb2]. rewrite Forall_forall in Ht2, Hb2, Hc2. split.
  - unfold rows_of. rewrite flat_map_app. cbn [flat_map]. rewrite app_nil_r. cbn [concat_tables rows]. apply Forall2_app.
    + apply Forall2_map_l. eapply Forall2_strong; [exact H1|]. intros r [t0 r0] Hr H n v. cbn [fst snd] in *.
      rewrite <- H. rewrite content_value; [|exact Hc1|].
      * rewrite content_value; [|exact Ht1|apply Ht2, Hr]. cbn [concat_tables cols].
        rewrite value_app; [reflexivity|apply nodup_union; assumption|apply Ht2, Hr].
      * apply Hc2. cbn [concat_tables rows]. apply in_or_app. left. apply in_map_iff. exists r. auto.
    + apply Forall2_map_l. apply Forall2_self. intros r Hr n v. cbn [fst snd].
      rewrite content_value; [|exact Hc1|].
      * rewrite content_value; [|exact Hb1|apply Hb2, Hr]. cbn [concat_tables cols].
        rewrite (value_map _ (value (cols b) r)); [|apply nodup_union; assumption].
        destruct (has _ n) eqn:E; [reflexivity|]. apply has_false in E.
        unfold value. rewrite cell_none; [reflexivity|exact Hb1|]. intros Hi. apply E. apply in_or_app.
        destruct (has (cols t) n) eqn:E2; [left; apply has_iff; exact E2|right]. apply filter_In. rewrite E2. auto.
      * cbn [concat_tables cols]. rewrite map_length. reflexivity.
  - intros n. cbn [concat_tables cols]. rewrite in_app_iff, H2, filter_In. split.
    + intros [[t' [Hi Hn]]|[Hi _]]; [exists t'|exists b]; rewrite in_app_iff; cbn; auto.
    + intros [t' [Hi Hn]]. apply in_app_or in Hi as [Hi|[<-|[]]]; [left; exists t'; auto|].
      destruct (has (cols t) n) eqn:E; [left; apply H2, has_iff, E|right; auto].
Qed.

(** Selection *)
Variables (veqb vleb : V -> V -> bool).
Hypothesis veqb_eq : forall a b, veqb a b = true <-> a = b.

Lemma keeps_iff c v : keeps veqb c v = true <-> satisfies c v.
Proof.
  destruct c; cbn; [|reflexivity|apply veqb_eq]. rewrite existsb_exists. split.
  - intros [x [H1 H2]]. apply veqb_eq in H2. subst. exact H1.
  - intros H. exists v. split; [exact H|apply veqb_eq; reflexivity].
Qed.

Definition passes (cs : list string) (kw : list (string * criterion V)) (r : list V) : bool :=
  forallb (fun nc => match cell cs r (fst nc) with Some v => keeps veqb (snd nc) v | None => false end) kw.

Lemma filter_filter' {A} (f g : A -> bool) l : filter g (filter f l) = filter (fun x => f x && g x) l.
Proof. induction l; [reflexivity|]. cbn. destruct (f a); cbn; [destruct (g a)|]; rewrite IHl; reflexivity. Qed.

Lemma select_ok kw : forall t, (forall n, In n (map fst kw) -> In n (cols t)) ->
  select veqb t kw = Ok (mktable (cols t) (filter (passes (cols t) kw) (rows t))).
Proof.
  induction kw as [|[n c] kw IH]; intros t H.
  - cbn. destruct t as [cs rs]. cbn. f_equal. f_equal. clear H. induction rs as [|r rs IH]; [reflexivity|]. cbn. rewrite <- IH. reflexivity.
  - cbn [select]. unfold select_one. assert (E : has (cols t) n = true) by (apply has_iff, H; left; reflexivity). rewrite E.
    cbn [bind]. rewrite IH by (intros m Hm; apply H; right; exact Hm). cbn [cols rows]. rewrite filter_filter'. reflexivity.
Qed.
Lemma select_err kw : forall t n, In n (map fst kw) -> ~ In n (cols t) -> select veqb t kw = Err KeyError.
Proof.
  induction kw as [|[m c] kw IH]; intros t n H Hn; [destruct H|].
  cbn [select]. unfold select_one. destruct (has (cols t) m) eqn:E; [|reflexivity]. cbn [bind].
  destruct H as [H|H]; [cbn in H; subst; apply has_iff in E; contradiction|]. apply (IH _ n H). exact Hn.
Qed.

Lemma passes_iff (t : table) kw r : NoDup (cols t) -> List.length r = List.length (cols t) ->
  (forall n, In n (map fst kw) -> In n (cols t)) ->
  (passes (cols t) kw r = true <-> forall n c, In (n, c) kw -> exists v, content t r n v /\ satisfies c v).
Proof.
  intros Hn Hl Hk. unfold passes. rewrite forallb_forall. split.
  - intros H n c Hi. specialize (H _ Hi). cbn in H.
    destruct (cell_some (cols t) r n Hn Hl) as [v E]; [apply Hk; apply (in_map fst) in Hi; exact Hi|].
    rewrite E in H. apply keeps_iff in H. exists v. split; [|exact H]. apply content_value; [exact Hn|exact Hl|].
    unfold value. rewrite E. reflexivity.
  - intros H [n c] Hi. cbn. destruct (H n c Hi) as [v [H1 H2]]. apply content_value in H1; [|exact Hn|exact Hl].
    destruct (cell_some (cols t) r n Hn Hl) as [w E]; [apply Hk; apply (in_map fst) in Hi; exact Hi|].
    unfold value in H1. rewrite E in *. subst. apply keeps_iff. exact H2.
Qed.

Lemma project_content (t : table) names r n v : NoDup (cols t) -> NoDup names -> List.length r = List.length (cols t) -> In n names ->
  (content (project nan t names) (map (value (cols t) r) names) n v <-> content t r n v).
Proof.
  intros H1 H2 H3 H4. rewrite content_value; [|exact H2|cbn; apply map_length].
  rewrite content_value; [|exact H1|exact H3]. cbn [project cols]. rewrite value_map by exact H2.
  apply has_iff in H4. rewrite H4. reflexivity.
Qed.

(** Sorting *)
Hypothesis Hord : total_order vleb.
Notation tle := (tuple_leb veqb vleb).
Lemma veqb_refl a : veqb a a = true. Proof. apply veqb_eq. reflexivity. Qed.
Lemma tle_total a : forall b, tle a b = true \/ tle b a = true.
Proof.
  destruct Hord as [Ht [_ Ha]]. induction a as [|x a IH]; intros b; [left; reflexivity|]. destruct b as [|y b]; [right; reflexivity|].
  cbn. destruct (veqb x y) eqn:E.
  - apply veqb_eq in E. subst. rewrite veqb_refl. apply IH.
  - destruct (veqb y x) eqn:E2; [apply veqb_eq in E2; subst; rewrite veqb_refl in E; discriminate|]. apply Ht.
Qed.
Lemma tle_antisym a : forall b, tle a b = true -> tle b a = true -> a = b.
Proof.
  destruct Hord as [Ht [_ Ha]]. induction a as [|x a IH]; intros [|y b]; cbn; intros H1 H2; try congruence.
  destruct (veqb x y) eqn:E.
  - apply veqb_eq in E. subst. rewrite veqb_refl in H2. f_equal. auto.
  - destruct (veqb y x) eqn:E2; [apply veqb_eq in E2; subst; rewrite veqb_refl in E; discriminate|].
    rewrite (Ha x y H1 H2), veqb_refl in E. discriminate.
Qed.
Lemma tle_trans a : forall b c, tle a b = true -> tle b c = true -> tle a c = true.
Proof.
  destruct Hord as [Ht [Htr Ha]]. induction a as [|x a IH]; intros [|y b] [|z c]; cbn; intros H1 H2; try congruence.
  destruct (veqb x y) eqn:E.
  - apply veqb_eq in E. subst. destruct (veqb y z) eqn:E2; [eauto|exact H2].
  - destruct (veqb y z) eqn:E2.
    + apply veqb_eq in E2. subst. rewrite E. exact H1.
    + destruct (veqb x z) eqn:E3.
      * apply veqb_eq in E3. subst. rewrite (Ha z y H1 H2), veqb_refl in E. discriminate.
      * eapply Htr; eassumption.
Qed.
Notation sorted := (StronglySorted (fun a b => tle a b = true)).
Lemma tinsert_perm x l : Permutation (x :: l) (tinsert veqb vleb x l).
Proof. induction l; cbn; [reflexivity|]. destruct (tle x a); [reflexivity|]. rewrite perm_swap. constructor. exact IHl. Qed.
Lemma tsort_perm l : Permutation l (tsort veqb vleb l).
Proof. induction l; cbn; [constructor|]. rewrite <- tinsert_perm. constructor. exact IHl. Qed.
Lemma tinsert_sorted x l : sorted l -> sorted (tinsert veqb vleb x l).
Proof.
  intros H. induction H as [|y l Hl IH Hy]; cbn; [repeat constructor|]. destruct (tle x y) eqn:E.
  - constructor; [constructor; assumption|]. constructor; [exact E|]. rewrite Forall_forall in *. intros z Hz. eapply tle_trans; eauto.
  - constructor; [exact IH|]. rewrite Forall_forall in *. intros z Hz.
    apply (Permutation_in _ (Permutation_sym (tinsert_perm x l))) in Hz. destruct Hz as [<-|Hz]; [|auto].
    destruct (tle_total x y); congruence.
Qed.
Lemma tsort_sorted l : sorted (tsort veqb vleb l).
Proof. induction l; cbn; [constructor|]. apply tinsert_sorted. exact IHl. Qed.
Lemma sorted_unique a : forall b, sorted a -> sorted b -> Permutation a b -> a = b.
Proof.
  induction a as [|x a IH]; intros b Ha Hb Hp; [apply Permutation_nil in Hp; auto|].
  destruct b as [|y b]; [apply Permutation_sym, Permutation_nil in Hp; discriminate|].
  inversion Ha as [|? ? Ha1 Ha2]; inversion Hb as [|? ? Hb1 Hb2]; subst. rewrite Forall_forall in Ha2, Hb2.
  assert (x = y).
  { assert (H1 : In x (y :: b)) by (eapply Permutation_in; [exact Hp|left; reflexivity]).
    assert (H2 : In y (x :: a)) by (eapply Permutation_in; [apply Permutation_sym; exact Hp|left; reflexivity]).
    destruct H1 as [H1|H1]; [auto|]. destruct H2 as [H2|H2]; [auto|]. apply tle_antisym; auto. }
  subst. f_equal. apply IH; auto. apply Permutation_cons_inv in Hp. exact Hp.
Qed.
Lemma tuple_eqb_iff a : forall b, tuple_eqb veqb a b = true <-> a = b.
Proof.
  induction a as [|x a IH]; intros [|y b]; cbn; try (split; congruence).
  rewrite andb_true_iff, veqb_eq, IH. split; [intros [-> ->]; reflexivity|intros H; inversion H; auto].
Qed.
Lemma all_equal_iff a : forall b, List.length a = List.length b -> (all_equal veqb a b = true <-> a = b).
Proof.
  induction a as [|x a IH]; intros [|y b]; cbn; intros H; try (split; congruence).
  rewrite andb_true_iff, tuple_eqb_iff, IH by lia. split; [intros [-> ->]; reflexivity|intros E; inversion E; auto].
Qed.
Lemma tsort_equal a b : List.length a = List.length b -> (all_equal veqb (tsort veqb vleb a) (tsort veqb vleb b) = true <-> Permutation a b).
Proof.
  intros H. rewrite all_equal_iff.
  - split; intros E.
    + rewrite (tsort_perm a), E. symmetry. apply tsort_perm.
    + apply sorted_unique; [apply tsort_sorted|apply tsort_sorted|]. rewrite <- tsort_perm, <- tsort_perm. exact E.
  - rewrite <- (Permutation_length (tsort_perm a)), <- (Permutation_length (tsort_perm b)). exact H.
Qed.

Lemma row_eq cs (r1 r2 : list V) : NoDup cs -> List.length r1 = List.length cs -> List.length r2 = List.length cs ->
  (forall n, In n cs -> value cs r1 n = value cs r2 n) -> r1 = r2.
Proof.
  revert r1 r2. induction cs as [|c cs IH]; intros [|x r1] [|y r2] Hn H1 H2 H; cbn in *; try lia; [reflexivity|].
  apply NoDup_cons_iff in Hn as [Hc Hn]. f_equal.
  - specialize (H c (or_introl eq_refl)). unfold value, cell in H. cbn in H. rewrite String.eqb_refl in H. exact H.
  - apply IH; [exact Hn|lia|lia|]. intros n Hi. specialize (H n (or_intror Hi)). unfold value, cell in *. cbn in H.
    destruct (String.eqb n c) eqn:E; [apply String.eqb_eq in E; subst; contradiction|exact H].
Qed.
End P.

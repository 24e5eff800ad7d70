(** Lemmas about the logging callbacks. *)
From Coq Require Import Arith List String Ascii ZArith Decimal DecimalString DecimalNat Lia Permutation.
From Verif Require Import Model.Prelude Model.Configured Model.ParamLog Spec.ParamLog Proofs.Configured.
Import ListNotations.
Open Scope nat_scope.
Open Scope list_scope.

(** strings *)
Lemma str_nat_inj a b : str_nat a = str_nat b -> a = b.
Proof.
  unfold str_nat. intros H. apply Unsigned.to_uint_inj.
  assert (E : Some (Nat.to_uint a) = Some (Nat.to_uint b)) by (rewrite <- 2!NilEmpty.usu; now rewrite H).
  now injection E.
Qed.
Notation chars := list_ascii_of_string.
Lemma chars_app a b : chars (a ++ b)%string = chars a ++ chars b.
Proof. induction a as [|c a IH]; cbn; [easy|]. now rewrite IH. Qed.
Lemma chars_inj a b : chars a = chars b -> a = b.
Proof. intros H. rewrite <- (string_of_list_ascii_of_string a), H. apply string_of_list_ascii_of_string. Qed.

Definition digit (c : ascii) : Prop := c <> "#"%char /\ c <> "_"%char.
Lemma uint_digits u c : In c (chars (NilEmpty.string_of_uint u)) -> digit c.
Proof. induction u; cbn; intros I; try easy; (destruct I as [<-|I]; [split; discriminate|auto]). Qed.
Lemma str_nat_digits n c : In c (chars (str_nat n)) -> digit c.
Proof. apply uint_digits. Qed.

Lemma split_last {A} (c : A) a b x y : ~ In c x -> ~ In c y -> a ++ c :: x = b ++ c :: y -> a = b /\ x = y.
Proof.
  revert b. induction a as [|d a IH]; intros b X Y E.
  - destruct b as [|e b]; cbn in E; [injection E as E; now split|]. injection E as E1 E2.
    exfalso. apply X. rewrite E2. apply in_or_app. right. now left.
  - destruct b as [|e b]; cbn in E; injection E as E1 E2.
    + exfalso. apply Y. rewrite <- E2. apply in_or_app. right. now left.
    + destruct (IH _ X Y E2). now subst.
Qed.
Lemma split_first {A} (c : A) a b x y : ~ In c a -> ~ In c b -> a ++ c :: x = b ++ c :: y -> a = b /\ x = y.
Proof.
  revert b. induction a as [|d a IH]; intros b X Y E.
  - destruct b as [|e b]; cbn in E; [injection E as E; now split|]. injection E as E1 E2.
    exfalso. apply Y. now left.
  - destruct b as [|e b]; cbn in E; injection E as E1 E2.
    + exfalso. apply X. now left.
    + destruct (IH b) as [-> ->]; [now intros I; apply X; right|now intros I; apply Y; right|easy|]. now subst.
Qed.

Lemma join_no_hash p : ~ In "#"%char (chars (join_idx p)).
Proof.
  induction p as [|i p IH]; [easy|]. destruct p as [|j p].
  - cbn. intros I. apply str_nat_digits in I. now apply (proj1 I).
  - change (join_idx (i :: j :: p)) with (str_nat i ++ "_" ++ join_idx (j :: p))%string.
    rewrite chars_app, chars_app. intros I. apply in_app_or in I as [I|I].
    + apply str_nat_digits in I. now apply (proj1 I).
    + apply in_app_or in I as [[I|I]|I]; [discriminate|easy|auto].
Qed.
Lemma join_inj p q : List.length p = List.length q -> join_idx p = join_idx q -> p = q.
Proof.
  revert q. induction p as [|i p IH]; intros [|j q] L E; try easy. injection L as L.
  destruct p as [|i' p], q as [|j' q]; try easy.
  - cbn in E. apply str_nat_inj in E. now subst.
  - change (join_idx (i :: i' :: p)) with (str_nat i ++ "_" ++ join_idx (i' :: p))%string in E.
    change (join_idx (j :: j' :: q)) with (str_nat j ++ "_" ++ join_idx (j' :: q))%string in E.
    apply (f_equal chars) in E. rewrite 4!chars_app in E.
    apply split_first in E as [E1 E2].
    + apply chars_inj, str_nat_inj in E1. apply chars_inj, IH in E2; [|easy]. congruence.
    + intros I. apply str_nat_digits in I. now apply (proj2 I).
    + intros I. apply str_nat_digits in I. now apply (proj2 I).
Qed.
Lemma elt_key_inj k p k' p' : elt_key k p = elt_key k' p' -> k = k' /\ join_idx p = join_idx p'.
Proof.
  unfold elt_key. intros E. apply (f_equal chars) in E. rewrite 4!chars_app in E.
  apply split_last in E as [E1 E2]; try apply join_no_hash. split; now apply chars_inj.
Qed.

(** dicts *)
Lemma updates_app d a b : updates d (a ++ b) = updates (updates d a) b.
Proof. unfold updates. apply fold_left_app. Qed.
Lemma updates_snoc d a kv : updates d (a ++ [kv]) = sset (fst kv) (snd kv) (updates d a).
Proof. now rewrite updates_app. Qed.
Lemma updates_other w d k : ~ In k (map fst w) -> sget k (updates d w) = sget k d.
Proof.
  induction w as [|[k' v] w IH] using rev_ind; intros N; [easy|].
  rewrite updates_snoc, sget_sset. rewrite map_app, in_app_iff in N. cbn in *.
  destruct (String.eqb_spec k k'); [subst; tauto|]. apply IH. tauto.
Qed.
Lemma updates_here w d k v : In (k, v) w -> (forall v', In (k, v') w -> v' = v) -> sget k (updates d w) = Some v.
Proof.
  induction w as [|[k' v'] w IH] using rev_ind; intros I U; [easy|].
  rewrite updates_snoc, sget_sset. cbn. destruct (String.eqb_spec k k').
  - subst. rewrite (U v'); [easy|]. apply in_or_app. right. now left.
  - apply IH; [|intros u Iu; apply U, in_or_app; now left].
    apply in_app_or in I as [I|[[= -> ->]|[]]]; [easy|easy].
Qed.
Lemma updates_inv w d k v : sget k (updates d w) = Some v ->
  In (k, v) w \/ (~ In k (map fst w) /\ sget k d = Some v).
Proof.
  induction w as [|[k' v'] w IH] using rev_ind; intros H; [right; now split|].
  rewrite updates_snoc, sget_sset in H. cbn in H. rewrite map_app, !in_app_iff. cbn. destruct (String.eqb_spec k k').
  - injection H as ->. subst. left. right. now left.
  - apply IH in H as [H|[H1 H2]]; [left; now left|]. right. split; [|easy]. intros [I|[I|[]]]; auto.
Qed.

(** records *)
Lemma shown_label name : shown_name name = label name.
Proof. unfold shown_name, label. destruct (String.eqb_spec name ""); destruct (string_dec name ""); easy. Qed.
Lemma shows_iff t k v : shows t k v <-> In (k, v) (flat_map param_writes (ti_flat t 1)).
Proof.
  rewrite in_flat_map. unfold shows. split.
  - intros (name & value & sigma & I & H). exists (name, value, sigma). split; [easy|]. cbn. rewrite shown_label.
    destruct H as [[-> ->]|[-> ->]]; [now left|]. right. now left.
  - intros ([[name value] sigma] & I & H). exists name, value, sigma. split; [easy|]. cbn in H. rewrite shown_label in H.
    destruct H as [[= -> ->]|H]; [now left|]. destruct sigma; [|easy].
    destruct H as [[= -> ->]|[]]. now right.
Qed.

Definition base_fields session t : list (string * jv) :=
    [("#parametrization"%string, JAtom (ti_parametrization t)); ("#optimizer"%string, JAtom (ti_optimizer t));
     ("#session"%string, JAtom session); ("#num-ask"%string, JAtom (ti_num_ask t));
     ("#num-tell"%string, JAtom (ti_num_tell t)); ("#num-tell-not-asked"%string, JAtom (ti_not_asked t));
     ("#uid"%string, JAtom (ti_uid t)); ("#lineage"%string, JAtom (ti_lineage t));
     ("#generation"%string, JAtom (ti_generation t)); ("#parents_uids"%string, JList []);
     ("#loss"%string, JAtom (ti_loss t))].
Definition more_fields t : list (string * jv) :=
  (if 1 <? List.length (ti_losses t) then
     map (fun kv => (("#losses#" ++ str_nat (fst kv))%string, JAtom (snd kv))) (enum (ti_losses t)) ++
     [("#pareto-length"%string, JAtom (ti_pareto t))] else []) ++
  map (fun xy => (("#optimizer#" ++ fst xy)%string, JAtom (snd xy))) (ti_config t) ++
  (match ti_meta_sigma t with Some s => [("#meta-sigma"%string, JAtom s)] | None => [] end) ++
  (if (1 <? ti_generation t)%Z then [("#parents_uids"%string, JList (map JAtom (ti_parents t)))] else []).
Lemma record_eq session order t :
  record_of session order t = updates (updates (base_fields session t) (more_fields t)) (flat_map param_writes (ti_flat t 1)).
Proof.
  unfold record_of, more_fields. fold (base_fields session t). cbv zeta. f_equal.
  destruct (1 <? List.length (ti_losses t)), (ti_meta_sigma t), (1 <? ti_generation t)%Z;
    rewrite ?app_nil_r, ?app_nil_l, ?updates_app; reflexivity.
Qed.
Lemma in_enum {A} (l : list A) i x : In (i, x) (enum l) <-> nth_error l i = Some x.
Proof.
  unfold enum. enough (G : forall s, In (i, x) (combine (seq s (List.length l)) l) <->
    exists j, i = s + j /\ nth_error l j = Some x).
  { rewrite G. split; [intros (j & -> & H); exact H|intros H; exists i; split; [lia|easy]]. }
  induction l as [|y l IH]; intros s; cbn.
  - split; [easy|]. intros (j & _ & H). now destruct j.
  - rewrite IH. split.
    + intros [[= <- <-]|(j & -> & H)]; [exists 0; split; [lia|easy]|exists (S j); split; [lia|easy]].
    + intros (j & -> & H). destruct j; cbn in H; [injection H as ->; left; f_equal; lia|].
      right. exists j. split; [lia|easy].
Qed.
Lemma app_s_inj a b c : (a ++ b)%string = (a ++ c)%string -> b = c.
Proof. induction a as [|x a IH]; cbn; [easy|]. intros [= E]. auto. Qed.

Lemma in_more t k v : In (k, v) (more_fields t) <->
  (List.length (ti_losses t) > 1 /\ exists i x, nth_error (ti_losses t) i = Some x /\ k = ("#losses#" ++ str_nat i)%string /\ v = JAtom x) \/
  (List.length (ti_losses t) > 1 /\ k = "#pareto-length"%string /\ v = JAtom (ti_pareto t)) \/
  (exists x y, In (x, y) (ti_config t) /\ k = ("#optimizer#" ++ x)%string /\ v = JAtom y) \/
  (exists x, ti_meta_sigma t = Some x /\ k = "#meta-sigma"%string /\ v = JAtom x) \/
  ((ti_generation t > 1)%Z /\ k = "#parents_uids"%string /\ v = JList (map JAtom (ti_parents t))).
Proof.
  unfold more_fields. rewrite !in_app_iff. split.
  - intros [I|[I|[I|I]]].
    + destruct (Nat.ltb_spec 1 (List.length (ti_losses t))) as [L|L]; [|easy].
      apply in_app_or in I as [I|[[= <- <-]|[]]]; [|now right; left].
      apply in_map_iff in I as ([i x] & [= <- <-] & I). apply in_enum in I. left. split; [easy|]. now exists i, x.
    + apply in_map_iff in I as ([x y] & [= <- <-] & I). right. right. left. now exists x, y.
    + destruct (ti_meta_sigma t) as [x|]; [|easy]. destruct I as [[= <- <-]|[]]. right. right. right. left. now exists x.
    + destruct (Z.ltb_spec 1 (ti_generation t)) as [L|L]; [|easy]. destruct I as [[= <- <-]|[]].
      right. right. right. right. split; [lia|easy].
  - intros [(L & i & x & H & -> & ->)|[(L & -> & ->)|[(x & y & I & -> & ->)|[(x & E & -> & ->)|(L & -> & ->)]]]].
    + left. apply Nat.ltb_lt in L. rewrite L. apply in_or_app. left. apply in_map_iff. exists (i, x). split; [easy|].
      now apply in_enum.
    + left. apply Nat.ltb_lt in L. rewrite L. apply in_or_app. right. now left.
    + right. left. apply in_map_iff. now exists (x, y).
    + right. right. left. rewrite E. now left.
    + right. right. right. destruct (Z.ltb_spec 1 (ti_generation t)); [now left|lia].
Qed.

Lemma fields_hold session t k v : NoDup (map fst (ti_config t)) -> field session t k v ->
  sget k (updates (base_fields session t) (more_fields t)) = Some v.
Proof.
  intros N F.
  assert (B : (forall v', ~ In (k, v') (more_fields t)) -> sget k (base_fields session t) = Some v ->
    sget k (updates (base_fields session t) (more_fields t)) = Some v).
  { intros X E. rewrite updates_other; [easy|]. intros I. apply in_map_iff in I as ([k' v'] & Ek & I). cbn in Ek.
    subst k'. now apply (X v'). }
  destruct F;
    try (apply B; [|reflexivity]; intros v' I; apply in_more in I;
         destruct I as [(_ & i & x & _ & E & _)|[(_ & E & _)|[(x & y & _ & E & _)|[(x & _ & E & _)|(L & E & _)]]]];
         cbn in E; try discriminate; lia);
    apply updates_here; try (apply in_more; eauto 10; fail);
    try (intros v' I; apply in_more in I;
         destruct I as [(_ & i' & x' & H' & E & ->)|[(_ & E & ->)|[(x' & y' & I' & E & ->)|[(x' & H' & E & ->)|(L & E & ->)]]]];
         try discriminate E; try reflexivity; try congruence).
  - change (("#losses#" ++ str_nat i)%string = ("#losses#" ++ str_nat i')%string) in E.
    apply app_s_inj, str_nat_inj in E. subst. congruence.
  - apply app_s_inj in E. subst x'. apply (sget_iff _ (ti_config t)) in H, I'; try easy. congruence.
Qed.
Lemma fields_only session t k v : sget k (updates (base_fields session t) (more_fields t)) = Some v -> field session t k v.
Proof.
  intros H. apply updates_inv in H as [H|[N H]].
  - apply in_more in H as [(L & i & x & H & -> & ->)|[(L & -> & ->)|[(x & y & I & -> & ->)|[(x & E & -> & ->)|(L & -> & ->)]]]];
      now constructor.
  - apply sget_in in H. cbn in H. repeat (destruct H as [[= <- <-]|H]; [try constructor|]); [|easy].
    destruct (Z.ltb_spec 1 (ti_generation t)) as [L|L]; [|exact L].
    exfalso. apply N. apply in_map_iff. eexists. split; [|apply in_more; do 4 right; repeat split; lia]. easy.
Qed.

(** the file *)
Section JvInd.
Variable P : jv -> Prop.
Hypothesis HA : forall a, P (JAtom a).
Hypothesis HB : P JBad.
Hypothesis HL : forall l, Forall P l -> P (JList l).
Fixpoint jv_ind' (v : jv) : P v :=
  match v with
  | JAtom a => HA a
  | JBad => HB
  | JList l => HL l ((fix go l : Forall P l :=
      match l with [] => Forall_nil _ | x :: l' => Forall_cons x (jv_ind' x) (go l') end) l)
  end.
End JvInd.
Lemma dumpable_iff v : dumpable v = true <-> plain_data v.
Proof.
  induction v as [a| |l IH] using jv_ind'; cbn; [tauto|intuition discriminate|].
  induction IH as [|x l Hx _ IH]; cbn; [tauto|]. rewrite Bool.andb_true_iff. tauto.
Qed.
Lemma writable_iff rec : forallb (fun kv => dumpable (snd kv)) rec = true <-> writable rec.
Proof.
  unfold writable. rewrite forallb_forall. split.
  - intros H k v I. apply dumpable_iff. apply (H (k, v) I).
  - intros H [k v] I. apply dumpable_iff. now apply (H k).
Qed.
Lemma lines_exist evs : exists out, lines_of evs out.
Proof.
  induction evs as [|[a|s o t] evs [out IH]]; [eexists; constructor|exists out; now constructor|].
  destruct (forallb (fun kv => dumpable (snd kv)) (record_of s o t)) eqn:E.
  - exists (record_of s o t :: out). constructor; [now apply writable_iff|easy].
  - exists out. apply lines_bad; [|easy]. rewrite <- writable_iff. now rewrite E.
Qed.
Lemma run_lines evs : ~ In (Create false) evs -> forall out, lines_of evs out ->
  forall f, load (run evs f) = load f ++ out.
Proof.
  intros N out H. induction H as [|a evs out H IH|s o t evs out W H IH|s o t evs out W H IH]; intros f.
  - cbn. now rewrite app_nil_r.
  - destruct a; [|exfalso; apply N; now left]. change (run (Create true :: evs) f) with (run evs (create true f)).
    rewrite IH by (intros I; apply N; now right). now destruct f.
  - change (run (Told s o t :: evs) f) with (run evs (write (record_of s o t) f)).
    rewrite IH by (intros I; apply N; now right). apply writable_iff in W. unfold write. rewrite W. cbn [load].
    rewrite <- app_assoc. now destruct f.
  - change (run (Told s o t :: evs) f) with (run evs (write (record_of s o t) f)).
    rewrite IH by (intros I; apply N; now right). rewrite <- writable_iff in W. unfold write.
    destruct (forallb _ (record_of s o t)); [easy|]. now destruct f.
Qed.
Lemma run_app a b f : run (a ++ b) f = run b (run a f).
Proof. apply fold_left_app. Qed.

(** flattening *)
Fixpoint leaves_from (i : nat) (l : list jv) : list (list nat * Z) :=
  match l with
  | [] => []
  | x :: l' => map (fun pa => (i :: fst pa, snd pa)) (leaves x) ++ leaves_from (S i) l'
  end.
Lemma leaves_list l : leaves (JList l) = leaves_from 0 l.
Proof. cbn. generalize 0. induction l as [|x l IH]; intros i; [easy|]. cbn. now rewrite IH. Qed.
Lemma leaves_size v : List.length (leaves v) = size v.
Proof.
  induction v as [a| |l IH] using jv_ind'; try easy. rewrite leaves_list. generalize 0.
  induction IH as [|x l Hx _ IH]; intros i; [easy|]. cbn. rewrite app_length, map_length, Hx, IH. reflexivity.
Qed.
Lemma elt_leaves v : forall p a, elt v p = Some a -> nth_error (leaves v) (rank v p) = Some (p, a).
Proof.
  induction v as [b| |l IH] using jv_ind'; intros p a H.
  - destruct p; [|easy]. cbn in *. congruence.
  - now destruct p.
  - destruct p as [|i p]; [easy|]. rewrite leaves_list. cbn [elt rank] in *.
    destruct (nth_error l i) as [x|] eqn:E; [|easy].
    enough (G : forall s, nth_error (leaves_from s l) (list_sum (map size (firstn i l)) + rank x p) = Some (s + i :: p, a))
      by apply (G 0).
    revert i E. induction IH as [|y l Hy _ IH]; intros i E s; [now destruct i|].
    destruct i as [|i]; cbn [nth_error firstn map leaves_from] in *.
    + injection E as ->. specialize (Hy p a H). rewrite nth_error_app1.
      * cbn. erewrite map_nth_error by eassumption. cbn. do 3 f_equal. lia.
      * rewrite map_length. apply nth_error_Some. cbn. congruence.
    + change (list_sum (size y :: map size (firstn i l))) with (size y + list_sum (map size (firstn i l))).
      rewrite nth_error_app2; rewrite map_length, leaves_size; [|lia].
      replace (size y + list_sum (map size (firstn i l)) + rank x p - size y)
        with (list_sum (map size (firstn i l)) + rank x p) by lia.
      rewrite (IH i E (S s)). do 3 f_equal. lia.
Qed.
Lemma leaves_elt v : forall p a, In (p, a) (leaves v) -> elt v p = Some a.
Proof.
  induction v as [b| |l IH] using jv_ind'; intros p a H.
  - destruct H as [[= <- <-]|[]]. easy.
  - easy.
  - rewrite leaves_list in H. 
    enough (G : forall s, In (p, a) (leaves_from s l) -> exists i q x, p = s + i :: q /\ nth_error l i = Some x /\ elt x q = Some a).
    { destruct (G 0 H) as (i & q & x & -> & E & F). cbn. now rewrite E. }
    clear H. induction IH as [|y l Hy _ IH]; intros s H; [easy|]. cbn in H. apply in_app_or in H as [H|H].
    + apply in_map_iff in H as ([q b] & [= <- <-] & H). exists 0, q, y. split; [f_equal; cbn; lia|]. split; [easy|]. now apply Hy.
    + destruct (IH _ H) as (i & q & x & -> & E & F). exists (S i), q, x. split; [f_equal; cbn; lia|now split].
Qed.
Lemma leaf_rank v p a k : nth_error (leaves v) k = Some (p, a) -> rank v p = k.
Proof.
  revert p a k. induction v as [b| |l IH] using jv_ind'; intros p a k H.
  - cbn in H. destruct k as [|k]; [injection H as <- <-; easy|]. cbn in H. now destruct k.
  - now destruct k.
  - rewrite leaves_list in H.
    enough (G : forall s k, nth_error (leaves_from s l) k = Some (p, a) -> exists i q x, p = s + i :: q /\ nth_error l i = Some x /\
      list_sum (map size (firstn i l)) + rank x q = k).
    { destruct (G 0 k H) as (i & q & x & -> & E & F). cbn. rewrite E. exact F. }
    clear H k. induction IH as [|y l Hy _ IH]; intros s k H; [now destruct k|]. cbn in H.
    destruct (Nat.lt_ge_cases k (size y)) as [L|L].
    + rewrite nth_error_app1 in H by now rewrite map_length, leaves_size.
      rewrite nth_error_map in H. destruct (nth_error (leaves y) k) as [[q b]|] eqn:E; [|easy].
      injection H as <- <-. exists 0, q, y. split; [f_equal; cbn; lia|]. split; [easy|]. cbn. now apply Hy in E.
    + rewrite nth_error_app2 in H; rewrite map_length, leaves_size in *; [|easy].
      destruct (IH _ _ H) as (i & q & x & -> & E & F). exists (S i), q, x. split; [f_equal; cbn; lia|]. split; [easy|].
      cbn. fold (list_sum (map size (firstn i l))). lia.
Qed.
Lemma shape_paths v : forall s p a, shape v = Some s -> elt v p = Some a -> List.length p = List.length s.
Proof.
  induction v as [b| |l IH] using jv_ind'; intros s p a E H.
  - injection E as <-. now destruct p.
  - easy.
  - destruct p as [|i p]; [easy|]. cbn [elt] in H. destruct (nth_error l i) as [x|] eqn:Ei; [|easy].
    destruct l as [|y l]; [now destruct i|]. cbn [shape] in E. destruct (shape y) as [s0|] eqn:Ey; [|easy].
    destruct (forallb _ l) eqn:F; [|easy]. injection E as <-. cbn. f_equal.
    rewrite forallb_forall in F.
    assert (X : shape x = Some s0).
    { destruct i as [|i]; [cbn in Ei; congruence|]. cbn in Ei. apply nth_error_In in Ei. specialize (F _ Ei).
      destruct (shape x) as [s'|]; [|easy]. destruct (list_eq_dec Nat.eq_dec s0 s'); [congruence|easy]. }
    rewrite Forall_forall in IH. apply nth_error_In in Ei. now apply (IH x Ei s0 p a).
Qed.

Lemma in_firstn {A} (l : list A) m x : In x (firstn m l) <-> exists k, k < m /\ nth_error l k = Some x.
Proof.
  split.
  - intros I. apply In_nth_error in I as (k & E). exists k.
    assert (L : k < List.length (firstn m l)) by (apply nth_error_Some; congruence).
    rewrite firstn_length in L. split; [lia|]. rewrite <- E. symmetry. rewrite <- (firstn_skipn m l) at 2.
    rewrite nth_error_app1; [easy|]. rewrite firstn_length. lia.
  - intros (k & L & E). apply nth_error_In with (n := k). rewrite <- E. rewrite <- (firstn_skipn m l) at 2.
    rewrite nth_error_app1; [easy|]. rewrite firstn_length. apply Nat.min_glb_lt; [easy|].
    apply nth_error_Some. congruence.
Qed.

Definition elt_writes (max : nat) (lists : list (string * jv)) : list (string * jv) :=
  flat_map (fun kv => map (fun pa => (elt_key (fst kv) (fst pa), JAtom (snd pa))) (firstn max (leaves (snd kv)))) lists.
Lemma in_writes max lists k u : In (k, u) (elt_writes max lists) <->
  exists key v p a, In (key, v) lists /\ elt v p = Some a /\ rank v p < max /\ k = elt_key key p /\ u = JAtom a.
Proof.
  unfold elt_writes. rewrite in_flat_map. split.
  - intros ([key v] & I & H). cbn in H. apply in_map_iff in H as ([p a] & [= <- <-] & H).
    apply in_firstn in H as (j & L & E). exists key, v, p, a. split; [easy|]. split; [apply leaves_elt; now apply nth_error_In in E|].
    rewrite (leaf_rank _ _ _ _ E). now repeat split.
  - intros (key & v & p & a & I & E & L & -> & ->). exists (key, v). split; [easy|]. cbn. apply in_map_iff. exists (p, a).
    split; [easy|]. apply in_firstn. exists (rank v p). split; [easy|]. now apply elt_leaves.
Qed.
Lemma flat_record_ok order max rec r : (forall l, Permutation l (order l)) -> NoDup (map fst rec) ->
  flat_record order max rec = Ok r ->
  (forall k v, sget k rec = Some v -> is_list v = true -> exists s, shape v = Some s) /\
  (forall key v p a, sget key rec = Some v -> is_list v = true -> elt v p = Some a -> rank v p < max ->
     sget (elt_key key p) r = Some (JAtom a)) /\
  (forall k v, sget k rec = Some v -> is_list v = false ->
     (forall key l p a, sget key rec = Some l -> is_list l = true -> elt l p = Some a -> rank l p < max -> k <> elt_key key p) ->
     sget k r = Some v) /\
  (forall k u, sget k r = Some u ->
     (is_list u = false /\ sget k rec = Some u) \/
     exists key v p a, sget key rec = Some v /\ is_list v = true /\ elt v p = Some a /\ rank v p < max /\
       k = elt_key key p /\ u = JAtom a).
Proof.
  intros P N H. unfold flat_record in H.
  set (lists := order _) in H. set (plain := filter (fun kv => negb (is_list (snd kv))) rec) in H.
  destruct (forallb _ lists) eqn:F; [|easy]. injection H as <-. fold (elt_writes max lists).
  assert (IL : forall k v, In (k, v) lists <-> sget k rec = Some v /\ is_list v = true).
  { intros k v. rewrite (sget_iff k rec v N). unfold lists. split.
    - intros I. apply (Permutation_in _ (Permutation_sym (P _))) in I. now apply filter_In in I.
    - intros I. apply (Permutation_in _ (P _)). now apply filter_In. }
  assert (IP : forall k v, sget k plain = Some v <-> sget k rec = Some v /\ is_list v = false).
  { intros k v. rewrite (sget_iff k rec v N), sget_iff.
    - unfold plain. rewrite filter_In. cbn. now destruct (is_list v).
    - unfold plain. clear -N. induction rec as [|[a b] rec IH]; cbn in *; [constructor|]. inversion N; subst.
      destruct (is_list b); cbn; [auto|]. constructor; [|auto]. intros I. apply H1.
      apply in_map_iff in I as (x & E & I). apply filter_In in I as [I _]. apply in_map_iff. now exists x. }
  assert (SH : forall k v, sget k rec = Some v -> is_list v = true -> exists s, shape v = Some s).
  { intros k v E L. rewrite forallb_forall in F. specialize (F (k, v)). cbn in F.
    destruct (shape v) as [s|]; [now exists s|]. discriminate F. now apply IL. }
  split; [exact SH|]. repeat split.
  - intros key v p a E L Ee R. apply updates_here.
    + apply in_writes. exists key, v, p, a. rewrite IL. now repeat split.
    + intros u I. apply in_writes in I as (key' & v' & p' & a' & I' & E' & R' & K & ->). apply IL in I' as [I1 I2].
      apply elt_key_inj in K as [-> K]. assert (v' = v) by congruence. subst v'.
      destruct (SH _ _ E L) as [s Hs]. apply join_inj in K.
      * subst. congruence.
      * now rewrite (shape_paths _ _ _ _ Hs E'), (shape_paths _ _ _ _ Hs Ee).
  - intros k v E L D. rewrite updates_other; [now apply IP|]. intros I. apply in_map_iff in I as ([k' u] & <- & I).
    apply in_writes in I as (key & l & p & a & I & Ee & R & K & ->). apply IL in I as [I1 I2].
    now apply (D key l p a).
  - intros k u H. apply updates_inv in H as [H|[_ H]].
    + apply in_writes in H as (key & v & p & a & I & E & R & -> & ->). apply IL in I as [I1 I2]. right.
      exists key, v, p, a. now repeat split.
    + apply IP in H. left. tauto.
Qed.
Lemma flat_record_total order max rec : (forall l, Permutation l (order l)) ->
  (forall k v, In (k, v) rec -> is_list v = true -> shape v <> None) -> exists r, flat_record order max rec = Ok r.
Proof.
  intros P H. unfold flat_record. destruct (forallb _ (order _)) eqn:F; [eauto|]. exfalso.
  apply Bool.not_true_iff_false in F. apply F. apply forallb_forall. intros [k v] I.
  apply (Permutation_in _ (Permutation_sym (P _))) in I. apply filter_In in I as [I L]. cbn in *.
  specialize (H k v I L). destruct (shape v); [easy|congruence].
Qed.
Lemma record_nodup s o t : NoDup (map fst (record_of s o t)).
Proof.
  assert (U : forall w d, NoDup (map fst d) -> NoDup (map fst (updates d w))).
  { induction w as [|[k v] w IH]; intros d N; [easy|]. cbn. apply IH. now apply sset_nodup. }
  rewrite record_eq. apply U, U. unfold base_fields. cbn.
  repeat (constructor; [cbn; intuition discriminate|]). constructor.
Qed.
Fixpoint cut (s : list nat) : list nat :=
  match s with [] => [] | 0 :: _ => [0] | S n :: s' => S n :: cut s' end.
Lemma rect_shape v : forall s, rectangular s v -> shape v = Some (cut s).
Proof.
  induction v as [a| |l IH] using jv_ind'; intros s H.
  - now inversion H.
  - inversion H.
  - inversion H as [|s' l' R E]; subst. destruct l as [|x l]; [easy|]. cbn [shape List.length cut].
    rewrite Forall_forall in IH.
    rewrite (IH x (or_introl eq_refl) s'); [|apply R; now left].
    replace (forallb _ l) with true; [easy|]. symmetry. apply forallb_forall. intros y I.
    rewrite (IH y (or_intror I) s'); [|apply R; now right]. now destruct (list_eq_dec Nat.eq_dec (cut s') (cut s')).
Qed.
Lemma flat_records_two order max data rs : flat_records order max data = Ok rs ->
  Forall2 (fun rec r => flat_record order max rec = Ok r) data rs.
Proof.
  revert rs. induction data as [|rec data IH]; intros rs H; cbn in H; [injection H as <-; constructor|].
  destruct (flat_record order max rec) eqn:E; [|easy]. cbn in H. destruct (flat_records order max data); [|easy].
  injection H as <-. constructor; auto.
Qed.
Lemma run_nodup evs f : Forall (fun rec => NoDup (map fst rec)) (load f) ->
  Forall (fun rec => NoDup (map fst rec)) (load (run evs f)).
Proof.
  revert f. induction evs as [|e evs IH]; intros f H; [easy|]. apply IH. destruct e as [[|]|s o t]; cbn.
  - now destruct f.
  - destruct f; constructor.
  - unfold write. destruct (forallb _ _); cbn; destruct f; cbn in *; auto.
    + apply Forall_app. split; [easy|]. repeat constructor. apply record_nodup.
    + repeat constructor. apply record_nodup.
Qed.

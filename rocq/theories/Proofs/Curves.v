(** Lemmas about the curves of experiments. *)
From Coq Require Import Bool Arith List String Ascii ZArith QArith Lia Lqa Sorting.Permutation Sorting.Sorted.
From Verif Require Import Model.Prelude Model.MultiValue Model.Planning Model.Pruning Model.Curves Spec.Curves
  Proofs.MultiValue Proofs.Pruning.
Import ListNotations.
Open Scope nat_scope.
Open Scope list_scope.

Lemma zadd_in b l x : In x (zadd b l) <-> x = b \/ In x l.
Proof.
  induction l as [|c l IH]; cbn; [intuition|]. destruct (Z.ltb_spec b c); [cbn; intuition|].
  destruct (Z.eqb_spec b c); cbn; [subst; intuition|]. rewrite IH. intuition.
Qed.
Lemma zadd_sorted b l : StronglySorted Z.lt l -> StronglySorted Z.lt (zadd b l).
Proof.
  induction 1 as [|c l S IH F]; cbn; [repeat constructor|]. destruct (Z.ltb_spec b c).
  - constructor; [now constructor|]. constructor; [easy|]. rewrite Forall_forall in *. intros x I. specialize (F x I). lia.
  - destruct (Z.eqb_spec b c); [now constructor|]. constructor; [easy|]. rewrite Forall_forall in *. intros x I.
    apply zadd_in in I as [->|I]; [lia|auto].
Qed.
Lemma budgets_sorted o rows : StronglySorted Z.lt (budgets o rows).
Proof. unfold budgets. induction (map r_budget _) as [|b l IH]; cbn; [constructor|now apply zadd_sorted]. Qed.
Lemma budgets_in o rows b : In b (budgets o rows) <-> exists r, In r rows /\ r_opt r = o /\ r_budget r = b.
Proof.
  unfold budgets. assert (G : forall l, In b (fold_right zadd [] l) <-> In b l).
  { induction l as [|c l IH]; cbn; [tauto|]. rewrite zadd_in, IH. intuition. }
  rewrite G, in_map_iff. split.
  - intros (r & E & I). apply filter_In in I as [I E2]. apply String.eqb_eq in E2. exists r. auto.
  - intros (r & I & E & E2). exists r. split; [easy|]. apply filter_In. split; [easy|]. now apply String.eqb_eq.
Qed.
Lemma losses_group o b rows : group_losses o b rows (losses o b rows).
Proof.
  induction rows as [|[o' b' x] rows IH]; cbn; [constructor|].
  destruct (String.eqb_spec o o'); cbn [andb]; [|apply gl_skip; [easy|left; cbn; congruence]].
  destruct (Z.eqb_spec b b'); [|apply gl_skip; [easy|right; left; cbn; congruence]].
  subst. destruct x; [now apply gl_take|]. apply gl_skip; [easy|]. now right; right.
Qed.
Lemma median_spec l : (l = [] /\ median l = None) \/ exists m, median l = Some m /\ is_median l m.
Proof.
  unfold median. pose proof (Permutation_length (qsort_perm l)) as E. destruct l as [|x l].
  - left. split; reflexivity.
  - right. rewrite E. set (n := List.length (x :: l)) in *.
    assert (N : 0 < n) by (cbn in n; lia).
    assert (A : (n - 1) / 2 < n) by (apply Nat.div_lt_upper_bound; lia).
    assert (B : n / 2 < n) by (apply Nat.div_lt_upper_bound; lia).
    rewrite <- E in A, B. apply nth_error_Some in A, B.
    destruct (nth_error (qsort (x :: l)) ((n - 1) / 2)) as [a|] eqn:Ea; [|congruence].
    destruct (nth_error (qsort (x :: l)) (n / 2)) as [c|] eqn:Ec; [|congruence].
    eexists. split; [reflexivity|]. exists (qsort (x :: l)), a, c. split; [apply qsort_perm|]. split; [apply qsort_sorted|]. split; [easy|]. split; [easy|reflexivity].
Qed.
Lemma mean_spec l : (l = [] /\ mean l = None) \/ exists m, mean l = Some m /\ is_mean l m.
Proof.
  destruct l as [|x l]; [now left|right]. eexists. split; [reflexivity|]. unfold is_mean, qnat.
  assert (0 < inject_Z (Z.of_nat (List.length (x :: l))))%Q by (rewrite <- (Zlt_Qlt 0); cbn [List.length]; lia).
  field. lra.
Qed.
Lemma variance_spec l : (List.length l <= 1 /\ variance l = None) \/ exists v, variance l = Some v /\ is_variance l v.
Proof.
  unfold variance. destruct (mean_spec l) as [[-> E]|(m & E & M)]; rewrite E; [left; cbn; split; [lia|easy]|].
  destruct (Nat.leb_spec (List.length l) 1); [now left|right]. eexists. split; [reflexivity|]. exists m. split; [easy|]. unfold qnat.
  assert (0 < inject_Z (Z.of_nat (List.length l - 1)))%Q by (rewrite <- (Zlt_Qlt 0); lia).
  field. lra.
Qed.

(** best performances *)
Lemma bget_bset b v d c : bget c (bset b v d) = if (c =? b)%Z then v else bget c d.
Proof.
  induction d as [|[e w] d IH]; cbn; [reflexivity|]. destruct (Z.eqb_spec b e).
  - subst. cbn. destruct (Z.eqb_spec c e); easy.
  - cbn. rewrite IH. destruct (Z.eqb_spec c e); [|easy]. subst. destruct (Z.eqb_spec e b); [congruence|easy].
Qed.
Lemma bset_keys b v d c : In c (map fst (bset b v d)) <-> c = b \/ In c (map fst d).
Proof.
  induction d as [|[e w] d IH]; cbn; [intuition|]. destruct (Z.eqb_spec b e); cbn.
  - subst. intuition.
  - rewrite IH. intuition.
Qed.
Lemma bset_nodup b v d : NoDup (map fst d) -> NoDup (map fst (bset b v d)).
Proof.
  induction d as [|[e w] d IH]; cbn; intros N; [repeat constructor; easy|]. inversion N; subst.
  destruct (Z.eqb_spec b e); cbn; [now constructor|]. constructor; [|auto]. rewrite bset_keys. intros [->|I]; auto.
Qed.

(** the order of the points *)
Definition flat (vals : list (string * list point)) : list (string * point) :=
  flat_map (fun oc => map (fun p => (fst oc, p)) (snd oc)) vals.
Definition fstep (d : list entry) (op : string * point) : list entry := txt_step (fst op) d (snd op).
Lemma save_flat vals : save_txt vals = fold_left fstep (flat vals) [].
Proof.
  unfold save_txt. generalize (@nil entry). induction vals as [|[o c] vals IH]; intros d; [easy|].
  cbn [fold_left fst snd flat flat_map]. rewrite fold_left_app. fold (flat vals). rewrite IH. f_equal.
  clear. revert d. induction c as [|p c IH]; intros d; [easy|]. cbn. apply IH.
Qed.
(** what is known of the entry of budget b after some points *)
Definition good (b : Z) (ops : list (string * point)) (v : option Q * string) : Prop :=
  (fst v = None /\ snd v = "none"%string /\ forall o p, In (o, p) ops -> p_budget p = b -> p_loss p = None) \/
  (exists x o p before after, v = (Some x, o) /\ ops = before ++ (o, p) :: after /\ p_budget p = b /\ p_loss p = Some x /\
     (forall o' p' y, In (o', p') ops -> p_budget p' = b -> p_loss p' = Some y -> (x <= y)%Q) /\
     (forall o' p' y, In (o', p') before -> p_budget p' = b -> p_loss p' = Some y -> (x < y)%Q)).
Lemma step_get d op b : bget b (fstep d op) =
  if (b =? p_budget (snd op))%Z && below (p_loss (snd op)) (fst (bget b d)) then (p_loss (snd op), fst op) else bget b d.
Proof.
  unfold fstep, txt_step. destruct op as [o p]. cbn [fst snd]. destruct (Z.eqb_spec b (p_budget p)) as [->|N]; cbn [andb].
  - destruct (below _ _); rewrite !bget_bset, Z.eqb_refl; easy.
  - assert (E : (b =? p_budget p)%Z = false) by now apply Z.eqb_neq.
    destruct (below _ _); rewrite !bget_bset, ?E; easy.
Qed.
Lemma good_run ops b : good b ops (bget b (fold_left fstep ops [])).
Proof.
  induction ops as [|[o p] ops IH] using rev_ind; [left; now repeat split|].
  rewrite fold_left_app. cbn [fold_left]. rewrite step_get. cbn [fst snd].
  set (v := bget b (fold_left fstep ops [])) in *. clearbody v.
  destruct (Z.eqb_spec b (p_budget p)) as [Eb|Nb]; cbn [andb].
  - destruct IH as [(H1 & H2 & H3)|(x & o0 & p0 & bef & aft & -> & E & B0 & L0 & H1 & H2)].
    + rewrite H1. destruct (p_loss p) as [y|] eqn:Ep; cbn [below].
      * right. exists y, o, p, ops, []. split; [easy|]. split; [easy|]. split; [easy|]. split; [easy|]. split.
        -- intros o' p' z I B L. apply in_app_or in I as [I|[[= <- <-]|[]]]; [now rewrite (H3 _ _ I B) in L|].
           rewrite Ep in L. injection L as ->. apply Qle_refl.
        -- intros o' p' z I B L. now rewrite (H3 _ _ I B) in L.
      * left. split; [easy|]. split; [easy|]. intros o' p' I B. apply in_app_or in I as [I|[[= <- <-]|[]]]; [now apply (H3 o')|easy].
    + cbn [fst]. destruct (p_loss p) as [y|] eqn:Ep; cbn [below].
      * destruct (qlt y x) eqn:Q.
        -- apply qlt_iff in Q. right. exists y, o, p, ops, []. split; [easy|]. split; [easy|]. split; [easy|]. split; [easy|]. split.
           ++ intros o' p' z I B L. apply in_app_or in I as [I|[[= <- <-]|[]]].
              ** specialize (H1 _ _ _ I B L). lra.
              ** rewrite Ep in L. injection L as ->. apply Qle_refl.
           ++ intros o' p' z I B L. specialize (H1 _ _ _ I B L). lra.
        -- apply qlt_false in Q. right. exists x, o0, p0, bef, (aft ++ [(o, p)]). split; [easy|]. split; [now rewrite E, <- app_assoc|].
           split; [easy|]. split; [easy|]. split; [|easy].
           intros o' p' z I B L. apply in_app_or in I as [I|[[= <- <-]|[]]]; [now apply (H1 o' p')|].
           rewrite Ep in L. injection L as <-. easy.
      * right. exists x, o0, p0, bef, (aft ++ [(o, p)]). split; [easy|]. split; [now rewrite E, <- app_assoc|].
        split; [easy|]. split; [easy|]. split; [|easy].
        intros o' p' z I B L. apply in_app_or in I as [I|[[= <- <-]|[]]]; [now apply (H1 o' p')|congruence].
  - destruct IH as [(H1 & H2 & H3)|(x & o0 & p0 & bef & aft & -> & E & B0 & L0 & H1 & H2)].
    + left. split; [easy|]. split; [easy|]. intros o' p' I B. apply in_app_or in I as [I|[[= <- <-]|[]]]; [now apply (H3 o')|congruence].
    + right. exists x, o0, p0, bef, (aft ++ [(o, p)]). split; [easy|]. split; [now rewrite E, <- app_assoc|].
      split; [easy|]. split; [easy|]. split; [|easy].
      intros o' p' z I B L. apply in_app_or in I as [I|[[= <- <-]|[]]]; [now apply (H1 o' p')|congruence].
Qed.
Lemma keys_run ops : NoDup (map fst (fold_left fstep ops [])) /\
  forall b, In b (map fst (fold_left fstep ops [])) <-> exists o p, In (o, p) ops /\ p_budget p = b.
Proof.
  induction ops as [|[o p] ops [IH1 IH2]] using rev_ind.
  - cbn. split; [constructor|]. intros b. split; [easy|]. now intros (o & p & [] & _).
  - rewrite fold_left_app. cbn [fold_left]. set (d := fold_left fstep ops []) in *. clearbody d.
    unfold fstep, txt_step. cbn [fst snd]. split.
    + destruct (below _ _); repeat apply bset_nodup; easy.
    + intros b. assert (K : In b (map fst (if below (p_loss p) (fst (bget (p_budget p) d))
          then bset (p_budget p) (p_loss p, o) (bset (p_budget p) (bget (p_budget p) d) d)
          else bset (p_budget p) (bget (p_budget p) d) d)) <-> b = p_budget p \/ In b (map fst d)).
      { destruct (below _ _); rewrite ?bset_keys; tauto. }
      rewrite K, IH2. split.
      * intros [->|(o' & p' & I & E)]; [exists o, p; split; [apply in_or_app; right; now left|easy]|].
        exists o', p'. split; [apply in_or_app; now left|easy].
      * intros (o' & p' & I & E). apply in_app_or in I as [I|[[= <- <-]|[]]]; [right; now exists o', p'|now left].
Qed.
Lemma bget_in b v d : NoDup (map fst d) -> In (b, v) d -> bget b d = v.
Proof.
  induction d as [|[c w] d IH]; cbn; intros N I; [easy|]. inversion N; subst. destruct I as [[= -> ->]|I].
  - now rewrite Z.eqb_refl.
  - destruct (Z.eqb_spec b c); [|auto]. subst. exfalso. apply H1. apply in_map_iff. now exists (c, v).
Qed.
Lemma flat_in vals o p : In (o, p) (flat vals) <-> exists c, In (o, c) vals /\ In p c.
Proof.
  unfold flat. rewrite in_flat_map. split.
  - intros ([o' c] & I & H). cbn in H. apply in_map_iff in H as (p' & [= -> ->] & H). now exists c.
  - intros (c & I & H). exists (o, c). split; [easy|]. cbn. apply in_map_iff. now exists p.
Qed.

(** ranking *)
Lemma dinsert_perm x l : Permutation (dinsert x l) (x :: l).
Proof. induction l as [|y l IH]; cbn; [easy|]. destruct (qle _ _); [easy|]. rewrite IH. apply perm_swap. Qed.
Lemma ranking_perm l : Permutation (ranking l) l.
Proof. induction l as [|x l IH]; cbn; [easy|]. now rewrite dinsert_perm, IH. Qed.
Definition worse (x y : string * Q) : Prop := (snd y <= snd x)%Q.
Lemma dinsert_sorted x l : StronglySorted worse l -> StronglySorted worse (dinsert x l).
Proof.
  induction 1 as [|y l S IH F]; cbn; [repeat constructor|]. unfold worse in *. destruct (qle (snd y) (snd x)) eqn:E.
  - apply qle_iff in E. constructor; [now constructor|]. constructor; [easy|]. rewrite Forall_forall in *. intros z I. specialize (F z I). lra.
  - apply qle_false in E. constructor; [easy|]. rewrite Forall_forall in *. intros z I.
    apply (Permutation_in _ (dinsert_perm x l)) in I as [<-|I]; [lra|auto].
Qed.
Lemma ranking_sorted l : StronglySorted worse (ranking l).
Proof. induction l as [|x l IH]; cbn; [constructor|now apply dinsert_sorted]. Qed.
Lemma sorted_split l a b x y : StronglySorted worse l -> l = a ++ b -> In x a -> In y b -> worse x y.
Proof.
  intros S ->. revert S. induction a as [|z a IH]; cbn; intros S Ia Ib; [easy|]. inversion S as [|? ? S' F]; subst. destruct Ia as [->|Ia].
  - rewrite Forall_forall in F. apply F. apply in_or_app. now right.
  - now apply IH.
Qed.

(** titles *)
Lemma comma_in t i j : In j (comma_indices i t) <-> exists k, j = i + k /\ nth_error t k = Some ","%char.
Proof.
  revert i. induction t as [|c t IH]; intros i; cbn.
  - split; [easy|]. intros (k & _ & H). now destruct k.
  - destruct (Ascii.eqb_spec c ","); cbn; rewrite IH; split.
    + intros [<-|(k & -> & H)]; [exists 0; split; [lia|cbn; congruence]|exists (S k); split; [lia|easy]].
    + intros (k & -> & H). destruct k as [|k]; [left; lia|right; exists k; split; [lia|easy]].
    + intros (k & -> & H). exists (S k). split; [lia|easy].
    + intros (k & -> & H). destruct k as [|k]; [cbn in H; congruence|]. exists k. split; [lia|easy].
Qed.
Lemma closest_spec m l best : (closest m best l = best \/ In (closest m best l) l) /\
  absdiff (closest m best l) m <= absdiff best m /\ forall i, In i l -> absdiff (closest m best l) m <= absdiff i m.
Proof.
  revert best. induction l as [|j l IH]; intros best; cbn [closest In]; [split; [now left|]; split; [lia|easy]|].
  destruct (Nat.ltb_spec (absdiff j m) (absdiff best m)).
  - destruct (IH j) as (A & B & C). split; [destruct A as [->|A]; right; [now left|now right]|]. split; [lia|].
    intros i [<-|I]; [easy|auto].
  - destruct (IH best) as (A & B & C). split; [destruct A as [->|A]; [now left|right; now right]|]. split; [easy|].
    intros i [<-|I]; [lia|auto].
Qed.

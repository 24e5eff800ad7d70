From Coq Require Import List Arith ZArith QArith Bool Lia Permutation.
From Verif.Model Require Import Prelude MultiValue Layers Param.
From Verif.Spec Require Import Layers Param.
From Verif.Proofs Require Import Prelude MultiValue LayerValues ParamBase.
Import ListNotations.
Open Scope nat_scope.

(** * One data *)
Definition dinv (d : ldata) : Prop := exists n c st, stack_ok n c st /\ ld_inv n c st d.
Definition raw (d : ldata) : list Q := rt_value (ld_root d).
Definition dden (d : ldata) : list Q := den (ld_bounds d) (tl (ld_stack d)) (raw d).
(** the values of scalars are numbers, those of arrays are arrays *)
Definition shaped (d : ldata) (v : pval) : Prop :=
  match hd LArray (ld_stack d) with LScalar => exists q, v = VNum q | _ => exists l, v = VArr l end.

Lemma with_frozen_id d : with_frozen (rt_frozen (ld_root d)) d = d.
Proof. now destruct d as [s c [x f]]. Qed.
Lemma dinv_frozen b d : dinv d -> dinv (with_frozen b d).
Proof. intros (n & c & st & H1 & H2). exists n, c, st. split; [easy|]. exact H2. Qed.
Lemma frozen_dinv b d : dinv (with_frozen b d) -> dinv d.
Proof. intros (n & c & st & H1 & H2). exists n, c, st. split; [easy|]. exact H2. Qed.
Lemma del_dinv d : dinv d -> dinv (value_del d).
Proof.
  intros (n & c & st & H1 & E1 & E2 & E3 & E4). exists n, c, st. split; [easy|]. unfold ld_inv, value_del. cbn. repeat split; auto.
  rewrite E1. cbn. apply nocache_cons, cleared_nocache.
Qed.

Lemma read_dinv d : dinv d -> exists d' v, value_get d = (d', Ok v) /\ dinv d' /\ ld_stack d' = ld_stack d /\ ld_root d' = ld_root d /\
  veq (coords v) (dden d) /\ shaped d v.
Proof.
  intros (n & c & st & Hok & Hi). destruct (read_inv n c st Hok d Hi) as (d' & v & E & H1 & H2 & H3).
  pose proof (read_shape n c st Hok d d' v Hi E) as Hsh. pose proof Hi as (E1 & _). pose proof H2 as (E2 & _).
  exists d', v. split; [easy|]. split; [now exists n, c, st|]. split; [congruence|]. split; [easy|]. split.
  - unfold dden, ld_bounds, raw. rewrite E1. exact H1.
  - unfold shaped. rewrite E1. cbn [hd]. unfold uncast in Hsh. destruct Hok as ([-> | ->] & _); destruct v; try discriminate; eauto.
Qed.
Lemma through_read p d : dinv d -> exists d' v, through p value_get d = (d', Ok v) /\ dinv d' /\ ld_stack d' = ld_stack d /\
  ld_root d' = ld_root d /\ veq (coords v) (dden d) /\ shaped d v.
Proof.
  intros Hd. unfold through. destruct (read_dinv _ (dinv_frozen (rt_frozen (ld_root d) || check_frozen p) d Hd)) as (d' & v & E & H1 & H2 & H3 & H4 & H5).
  rewrite E. do 2 eexists. split; [reflexivity|]. split; [now apply dinv_frozen|]. cbn in *. split; [easy|]. split.
  - rewrite H3. cbn. now destruct (ld_root d).
  - now split.
Qed.
Lemma shaped_eq d v w : shaped d v -> shaped d w -> veq (coords v) (coords w) -> pv_eq v w.
Proof.
  unfold shaped. destruct (hd LArray (ld_stack d)); intros [a ->] [b ->] H; cbn in *; auto.
  now inversion H.
Qed.
Lemma shaped_stack d d' v : ld_stack d' = ld_stack d -> shaped d v -> shaped d' v.
Proof. unfold shaped. now intros ->. Qed.

Lemma set_dinv v d d' u : dinv d -> value_set v d = (d', u) -> 
  dinv d' /\ ld_stack d' = ld_stack d /\ length (raw d') = length (raw d) /\ rt_frozen (ld_root d') = rt_frozen (ld_root d) /\
  (forall e, u = Err e -> ld_root d' = ld_root d) /\
  (u = Ok tt -> shaped d v /\ length (coords v) = length (raw d) /\ (plain_data d -> veq (dden d') (coords v))) /\
  (rt_frozen (ld_root d) = true -> exists e, u = Err e).
Proof.
  intros (n & c & st & Hok & Hi) E. destruct (set_inv n c st Hok v d d' u Hi E) as (H1 & H2 & H3 & H4 & H5).
  pose proof Hi as (E1 & E2 & _). pose proof H1 as (E3 & E4 & _). unfold raw.
  split; [now exists n, c, st|]. split; [congruence|]. split; [congruence|]. split; [easy|]. split; [easy|]. split.
  - intros Hu. destruct (H4 Hu) as (y & Hy1 & Hy2 & Hy3). unfold uncast in Hy1.
    assert (Hc : shaped d v /\ coords v = y).
    { unfold shaped. rewrite E1. cbn [hd]. destruct Hok as ([-> | ->] & _); destruct v; try discriminate; injection Hy1 as <-; split; eauto. }
    destruct Hc as [Hc1 Hc2]. split; [easy|]. split; [congruence|]. intros Hp. unfold dden, ld_bounds, raw. rewrite E3, Hc2. cbn [tl].
    eapply veq_trans; [exact Hy3|]. unfold plain_data in Hp. rewrite E1 in Hp. cbn in Hp.
    apply (eff_plain _ n); auto. exact (Forall_inv_tail (proj2 (proj2 Hok))).
  - intros Hf. unfold value_set, value_del in E. cbn [ld_stack ld_caches ld_root ld_bounds] in E.
    destruct (lset _ _ _ v (ld_root d)) as [[cs r] u'] eqn:E5. injection E as _ <-.
    exact (frozen_set_refused _ _ _ _ _ _ _ _ Hf E5).
Qed.
Lemma through_set p v d d' u : dinv d -> through p (value_set v) d = (d', u) -> 
  dinv d' /\ ld_stack d' = ld_stack d /\ length (raw d') = length (raw d) /\ rt_frozen (ld_root d') = rt_frozen (ld_root d) /\
  (forall e, u = Err e -> ld_root d' = ld_root d) /\
  (u = Ok tt -> shaped d v /\ length (coords v) = length (raw d) /\ (plain_data d -> veq (dden d') (coords v))) /\
  (rt_frozen (ld_root d) || check_frozen p = true -> exists e, u = Err e) /\
  (rt_frozen (ld_root d) || check_frozen p = false -> value_set v d = (d', u)).
Proof.
  intros Hd E. unfold through in E. destruct (value_set v (with_frozen (rt_frozen (ld_root d) || check_frozen p) d)) as [d1 u1] eqn:E1.
  injection E as <- <-.
  destruct (set_dinv v _ d1 u1 (dinv_frozen _ _ Hd) E1) as (H1 & H2 & H3 & H4 & H5 & H6 & H7).
  split; [now apply dinv_frozen|]. split; [exact H2|]. split; [exact H3|]. split; [reflexivity|]. split.
  { intros e He. cbn. rewrite (H5 e He). cbn. now destruct (ld_root d). }
  split; [exact H6|]. split; [exact H7|].
  intros Hf. destruct (rt_frozen (ld_root d)) eqn:Ef; [discriminate|]. cbn in Hf. rewrite Hf in E1. cbn in E1, H4.
  rewrite <- Ef in E1 at 1. rewrite with_frozen_id in E1. rewrite E1. f_equal. rewrite <- (with_frozen_id d1) at 1. now rewrite H4, Hf.
Qed.

(** setting the array of the root then reading *)
Lemma unbounded_settled b st x : (forall bo lo up, ~ In (LBound bo lo up) st) -> settled b st x.
Proof.
  induction st as [|l st IH]; intros H; cbn; [easy|]. assert (IH' : settled b st x) by (apply IH; intros bo lo up Hi; apply (H bo lo up); now right).
  destruct l; auto. exfalso. apply (H bounce lower upper). now left.
Qed.
Lemma poke_dinv d x : dinv d -> length x = length (raw d) -> rt_frozen (ld_root d) = false ->
  exists d' v, value_get (LData (ld_stack d) (map (fun _ => None) (ld_stack d)) (Root x false)) = (d', Ok v) /\ dinv d' /\
    ld_stack d' = ld_stack d /\ length (raw d') = length (raw d) /\ rt_frozen (ld_root d') = false /\
    veq (dden d') (den (ld_bounds d) (tl (ld_stack d)) x) /\
    (settled (ld_bounds d) (tl (ld_stack d)) x -> raw d' = x).
Proof.
  intros (n & c & st & Hok & E1 & E2 & E3 & E4) Hx Hf. unfold raw in *. rewrite E2 in *.
  destruct (read_any n c st Hok (ld_new (c :: st) x)) as (d1 & v & G & G1 & G2 & G3 & G4 & G5).
  { reflexivity. } { exact Hx. } { apply nocache_cons. cbn. apply cleared_nocache. } { now left. }
  unfold ld_new in G. unfold ld_bounds. rewrite E1. rewrite G. exists d1, v. pose proof G2 as (F1 & F2 & _).
  split; [easy|]. split; [now exists n, c, st|]. split; [easy|]. split; [easy|]. split; [easy|]. split.
  - unfold dden, ld_bounds. unfold raw. rewrite F1. exact G3.
  - intros Hs. cbn in G5. now rewrite (G5 Hs).
Qed.
Lemma unbounded_settled_d d x : unbounded d -> settled (ld_bounds d) (tl (ld_stack d)) x.
Proof.
  intros H. apply unbounded_settled. intros bo lo up Hi. apply (H bo lo up).
  destruct (ld_stack d); [easy|]. now right.
Qed.
Lemma dinv_settled d : dinv d -> settled (ld_bounds d) (tl (ld_stack d)) (raw d).
Proof. intros (n & c & st & Hok & E1 & E2 & E3 & E4). unfold ld_bounds. rewrite E1. exact E4. Qed.

(** * Trees *)
Definition sizes_ok (s : option (list (nat * nat))) (f : forest) : Prop :=
  match s with None => True | Some s => s = sort_keys (map (fun x => (fst x, dimension (snd x))) (fitems f)) end.
Fixpoint tinv (t : ptree) : Prop :=
  match t with
  | PConst _ _ _ => True
  | PData _ p d => tinv p /\ dinv d
  | PNode _ _ k s f =>
      NoDup (fkeys f) /\ (k = KTuple -> fkeys f = seq 0 (length (fitems f))) /\ sizes_ok s f /\ ftinv f
  end
with ftinv (f : forest) : Prop :=
  match f with FNil => True | FCons _ t f' => tinv t /\ ftinv f' end.
Lemma ftinv_in f : ftinv f <-> (forall k t, In (k, t) (fitems f) -> tinv t).
Proof.
  induction f as [|k t f IH]; cbn; [easy|]. rewrite IH. split.
  - intros [H1 H2] k' t' [[= <- <-]|Hi]; eauto.
  - intros H. split; [eauto|]. intros k' t' Hi. eauto.
Qed.

(** the structure without values *)
Definition no_header : header := Header 0 0 [] 0 None.
Fixpoint skel (t : ptree) : ptree :=
  match t with
  | PConst _ _ v => PConst no_header false v
  | PData _ p d => PData no_header (skel p) (ld_new (ld_stack d) (repeat 0%Q (length (raw d))))
  | PNode _ _ k _ f => PNode no_header false k None (fskel f)
  end
with fskel (f : forest) : forest :=
  match f with FNil => FNil | FCons k t f' => FCons k (skel t) (fskel f') end.
Lemma fskel_items f : fitems (fskel f) = map (fun x => (fst x, skel (snd x))) (fitems f).
Proof. induction f; cbn; congruence. Qed.
Lemma FR_skel f g : FR (fun a b => skel b = skel a) f g -> fskel g = fskel f.
Proof.
  revert g. induction f as [|k t f IH]; intros [|k' t' g] H; inversion H as [|? ? ? ? [H1 H2] H3]; subst; cbn; [easy|].
  cbn in *. subst. f_equal; auto.
Qed.
Lemma skel_FR f g : fskel g = fskel f -> FR (fun a b => skel b = skel a) f g.
Proof.
  revert g. induction f as [|k t f IH]; intros [|k' t' g] H; cbn in H; try discriminate; [constructor|].
  injection H as -> H1 H2. constructor; [easy|]. now apply IH.
Qed.
Lemma dimension_skel t : dimension (skel t) = dimension t.
Proof.
  induction t as [h fz v|h p d IH|h fz k s f IH] using ptree_ind'; cbn; [easy|now rewrite repeat_length|].
  induction f as [|k' t f IHf]; cbn in *; [easy|]. rewrite (IH k' t (or_introl eq_refl)), IHf; [easy|]. intros key t' Hi. apply (IH key t'). now right.
Qed.
Lemma skel_dimension a b : skel a = skel b -> dimension a = dimension b.
Proof. intros H. rewrite <- (dimension_skel a), <- (dimension_skel b). congruence. Qed.

Lemma sizes_skel s f g : FR (fun a b => skel b = skel a) f g -> sizes_ok s f -> sizes_ok s g.
Proof.
  destruct s as [s|]; [|easy]. cbn. intros H ->. f_equal. unfold FR in H.
  induction H as [|[a t] [b u] l m [H1 H2] H IH]; cbn in *; [easy|]. subst. f_equal; [|easy]. f_equal. symmetry. now apply skel_dimension.
Qed.

(** what does not change in frozen parameters *)
Definition no_loss (h : header) : header := Header (h_uid h) (h_gen h) (h_parents h) (h_lineage h) None.
Fixpoint strip (t : ptree) : ptree :=
  match t with
  | PConst h fz v => PConst (no_loss h) fz v
  | PData h p d => PData (no_loss h) (strip p) (LData (ld_stack d) [] (ld_root d))
  | PNode h fz k _ f => PNode (no_loss h) fz k None (fstrip f)
  end
with fstrip (f : forest) : forest :=
  match f with FNil => FNil | FCons k t f' => FCons k (strip t) (fstrip f') end.
Lemma FR_strip f g : FR (fun a b => strip b = strip a) f g -> fstrip g = fstrip f.
Proof.
  revert g. induction f as [|k t f IH]; intros [|k' t' g] H; inversion H as [|? ? ? ? [H1 H2] H3]; subst; cbn; [easy|].
  cbn in *. subst. f_equal; auto.
Qed.
Lemma strip_FR f g : fstrip g = fstrip f -> FR (fun a b => strip b = strip a) f g.
Proof.
  revert g. induction f as [|k t f IH]; intros [|k' t' g] H; cbn in H; try discriminate; [constructor|].
  injection H as -> H1 H2. constructor; [easy|]. now apply IH.
Qed.
Lemma fall_frozen_in f : fall_frozen f <-> (forall k t, In (k, t) (fitems f) -> all_frozen t).
Proof.
  induction f as [|k t f IH]; cbn; [easy|]. rewrite IH. split.
  - intros [H1 H2] k' t' [[= <- <-]|Hi]; eauto.
  - intros H. split; [eauto|]. intros k' t' Hi. eauto.
Qed.
Lemma all_frozen_strip t : all_frozen (strip t) <-> all_frozen t.
Proof.
  induction t as [h fz v|h p d IH|h fz k s f IH] using ptree_ind'; cbn; [easy|now rewrite IH|].
  assert (E : fall_frozen (fstrip f) <-> fall_frozen f); [|now rewrite E].
  induction f as [|k' t f IHf]; cbn in *; [easy|]. rewrite (IH k' t (or_introl eq_refl)), IHf; [easy|]. intros key t' Hi. apply (IH key t'). now right.
Qed.
Lemma strip_frozen a b : strip b = strip a -> all_frozen a -> all_frozen b.
Proof. intros E H. apply all_frozen_strip. rewrite E. now apply all_frozen_strip. Qed.

(** operations which keep the structure, the invariant, and everything if frozen *)
Definition step (a b : ptree) : Prop :=
  tinv a -> tinv b /\ skel b = skel a /\ (all_frozen a -> strip b = strip a).
Lemma step_refl a : step a a.
Proof. now repeat split. Qed.
Lemma step_trans a b c : step a b -> step b c -> step a c.
Proof.
  intros H1 H2 Ha. destruct (H1 Ha) as (A1 & A2 & A3). destruct (H2 A1) as (B1 & B2 & B3). split; [easy|]. split; [congruence|].
  intros Hf. rewrite B3; [now apply A3|]. exact (strip_frozen _ _ (A3 Hf) Hf).
Qed.
Lemma step_node h h' fz k s s' f g : (tinv (PNode h fz k s f) -> FR step f g) -> (tinv (PNode h fz k s f) -> sizes_ok s' f) -> no_loss h' = no_loss h ->
  step (PNode h fz k s f) (PNode h' fz k s' g).
Proof.
  intros H Hs Hh Hi. specialize (Hs Hi). specialize (H Hi). destruct Hi as (H1 & H2 & H3 & H4).
  rewrite ftinv_in in H4.
  assert (HS : FR (fun a b => skel b = skel a) f g).
  { eapply FR_mono; [|exact H]. intros k' t t' Hi HT. now apply (HT (H4 _ _ Hi)). }
  split; [|split].
  - cbn. rewrite (FR_keys _ _ _ H), (FR_length _ _ _ H). repeat split; auto.
    + now apply (sizes_skel s' f g).
    + apply ftinv_in. intros key t Hi. destruct (FR_in _ _ _ _ _ H Hi) as (t0 & Hi0 & HT). apply (HT (H4 _ _ Hi0)).
  - cbn. now rewrite (FR_skel f g HS).
  - intros [Hf1 Hf2]. cbn. rewrite Hh. f_equal. apply FR_strip. rewrite fall_frozen_in in Hf2.
    eapply FR_mono; [|exact H]. intros k' t t' Hi HT. apply (HT (H4 _ _ Hi)). eauto.
Qed.
Lemma step_data h h' p q d e : step p q -> no_loss h' = no_loss h -> 
  (tinv p -> dinv d -> dinv e /\ ld_stack e = ld_stack d /\ length (raw e) = length (raw d) /\ (rt_frozen (ld_root d) = true -> ld_root e = ld_root d)) ->
  step (PData h p d) (PData h' q e).
Proof.
  intros Hp Hh H [Hi1 Hi2]. destruct (H Hi1 Hi2) as (H3 & H4 & H5 & H6). destruct (Hp Hi1) as (A1 & A2 & A3). split; [now split|]. split.
  - cbn. now rewrite A2, H4, H5.
  - intros [F1 F2]. cbn. now rewrite Hh, H4, (A3 F2), (H6 F1).
Qed.

(** * Reading *)
Lemma tget_spec t : tinv t -> exists t' v, tget t = (t', Ok v) /\ step t t' /\ strip t' = strip t.
Proof.
  induction t as [h fz v|h p d IH|h fz k s f IH] using ptree_ind'; intros Hi.
  - cbn. do 2 eexists. split; [reflexivity|]. split; [apply step_refl|reflexivity].
  - cbn [tget]. destruct Hi as [Hp Hd]. destruct (through_read p d Hd) as (d' & v & E & H1 & H2 & H3 & _). rewrite E.
    do 2 eexists. split; [reflexivity|]. split.
    + apply step_data; [apply step_refl|reflexivity|]. intros _ _. unfold raw. rewrite H3. auto.
    + cbn. now rewrite H2, H3.
  - assert (H : exists f' vs, fget f = (f', Ok vs) /\ FR step f f' /\ fstrip f' = fstrip f).
    { destruct Hi as (_ & _ & _ & Hi). clear -IH Hi. induction f as [|k' t f IHf]; cbn.
      - do 2 eexists. split; [reflexivity|]. split; [constructor|reflexivity].
      - destruct Hi as [Hi1 Hi2]. destruct (IH k' t (or_introl eq_refl) Hi1) as (t' & v & E & S1 & S2). rewrite E.
        destruct IHf as (f' & vs & E2 & F1 & F2); [intros key t2 Hk; apply (IH key t2); now right|easy|]. rewrite E2.
        do 2 eexists. split; [reflexivity|]. split; [constructor; auto|]. cbn. congruence. }
    destruct H as (f' & vs & E & F1 & F2). cbn [tget]. rewrite E. cbn. do 2 eexists. split; [reflexivity|]. split.
    + apply step_node; auto. now intros (_ & _ & H & _).
    + cbn. now rewrite F2.
Qed.

(** * Setting values *)
Lemma tset_step t : forall v, step t (fst (tset t v)).
Proof.
  induction t as [h fz c|h p d IH|h fz k s f IH] using ptree_ind'; intros v.
  - cbn. destruct v; apply step_refl.
  - assert (G : forall w, step (PData h p d) (fst (let '(d', u) := through p (value_set w) d in (PData h p d', u)))).
    { intros w. destruct (through p (value_set w) d) as [d' u] eqn:E. cbn. apply step_data; [apply step_refl|reflexivity|].
      intros _ Hd. destruct (through_set p w d d' u Hd E) as (H1 & H2 & H3 & H4 & H5 & H6 & H7 & H8).
      repeat split; auto. intros Hf. destruct H7 as [e He]; [now rewrite Hf|]. eauto. }
    cbn [tset]. destruct v; apply G.
  - assert (G : forall vs, step (PNode h fz k s f) (fst (let '(f', u) := set_items (fset_at f) vs f in (PNode h fz k s f', u)))).
    { intros vs. destruct (set_items (fset_at f) vs f) as [f' u] eqn:E. cbn. apply step_node; [|now intros (_ & _ & H & _)|reflexivity].
      intros _. refine (set_items_FR step (fset_at f) f _ vs f f' u (FR_refl step step_refl f) E).
      intros key w t' u' Ek. rewrite fset_at_lookup in Ek. destruct (flookup key f) as [t|] eqn:El; [|discriminate].
      cbn in Ek. injection Ek as Ek. exists t. split; [easy|]. pose proof (IH key t (flookup_in _ _ _ El) w) as H. now rewrite Ek in H. }
    cbn [tset]. destruct k, v; try apply step_refl.
    + destruct (same_keys _ _); [apply G|apply step_refl].
    + destruct (_ =? _); [apply G|apply step_refl].
Qed.

(** * Sizes *)
Lemma insert_comm x y l : fst x <> fst y -> insert_key x (insert_key y l) = insert_key y (insert_key x l).
Proof.
  intros Hn. induction l as [|z l IH]; cbn.
  - destruct (Nat.leb_spec (fst x) (fst y)), (Nat.leb_spec (fst y) (fst x)); try easy; lia.
  - destruct (Nat.leb_spec (fst x) (fst z)), (Nat.leb_spec (fst y) (fst z)); cbn;
    repeat (match goal with |- context [?a <=? ?b] => destruct (Nat.leb_spec a b) end; try lia); try easy; now rewrite ?IH.
Qed.
Lemma sort_perm l m : Permutation l m -> NoDup (map fst l) -> sort_keys l = sort_keys m.
Proof.
  induction 1 as [|x l m H IH|x y l|l m o H1 IH1 H2 IH2]; intros Hn.
  - easy.
  - cbn in Hn. inversion Hn; subst. change (insert_key x (sort_keys l) = insert_key x (sort_keys m)). now rewrite IH.
  - cbn in *. inversion Hn as [|? ? N1 N2]; subst. apply insert_comm. intros E. apply N1. now left.
  - rewrite IH1 by easy. apply IH2. now apply (Permutation_NoDup (Permutation_map fst H1)).
Qed.
Lemma insert_perm x l : Permutation (insert_key x l) (x :: l).
Proof.
  induction l as [|y l IH]; cbn; [constructor; constructor|]. destruct (fst x <=? fst y); [apply Permutation_refl|].
  eapply perm_trans; [apply perm_skip, IH|]. apply perm_swap.
Qed.
Lemma sort_keys_perm l : Permutation (sort_keys l) l.
Proof.
  induction l as [|x l IH]; cbn; [constructor|]. eapply perm_trans; [apply insert_perm|]. now apply perm_skip.
Qed.

Definition dim_at (f : forest) (k : nat) : nat := match flookup k f with Some t => dimension t | None => 0 end.
Lemma dims_keys f : NoDup (fkeys f) -> map (fun x => (fst x, dimension (snd x))) (fitems f) = map (fun k => (k, dim_at f k)) (fkeys f).
Proof.
  intros Hn. unfold fkeys. rewrite map_map. apply map_ext_in. intros [k t] Hi. cbn. unfold dim_at. now rewrite (flookup_nodup k f t Hn Hi).
Qed.
Lemma fdimension_sum f : fdimension f = list_sum (map (fun x => dimension (snd x)) (fitems f)).
Proof. induction f as [|k t f IH]; cbn; [easy|]. now rewrite IH. Qed.
Lemma sum_perm l m : Permutation l m -> list_sum l = list_sum m.
Proof. unfold list_sum. induction 1; cbn; lia. Qed.
Lemma sum_sizes_dim f : sum_sizes (sort_keys (map (fun x => (fst x, dimension (snd x))) (fitems f))) = fdimension f.
Proof.
  unfold sum_sizes. rewrite (sum_perm _ _ (Permutation_map snd (sort_keys_perm _))).
  rewrite map_map, fdimension_sum. reflexivity.
Qed.

(** * Same structures *)
Lemma fsame_in f g : fsame_shape f g <-> (forall k t, In (k, t) (fitems f) -> exists s, flookup k g = Some s /\ same_shape t s).
Proof.
  induction f as [|k t f IH]; cbn; [easy|]. rewrite IH. split.
  - intros [H1 H2] k' t' [[= <- <-]|Hi]; eauto.
  - intros H. split; [eauto|]. intros k' t' Hi. eauto.
Qed.
Lemma shape_refl t : tinv t -> same_shape t t.
Proof.
  induction t as [h fz v|h p d IH|h fz k s f IH] using ptree_ind'; cbn; [easy|intros [H1 H2]; auto|].
  intros (H1 & H2 & H3 & H4). split; [easy|]. split; [easy|]. apply fsame_in. intros key t Hi. exists t.
  split; [now apply flookup_nodup|]. apply (IH key t Hi). rewrite ftinv_in in H4. eauto.
Qed.
Lemma shape_keys f g : NoDup (fkeys f) -> length (fitems f) = length (fitems g) -> fsame_shape f g ->
  NoDup (fkeys g) /\ Permutation (fkeys f) (fkeys g).
Proof.
  intros Hn Hl Hs. rewrite fsame_in in Hs.
  assert (Hi : incl (fkeys f) (fkeys g)).
  { intros k Hk. unfold fkeys in Hk. apply in_map_iff in Hk. destruct Hk as ([k' t] & <- & Hk). destruct (Hs k' t Hk) as (s & E & _).
    apply flookup_in in E. now apply (in_map fst) in E. }
  assert (Hl' : length (fkeys g) <= length (fkeys f)) by (unfold fkeys; rewrite !map_length; lia).
  split; [now apply (NoDup_incl_NoDup Hn)|]. apply NoDup_Permutation; auto.
  - now apply (NoDup_incl_NoDup Hn).
  - intros k. split; [apply Hi|]. now apply (NoDup_length_incl Hn).
Qed.
Lemma shape_dim t r : tinv t -> same_shape t r -> dimension r = dimension t.
Proof.
  revert r. induction t as [h fz v|h p d IH|h fz k s f IH] using ptree_ind'; intros [h' fz' v'|h' p' d'|h' fz' k' s' g] Hi Hs; try easy.
  - cbn in *. symmetry. apply Hs.
  - cbn in Hs. destruct Hs as (_ & Hl & Hs). destruct Hi as (Hn & _ & _ & Hi). destruct (shape_keys f g Hn Hl Hs) as [Hn' Hp].
    cbn. rewrite !fdimension_sum.
    assert (E : forall f, map (fun x => dimension (snd x)) (fitems f) = map snd (map (fun x => (fst x, dimension (snd x))) (fitems f))).
    { intros f0. now rewrite map_map. }
    rewrite (E f), (E g), (dims_keys f Hn), (dims_keys g Hn'), !map_map. cbn.
    rewrite (sum_perm _ _ (Permutation_map (fun x => dim_at f x) Hp)).
    f_equal. apply map_ext_in. intros key Hk. unfold dim_at.
    apply (Permutation_in key (Permutation_sym Hp)) in Hk. destruct (flookup_some key f Hk) as [t Ht].
    rewrite fsame_in in Hs. destruct (Hs key t (flookup_in _ _ _ Ht)) as (r & Hr & Hs'). rewrite Ht, Hr. apply (IH key t (flookup_in _ _ _ Ht)); [|easy].
    rewrite ftinv_in in Hi. exact (Hi _ _ (flookup_in _ _ _ Ht)).
Qed.

(** * Standardized data *)
Lemma sigma_ok n p sig : sigma_value n p = Ok sig -> length sig = n /\ Forall (fun x => ~ x == 0)%Q sig.
Proof.
  unfold sigma_value. destruct p as [| |h fz k s f]; try discriminate. destruct (flookup sigma_key f) as [t|]; [|discriminate].
  destruct (snd (tget t)) as [[v| |]|e]; cbn; try discriminate. destruct (broadcast n v) as [l|e] eqn:Eb; cbn; [|discriminate].
  destruct (existsb _ l) eqn:Ee; [discriminate|]. intros [= <-]. split.
  - destruct v as [[|q [|q' l']]|q|m]; cbn in Eb; try discriminate.
    + destruct n; cbn in Eb; [now injection Eb as <-|discriminate].
    + injection Eb as <-. apply repeat_length.
    + destruct n as [|[|n]]; try discriminate. destruct (Nat.eqb_spec (length l') n); [|discriminate]. injection Eb as <-. cbn. lia.
    + injection Eb as <-. apply repeat_length.
  - clear -Ee. induction l as [|x l IH]; cbn in *; constructor.
    + intros H. apply Qeq_bool_iff in H. now rewrite H in Ee.
    + apply IH. now apply orb_false_iff in Ee.
Qed.
Lemma dget_Forall2 {A B} (P : nat -> A -> B -> Prop) (l : list (nat * A)) (m : list (nat * B)) :
  Forall2 (fun a b => fst a = fst b /\ P (fst a) (snd a) (snd b)) l m ->
  (forall k a, dget k l = Some a -> exists b, dget k m = Some b /\ P k a b) /\
  (forall k b, dget k m = Some b -> exists a, dget k l = Some a /\ P k a b).
Proof.
  induction 1 as [|[k a] [k' b] l m [H1 H2] H [IH1 IH2]]; cbn in *; [easy|]. subst k'.
  split; intros k0 x; destruct (Nat.eqb_spec k0 k) as [->|]; auto; intros [= <-]; eauto.
Qed.
Lemma get_std_inv t : forall r t' u, tinv t -> same_shape t r -> get_std t r = (t', u) ->
  tinv t' /\ skel t' = skel t /\ strip t' = strip t /\ (forall x, u = Ok x -> length x = dimension t).
Proof.
  induction t as [h fz v|h p d IH|h fz k s f IH] using ptree_ind'; intros r t' u Hi Hs E.
  - cbn in E. injection E as <- <-. repeat split; auto. now intros x [= <-].
  - cbn [get_std] in E. destruct r as [|h' p' d'|]; try easy. injection E as <- <-. repeat split; try apply Hi.
    intros x Hx. cbn in Hs. destruct Hs as [Hl Hs]. destruct (sigma_value _ p') as [sig|e] eqn:Es; cbn in Hx; [|discriminate].
    destruct (sigma_ok _ _ _ Es) as [Hsl _]. rewrite Hl, Nat.eqb_refl in Hx. injection Hx as <-. cbn.
    repeat apply map2_length'; congruence.
  - destruct r as [| |h' fz' k' s' g]; try easy. cbn in Hs. destruct Hs as (-> & Hl & Hs). cbn [get_std] in E.
    assert (Hk : kind_eqb k' k' = true) by (now destruct k'). rewrite Hk in E. clear Hk.
    destruct (collect (fget_std_at f) (fitems g) f) as [f1 data] eqn:Ec.
    pose proof Hi as (Hn & Ht & Hz & Hi'). rewrite ftinv_in in Hi'. destruct (shape_keys f g Hn Hl Hs) as [Hn' Hp].
    pose proof (proj1 (fsame_in f g) Hs) as Hs'.
    assert (Hat : forall key r t', (exists u, fget_std_at f key r = Some (t', u)) -> flookup key g = Some r ->
      exists t u, flookup key f = Some t /\ get_std t r = (t', u) /\ tinv t /\ same_shape t r /\ In (key, t) (fitems f)).
    { intros key r t0 [u0 E0] Hr. rewrite fget_std_at_lookup in E0. destruct (flookup key f) as [t|] eqn:Ef; [|discriminate].
      cbn in E0. injection E0 as E0. exists t, u0. pose proof (flookup_in _ _ _ Ef) as Hin. destruct (Hs' key t Hin) as (r' & Hr' & Hsh).
      assert (r' = r) by congruence. subst r'. repeat split; eauto. }
    assert (HF : FR (fun a b => tinv b /\ skel b = skel a /\ strip b = strip a) f f1).
    { assert (Hin : forall l, incl l (fitems g) -> forall g0 f2 u2, FR (fun a b => tinv b /\ skel b = skel a /\ strip b = strip a) f g0 ->
        collect (fget_std_at f) l g0 = (f2, u2) -> FR (fun a b => tinv b /\ skel b = skel a /\ strip b = strip a) f f2).
      { induction l as [|[key r] l IHl]; intros Hincl g0 f2 u2 Hg0 E0; cbn in E0; [now injection E0 as <- <-|].
        destruct (fget_std_at f key r) as [[t1 w]|] eqn:Ea; [|now injection E0 as <- <-].
        destruct (Hat key r t1) as (t & u0 & Q1 & Q2 & Q3 & Q4 & Q5); [eauto|apply flookup_nodup; [easy|apply Hincl; now left]|].
        assert (FR (fun a b => tinv b /\ skel b = skel a /\ strip b = strip a) f (fset key t1 g0)).
        { apply (FR_fset _ f g0 key t t1 Hg0 Q1). destruct (IH key t Q5 r t1 u0 Q3 Q4 Q2) as (I1 & I2 & I3 & _). auto. }
        destruct w as [x|e]; [|now injection E0 as <- <-].
        destruct (collect (fget_std_at f) l (fset key t1 g0)) as [f3 u3] eqn:E3. injection E0 as <- <-.
        apply (IHl (fun x Hx => Hincl x (or_intror Hx)) _ _ _ H E3). }
      apply (Hin (fitems g) (incl_refl _) f f1 data); [|easy]. apply FR_refl'. intros key t Hk. repeat split; eauto. }
    assert (HS : FR (fun a b => skel b = skel a) f f1) by (eapply FR_mono; [|exact HF]; cbn; tauto).
    assert (HT : FR (fun a b => strip b = strip a) f f1) by (eapply FR_mono; [|exact HF]; cbn; tauto).
    assert (Hall : forall s0, sizes_ok s0 f -> tinv (PNode h fz k' s0 f1)).
    { intros s0 Hs0. cbn. rewrite (FR_keys _ _ _ HF), (FR_length _ _ _ HF). repeat split; auto; [now apply (sizes_skel s0 f f1)|].
      apply ftinv_in. intros key t Hk. destruct (FR_in _ _ _ _ _ HF Hk) as (t0 & _ & H & _). exact H. }
    destruct data as [data|e].
    + apply collect_inv in Ec.
      destruct (dget_Forall2 (fun k p x => exists t', fget_std_at f k p = Some (t', Ok x)) _ _ Ec) as [D1 D2].
      assert (Hlen : forall key x, dget key data = Some x -> length x = dim_at f key).
      { intros key x Hx. destruct (D2 key x Hx) as (r & Hr & t0 & E0). fold (flookup key g) in Hr.
        destruct (Hat key r t0) as (t & u0 & Q1 & Q2 & Q3 & Q4 & Q5); [eauto|easy|]. unfold dim_at. rewrite Q1.
        rewrite fget_std_at_lookup, Q1 in E0. cbn in E0. injection E0 as E0.
        destruct (IH key t Q5 r _ _ Q3 Q4 E0) as (_ & _ & _ & H). now apply H. }
      assert (Hsz : sort_keys (map (fun x => (fst x, length (snd x))) data) = sort_keys (map (fun x => (fst x, dimension (snd x))) (fitems f))).
      { assert (K : map fst data = fkeys g). { unfold fkeys. clear -Ec. induction Ec as [|a b l m [H _] H' IH]; cbn; congruence. }
        assert (E1 : map (fun x => (fst x, length (snd x))) data = map (fun k => (k, dim_at f k)) (fkeys g)).
        { rewrite <- K, map_map. apply map_ext_in. intros [key x] Hx. cbn. f_equal. apply Hlen. apply dget_in_nodup; [|easy].
          unfold dkeys. now rewrite K. }
        rewrite E1, (dims_keys f Hn). apply sort_perm.
        - apply Permutation_map. now apply Permutation_sym.
        - rewrite map_map. cbn. now rewrite map_id. }
      assert (Hs2 : match s with Some s => s | None => sort_keys (map (fun x => (fst x, length (snd x))) data) end = sort_keys (map (fun x => (fst x, dimension (snd x))) (fitems f))).
      { destruct s as [s|]; [exact Hz|exact Hsz]. }
      rewrite Hs2 in E. injection E as <- <-. split; [now apply Hall|]. split; [cbn; now rewrite (FR_skel _ _ HS)|]. split; [cbn; now rewrite (FR_strip _ _ HT)|].
      intros x Hx. cbn [dimension]. rewrite <- sum_sizes_dim. apply (gather_length _ _ _ Hx).
      intros key n y Hin Hy. rewrite (Hlen key y Hy).
      apply (Permutation_in _ (sort_keys_perm _)) in Hin. rewrite (dims_keys f Hn) in Hin. apply in_map_iff in Hin. now destruct Hin as (k0 & [= <- <-] & _).
    + injection E as <- <-. split; [now apply Hall|]. split; [cbn; now rewrite (FR_skel _ _ HS)|]. split; [cbn; now rewrite (FR_strip _ _ HT)|]. discriminate.
Qed.
Lemma fusable_in f : fusable f <-> (forall k t, In (k, t) (fitems f) -> usable t).
Proof.
  induction f as [|k t f IH]; cbn; [easy|]. rewrite IH. split.
  - intros [H1 H2] k' t' [[= <- <-]|Hi]; eauto.
  - intros H. split; [eauto|]. intros k' t' Hi. eauto.
Qed.
Lemma fleaves_in P f : fleaves P f <-> (forall k t, In (k, t) (fitems f) -> leaves P t).
Proof.
  induction f as [|k t f IH]; cbn; [easy|]. rewrite IH. split.
  - intros [H1 H2] k' t' [[= <- <-]|Hi]; eauto.
  - intros H. split; [eauto|]. intros k' t' Hi. eauto.
Qed.
Lemma fcheck_in f : fcheck_frozen f = false <-> (forall k t, In (k, t) (fitems f) -> check_frozen t = false).
Proof.
  induction f as [|k t f IH]; cbn; [easy|]. rewrite orb_false_iff, IH. split.
  - intros [H1 H2] k' t' [[= <- <-]|Hi]; eauto.
  - intros H. split; [eauto|]. intros k' t' Hi. eauto.
Qed.
Lemma kind_eqb_refl k : kind_eqb k k = true.
Proof. now destruct k. Qed.

(** facts about two containers of the same structure *)
Record matched (f g : forest) : Prop := {
  mt_nodup : NoDup (fkeys f);
  mt_nodup' : NoDup (fkeys g);
  mt_inv : forall k t, In (k, t) (fitems f) -> tinv t;
  mt_right : forall k t, flookup k f = Some t -> exists r, flookup k g = Some r /\ same_shape t r;
  mt_left : forall k r, flookup k g = Some r -> exists t, flookup k f = Some t /\ same_shape t r }.
Lemma node_matched h fz k s f g : tinv (PNode h fz k s f) -> length (fitems f) = length (fitems g) -> fsame_shape f g -> matched f g.
Proof.
  intros (Hn & _ & _ & Hi) Hl Hs. rewrite ftinv_in in Hi. destruct (shape_keys f g Hn Hl Hs) as [Hn' Hp]. rewrite fsame_in in Hs.
  constructor; auto.
  - intros key t Ht. apply Hs. now apply flookup_in.
  - intros key r Hr. assert (Hk : In key (fkeys f)).
    { apply (Permutation_in key (Permutation_sym Hp)). apply flookup_in in Hr. now apply (in_map fst) in Hr. }
    destruct (flookup_some key f Hk) as [t Ht]. exists t. split; [easy|]. destruct (Hs key t (flookup_in _ _ _ Ht)) as (r' & Hr' & H). congruence.
Qed.

(** reading data from a readable reference *)
Lemma get_std_ok t : forall r, tinv t -> same_shape t r -> usable r ->
  exists t' x, get_std t r = (t', Ok x) /\ length x = dimension t.
Proof.
  assert (Hlen : forall r t' x, tinv t -> same_shape t r -> get_std t r = (t', Ok x) -> length x = dimension t).
  { intros r t' x H1 H2 H3. destruct (get_std_inv t r t' _ H1 H2 H3) as (_ & _ & _ & H). now apply H. }
  enough (H : forall r, tinv t -> same_shape t r -> usable r -> exists t' x, get_std t r = (t', Ok x)).
  { intros r H1 H2 H3. destruct (H r H1 H2 H3) as (t' & x & E). eauto. }
  clear Hlen. induction t as [h fz v|h p d IH|h fz k s f IH] using ptree_ind'; intros r Hi Hs Hu.
  - cbn. eauto.
  - destruct r as [|h' p' d'|]; try easy. cbn [get_std]. cbn in Hs, Hu. destruct Hs as [Hl _]. destruct Hu as [sig Hu].
    rewrite Hu. cbn. rewrite Hl, Nat.eqb_refl. eauto.
  - destruct r as [| |h' fz' k' s' g]; try easy. cbn in Hs. destruct Hs as (-> & Hl & Hs). pose proof (node_matched _ _ _ _ _ _ Hi Hl Hs) as M.
    cbn in Hu. rewrite fusable_in in Hu. cbn [get_std]. rewrite kind_eqb_refl.
    assert (Hat : forall key r, In (key, r) (fitems g) -> exists t' x, fget_std_at f key r = Some (t', Ok x)).
    { intros key r Hr. destruct (mt_left _ _ M key r) as (t & Ht & Hsh); [apply flookup_nodup; [apply M|easy]|].
      rewrite fget_std_at_lookup, Ht. cbn. pose proof (flookup_in _ _ _ Ht) as Hin.
      destruct (IH key t Hin r (mt_inv _ _ M _ _ Hin) Hsh (Hu _ _ Hr)) as (t' & x & E). rewrite E. eauto. }
    destruct (collect_ok (fget_std_at f) (fitems g) f Hat) as (f' & l & E & F). rewrite E.
    match goal with |- context [gather ?s l] => destruct (gather_ok s l) as [x Hx] end; [|rewrite Hx; eauto].
    destruct (dget_Forall2 (fun k p x => exists t', fget_std_at f k p = Some (t', Ok x)) _ _ F) as [D1 _].
    assert (HD : forall key, In key (fkeys f) -> exists x, dget key l = Some x).
    { intros key Hk. destruct (flookup_some key f Hk) as [t Ht]. destruct (mt_right _ _ M key t Ht) as (r & Hr & _).
      destruct (D1 key r Hr) as (x & Hx & _). eauto. }
    intros key n Hin. destruct s as [s|].
    + apply HD. destruct Hi as (Hn & _ & Hz & _). cbn in Hz. rewrite Hz in Hin. apply (Permutation_in _ (sort_keys_perm _)) in Hin.
      apply in_map_iff in Hin. destruct Hin as ([k0 t0] & [= <- <-] & Hin). now apply (in_map fst) in Hin.
    + apply (Permutation_in _ (sort_keys_perm _)) in Hin. apply in_map_iff in Hin. destruct Hin as ([k0 x0] & [= <- <-] & Hin).
      apply (in_map fst) in Hin. destruct (dget k0 l) as [x|] eqn:Ex; [eauto|]. apply dget_none in Ex. now exfalso.
Qed.

(** the sizes used when setting the data *)
Definition known_sizes (t : ptree) (s : option (list (nat * nat))) : result (list (nat * nat)) :=
  match s with
  | Some s => Ok s
  | None => match get_std t t with (PNode _ _ _ (Some s) _, Ok _) => Ok s | (_, Err e) => Err e | _ => Err AssertionError end
  end.
Lemma known_spec h fz k s f sizes : tinv (PNode h fz k s f) -> known_sizes (PNode h fz k s f) s = Ok sizes ->
  sizes = sort_keys (map (fun x => (fst x, dimension (snd x))) (fitems f)).
Proof.
  intros Hi E. destruct s as [s|]; cbn in E; [injection E as <-; apply Hi|].
  destruct (get_std (PNode h fz k None f) (PNode h fz k None f)) as [t' u] eqn:Eg.
  destruct (get_std_inv _ _ _ _ Hi (shape_refl _ Hi) Eg) as (H1 & H2 & _). cbn [get_std] in Eg. rewrite kind_eqb_refl in Eg.
  cbn [get_std] in E. rewrite kind_eqb_refl in E.
  destruct (collect (fget_std_at f) (fitems f) f) as [f1 [data|e]] eqn:Ec; [|discriminate]. injection Eg as <- <-.
  destruct (gather _ data) as [x|e]; [|discriminate]. injection E as <-.
  assert (Hz : sizes_ok (Some (sort_keys (map (fun x => (fst x, length (snd x))) data))) f1) by apply H1. cbn in H2. injection H2 as H2.
  apply (sizes_skel _ f1 f) in Hz; [exact Hz|]. apply skel_FR. now symmetry.
Qed.
Lemma known_ok h fz k s f : tinv (PNode h fz k s f) -> usable (PNode h fz k s f) -> 
  known_sizes (PNode h fz k s f) s = Ok (sort_keys (map (fun x => (fst x, dimension (snd x))) (fitems f))).
Proof.
  intros Hi Hu. assert (H : exists sizes, known_sizes (PNode h fz k s f) s = Ok sizes).
  { destruct s as [s|]; cbn; [eauto|]. destruct (get_std_ok _ _ Hi (shape_refl _ Hi) Hu) as (t' & x & E & _).
    cbn [get_std] in E. rewrite kind_eqb_refl in E. rewrite kind_eqb_refl.
    destruct (collect (fget_std_at f) (fitems f) f) as [f1 [data|e]] eqn:Ec; [|discriminate]. injection E as <- E. rewrite E. eauto. }
  destruct H as [sizes H]. now rewrite H, <- (known_spec _ _ _ _ _ _ Hi H).
Qed.
Lemma set_std_node h fz k s f data h' fz' s' rf : check_frozen (PNode h fz k s f) = false ->
  set_std (PNode h fz k s f) data (PNode h' fz' k s' rf) =
  match known_sizes (PNode h fz k s f) s with
  | Err e => (PNode h fz k s f, Err e)
  | Ok sizes =>
      if negb (length data =? sum_sizes sizes) then (PNode h fz k (Some sizes) f, Err ValueError)
      else let '(f', u) := set_slices (fset_std_at f) sizes data rf f in (PNode h fz k (Some sizes) f', u)
  end.
Proof. intros Hf. cbn [set_std]. rewrite kind_eqb_refl, Hf. cbn [negb]. unfold known_sizes. reflexivity. Qed.

(** new array of a data *)
Lemma shift_length data red x : shift_data data red = Ok x -> length x = length red.
Proof.
  unfold shift_data. destruct (Nat.eqb_spec (length data) (length red)) as [E|E].
  - intros [= <-]. rewrite map2_length; congruence.
  - destruct data as [|q [|q' l]]; try discriminate. intros [= <-]. apply map_length.
Qed.

(** setting data keeps the structure *)
Lemma set_std_step t : forall data r, same_shape t r -> step t (fst (set_std t data r)).
Proof.
  induction t as [h fz v|h p d IH|h fz k s f IH] using ptree_ind'; intros data r Hs.
  - cbn. destruct r; apply step_refl.
  - destruct r as [|h' p' d'|]; try apply step_refl. cbn in Hs. destruct Hs as [Hl Hs]. cbn [set_std].
    destruct (check_frozen (PData h p d)) eqn:Ef; [apply step_refl|]. cbn [check_frozen] in Ef. apply orb_false_iff in Ef. destruct Ef as [Ef1 Ef2].
    match goal with |- context [match ?b with Ok _ => _ | Err _ => _ end] => destruct b as [x|e] eqn:Eb end.
    + assert (Hx : length x = length (raw d)).
      { destruct (sigma_value _ p') as [sig|e] eqn:Es; cbn in Eb; [|discriminate]. destruct (sigma_ok _ _ _ Es) as [Hsl _].
        destruct (shift_data _ _) as [y|e] eqn:Ey; cbn in Eb; [|discriminate]. injection Eb as <-.
        apply shift_length in Ey. rewrite (map2_length' _ _ (length (raw d'))) in Ey; unfold raw in *; auto.
        apply map2_length'; congruence. }
      unfold through. cbn [value_del ld_root ld_stack ld_caches rt_frozen]. rewrite Ef1, Ef2. cbn [orb].
      destruct (value_get _) as [d2 v] eqn:Eg. cbn [fst]. apply step_data; [apply step_refl|reflexivity|]. intros _ Hd.
      destruct (poke_dinv d x Hd Hx Ef1) as (d3 & w & E3 & H1 & H2 & H3 & _). unfold with_frozen in Eg. cbn [ld_stack ld_caches ld_root rt_value] in Eg.
      rewrite E3 in Eg. injection Eg as <- <-. split; [now apply dinv_frozen|]. split; [exact H2|]. split; [exact H3|]. congruence.
    + cbn [fst]. apply step_data; [apply step_refl|reflexivity|]. intros _ Hd. split; [now apply del_dinv|]. auto.
  - destruct r as [| |h' fz' k' s' g]; try apply step_refl. cbn in Hs. destruct Hs as (-> & Hl & Hs).
    destruct (check_frozen (PNode h fz k' s f)) eqn:Ef.
    { cbn [set_std]. rewrite kind_eqb_refl, Ef. apply step_refl. }
    rewrite set_std_node by easy. destruct (known_sizes _ s) as [sizes|e] eqn:Ek; [|apply step_refl].
    assert (Hz : tinv (PNode h fz k' s f) -> sizes_ok (Some sizes) f) by (intros Hi; exact (known_spec _ _ _ _ _ _ Hi Ek)).
    destruct (negb _); [cbn [fst]; apply step_node; auto; intros _; apply FR_refl; apply step_refl|].
    destruct (set_slices (fset_std_at f) sizes data g f) as [f' u] eqn:E. cbn [fst]. apply step_node; auto. intros Hi.
    pose proof (node_matched _ _ _ _ _ _ Hi Hl Hs) as M.
    rewrite set_slices_items in E. refine (set_items_FR step _ f _ _ f f' u (FR_refl step step_refl f) E).
    intros key x t' u' Ek'. destruct (flookup key g) as [r|] eqn:Er; [|discriminate]. rewrite fset_std_at_lookup in Ek'.
    destruct (flookup key f) as [t|] eqn:Et; [|discriminate]. cbn in Ek'. injection Ek' as Ek'. exists t. split; [easy|].
    destruct (mt_right _ _ M key t Et) as (r' & Hr' & Hsh). assert (r' = r) by congruence. subst r'.
    pose proof (IH key t (flookup_in _ _ _ Et) x r Hsh) as H. now rewrite Ek' in H.
Qed.

(** * Same values *)
Lemma cv_tuple l m : cv_eq (CTuple l) (CTuple m) <-> Forall2 cv_eq l m.
Proof.
  cbn. revert m. induction l as [|x l IH]; intros [|y m].
  - now split.
  - split; [easy|]. intros H. inversion H.
  - split; [easy|]. intros H. inversion H.
  - rewrite IH. split; [intros [H1 H2]; now constructor|]. intros H. now inversion H.
Qed.
Lemma cv_dict l m : cv_eq (CDict l) (CDict m) <->
  length l = length m /\ forall k x, In (k, x) l -> exists y, dget k m = Some y /\ cv_eq x y.
Proof.
  cbn. assert (E : forall l, (fix go (l : list (nat * cval)) : Prop :=
    match l with [] => True | (k, x) :: l' => (exists y : cval, dget k m = Some y /\ cv_eq x y) /\ go l' end) l <->
    forall k x, In (k, x) l -> exists y, dget k m = Some y /\ cv_eq x y).
  { clear l. induction l as [|[k x] l IH]; cbn; [easy|]. rewrite IH. split.
    - intros [H1 H2] k' x' [[= <- <-]|Hi]; eauto.
    - intros H. split; eauto. }
  now rewrite E.
Qed.

Fixpoint teq (a b : ptree) {struct a} : Prop :=
  match a, b with
  | PConst _ _ v, PConst _ _ w => pv_eq v w
  | PData _ _ d, PData _ _ e => ld_stack d = ld_stack e /\ veq (dden d) (dden e)
  | PNode _ _ k _ f, PNode _ _ k' _ g => k = k' /\ length (fitems f) = length (fitems g) /\ fteq f g
  | _, _ => False
  end
with fteq (f g : forest) {struct f} : Prop :=
  match f with
  | FNil => True
  | FCons k t f' => (exists s, flookup k g = Some s /\ teq t s) /\ fteq f' g
  end.
Lemma fteq_in f g : fteq f g <-> (forall k t, In (k, t) (fitems f) -> exists s, flookup k g = Some s /\ teq t s).
Proof.
  induction f as [|k t f IH]; cbn; [easy|]. rewrite IH. split.
  - intros [H1 H2] k' t' [[= <- <-]|Hi]; eauto.
  - intros H. split; [eauto|]. intros k' t' Hi. eauto.
Qed.
Lemma ftwins_in f g : ftwins f g <-> (forall k t, In (k, t) (fitems f) -> exists s, flookup k g = Some s /\ twins t s).
Proof.
  induction f as [|k t f IH]; cbn; [easy|]. rewrite IH. split.
  - intros [H1 H2] k' t' [[= <- <-]|Hi]; eauto.
  - intros H. split; [eauto|]. intros k' t' Hi. eauto.
Qed.

Definition readings (f : forest) (vs : list (nat * cval)) : Prop :=
  Forall2 (fun a b => fst a = fst b /\ snd (tget (snd a)) = Ok (snd b)) (fitems f) vs.
Lemma fget_readings f : ftinv f -> exists f' vs, fget f = (f', Ok vs) /\ readings f vs.
Proof.
  induction f as [|k t f IH]; intros Hi; cbn; [do 2 eexists; split; [reflexivity|constructor]|].
  destruct Hi as [H1 H2]. destruct (tget_spec t H1) as (t' & v & E & _). rewrite E. destruct (IH H2) as (f' & vs & E2 & F). rewrite E2.
  do 2 eexists. split; [reflexivity|]. constructor; [|easy]. cbn. now rewrite E.
Qed.
Lemma node_reading h fz k s f : tinv (PNode h fz k s f) -> exists vs,
  readings f vs /\ snd (tget (PNode h fz k s f)) = Ok (match k with KDict => CDict vs | KTuple => CTuple (map snd vs) end).
Proof.
  intros (_ & _ & _ & Hi). destruct (fget_readings f Hi) as (f' & vs & E & F). exists vs. split; [easy|]. cbn [tget]. now rewrite E.
Qed.
Lemma readings_keys f vs : readings f vs -> map fst vs = fkeys f.
Proof. unfold readings, fkeys. induction 1 as [|a b l m [H _] H' IH]; cbn; congruence. Qed.
Lemma readings_length f vs : readings f vs -> length vs = length (fitems f).
Proof. unfold readings. induction 1; cbn; congruence. Qed.
Lemma readings_get f vs k t : readings f vs -> flookup k f = Some t -> exists v, dget k vs = Some v /\ snd (tget t) = Ok v.
Proof.
  intros H. destruct (dget_Forall2 (fun _ a b => snd (tget a) = Ok b) _ _ H) as [D _]. exact (D k t).
Qed.
Lemma readings_in f vs k v : readings f vs -> In (k, v) vs -> exists t, In (k, t) (fitems f) /\ snd (tget t) = Ok v.
Proof.
  unfold readings. induction 1 as [|[a t] [b w] l m [H1 H2] H IH]; cbn in *; [easy|]. subst b.
  intros [[= -> ->]|Hi]; [eauto|]. destruct (IH Hi) as (t' & A & B). eauto.
Qed.

(** two lists indexed by [0 .. n-1] *)
Lemma seq_dget {A} (l : list (nat * A)) n0 : map fst l = seq n0 (length l) -> forall i, dget (n0 + i) l = nth_error (map snd l) i.
Proof.
  revert n0. induction l as [|[k x] l IH]; intros n0 E i; cbn; [now destruct i|]. cbn in E. injection E as -> E.
  destruct i as [|i]; cbn.
  - now rewrite Nat.add_0_r, Nat.eqb_refl.
  - destruct (Nat.eqb_spec (n0 + S i) n0); [lia|]. rewrite <- (IH (S n0) E i). f_equal. lia.
Qed.
Lemma Forall2_nth {A B} (R : A -> B -> Prop) l : forall m, length l = length m ->
  (forall i x, nth_error l i = Some x -> exists y, nth_error m i = Some y /\ R x y) -> Forall2 R l m.
Proof.
  induction l as [|x l IH]; intros [|y m] Hl H; try discriminate; constructor.
  - destruct (H 0 x eq_refl) as (y' & [= <-] & Hr). exact Hr.
  - apply IH; [now injection Hl|]. intros i x' Hx. exact (H (S i) x' Hx).
Qed.
Lemma indexed_rel (R : cval -> cval -> Prop) (l m : list (nat * cval)) n : map fst l = seq 0 n -> map fst m = seq 0 n ->
  (forall k x, dget k l = Some x -> exists y, dget k m = Some y /\ R x y) -> Forall2 R (map snd l) (map snd m).
Proof.
  intros El Em H. assert (Ll : length l = n) by (rewrite <- (map_length fst), El; apply seq_length).
  assert (Lm : length m = n) by (rewrite <- (map_length fst), Em; apply seq_length).
  apply Forall2_nth; [rewrite !map_length; congruence|]. intros i x Hx. rewrite <- Ll in El. rewrite <- Lm in Em.
  rewrite <- (seq_dget l 0 El i) in Hx. destruct (H _ _ Hx) as (y & Hy & Hr). exists y. split; [|easy].
  now rewrite <- (seq_dget m 0 Em i).
Qed.

Lemma teq_value a : forall b, tinv a -> tinv b -> teq a b -> exists va vb, snd (tget a) = Ok va /\ snd (tget b) = Ok vb /\ cv_eq va vb.
Proof.
  induction a as [h fz v|h p d IH|h fz k s f IH] using ptree_ind'; intros [h' fz' v'|h' p' d'|h' fz' k' s' g] Ha Hb H; try easy.
  - cbn. eauto.
  - destruct Ha as [_ Ha], Hb as [_ Hb], H as [H1 H2]. cbn [tget].
    destruct (through_read p d Ha) as (d1 & v1 & E1 & _ & _ & _ & C1 & S1). destruct (through_read p' d' Hb) as (d2 & v2 & E2 & _ & _ & _ & C2 & S2).
    rewrite E1, E2. cbn. do 2 eexists. split; [reflexivity|]. split; [reflexivity|]. cbn.
    apply (shaped_eq d); [easy|now apply (shaped_stack d')|]. eapply veq_trans; [exact C1|]. eapply veq_trans; [exact H2|]. now apply veq_sym.
  - destruct H as (<- & Hl & H). rewrite fteq_in in H.
    destruct (node_reading _ _ _ _ _ Ha) as (vs & R1 & ->). destruct (node_reading _ _ _ _ _ Hb) as (ws & R2 & ->).
    do 2 eexists. split; [reflexivity|]. split; [reflexivity|].
    destruct Ha as (Hn & Ht & _ & Ha), Hb as (Hn' & Ht' & _ & Hb). rewrite ftinv_in in Ha, Hb.
    assert (K : forall key x, In (key, x) vs -> exists y, dget key ws = Some y /\ cv_eq x y).
    { intros key x Hx. destruct (readings_in _ _ _ _ R1 Hx) as (t & Hi & Et). destruct (H key t Hi) as (t' & Hi' & Htt).
      destruct (IH key t Hi t' (Ha _ _ Hi) (Hb _ _ (flookup_in _ _ _ Hi')) Htt) as (va & vb & Ea & Eb & Hv).
      destruct (readings_get _ _ _ _ R2 Hi') as (y & Hy & Ey). exists y. split; [easy|]. congruence. }
    destruct k.
    + apply cv_dict. split; [|easy]. now rewrite (readings_length _ _ R1), (readings_length _ _ R2).
    + apply cv_tuple. apply (indexed_rel cv_eq vs ws (length (fitems f))).
      * rewrite (readings_keys _ _ R1). now apply Ht.
      * rewrite (readings_keys _ _ R2), Hl. now apply Ht'.
      * intros key x Hx. apply K. now apply dget_some_in.
Qed.
Lemma qs_eq_iff a : forall b, qs_eq a b = true <-> veq a b.
Proof.
  induction a as [|x a IH]; intros [|y b]; cbn; split; intros H; try easy; try (now constructor); try (now inversion H).
  - apply andb_prop in H. destruct H as [H1 H2]. constructor; [now apply Qeq_bool_iff|now apply IH].
  - inversion H; subst. apply andb_true_intro. split; [now apply Qeq_bool_iff|now apply IH].
Qed.
Lemma pval_eqb_iff a b : pval_eqb a b = true <-> pv_eq a b.
Proof.
  destruct a, b; cbn; try easy.
  - apply qs_eq_iff.
  - apply Qeq_bool_iff.
  - apply Nat.eqb_eq.
Qed.
Lemma pv_eq_refl v : pv_eq v v.
Proof. destruct v; cbn; [apply veq_refl|reflexivity|reflexivity]. Qed.
Lemma strip_teq a : forall b, tinv b -> strip a = strip b -> teq a b.
Proof.
  induction a as [h fz v|h p d IH|h fz k s f IH] using ptree_ind'; intros [h' fz' v'|h' p' d'|h' fz' k' s' g] Hb H; try discriminate; cbn in H.
  - assert (v = v') by congruence. subst v'. cbn. apply pv_eq_refl.
  - assert (H1 : ld_stack d = ld_stack d') by congruence. assert (H2 : ld_root d = ld_root d') by congruence.
    cbn. split; [easy|]. unfold dden, ld_bounds, raw. rewrite H1, H2. apply veq_refl.
  - assert (k = k') by congruence. subst k'. assert (H1 : fstrip f = fstrip g) by congruence.
    apply strip_FR in H1. cbn. split; [easy|]. split; [exact (FR_length _ _ _ H1)|].
    apply fteq_in. intros key t Hi. destruct (FR_in _ _ _ _ _ H1 Hi) as (t' & Hi' & E). exists t'. split.
    + apply flookup_nodup; [apply Hb|easy].
    + apply (IH key t Hi); [|easy]. destruct Hb as (_ & _ & _ & Hb). rewrite ftinv_in in Hb. eauto.
Qed.

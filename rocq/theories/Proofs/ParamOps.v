From Coq Require Import List Arith ZArith QArith Bool Lia Permutation.
From Verif.Model Require Import Prelude MultiValue Layers Param.
From Verif.Spec Require Import Layers Param.
From Verif.Proofs Require Import Prelude MultiValue LayerValues ParamBase ParamTree.
Import ListNotations.
Open Scope nat_scope.

Definition dims (f : forest) : list (nat * nat) := sort_keys (map (fun x => (fst x, dimension (snd x))) (fitems f)).
Lemma dims_in f k n : NoDup (fkeys f) -> In (k, n) (dims f) -> exists t, flookup k f = Some t /\ dimension t = n.
Proof.
  intros Hn Hi. apply (Permutation_in _ (sort_keys_perm _)) in Hi. apply in_map_iff in Hi. destruct Hi as ([k0 t] & [= <- <-] & Hi).
  exists t. split; [now apply flookup_nodup|easy].
Qed.
Lemma dims_nodup f : NoDup (fkeys f) -> NoDup (map fst (dims f)).
Proof.
  intros Hn. apply (Permutation_NoDup (Permutation_sym (Permutation_map fst (sort_keys_perm _)))).
  rewrite map_map. exact Hn.
Qed.
Lemma dims_has f k : In k (fkeys f) -> In k (map fst (dims f)).
Proof.
  intros Hk. apply (Permutation_in _ (Permutation_sym (Permutation_map fst (sort_keys_perm _)))).
  rewrite map_map. exact Hk.
Qed.

(** * Data written then read *)
Lemma std_numbers sig : Forall (fun x => ~ x == 0)%Q sig -> forall data x, length data = length sig -> length x = length sig ->
  veq (map2 Qdiv (map2 Qminus (map2 Qmult sig (map2 Qplus data (map2 Qdiv x sig))) x) sig) data.
Proof.
  induction 1 as [|s sig Hs H IH]; intros [|a data] [|b x] H1 H2; try discriminate; cbn in *; constructor.
  - field. exact Hs.
  - apply IH; congruence.
Qed.
Lemma std_numbers' sig : Forall (fun x => ~ x == 0)%Q sig -> forall y x, length y = length sig -> length x = length sig ->
  veq (map2 Qmult sig (map2 Qplus (map2 Qdiv (map2 Qminus y x) sig) (map2 Qdiv x sig))) y.
Proof.
  induction 1 as [|s sig Hs H IH]; intros [|a data] [|b x] H1 H2; try discriminate; cbn in *; constructor.
  - field. exact Hs.
  - apply IH; congruence.
Qed.
Lemma set_std_data h p d data h' p' d' : dinv d -> check_frozen (PData h p d) = false -> length (raw d) = length (raw d') ->
  forall sig, sigma_value (length (raw d')) p' = Ok sig -> length data = length (raw d) ->
  exists d2, set_std (PData h p d) data (PData h' p' d') = (PData h p d2, Ok tt) /\ dinv d2 /\ ld_stack d2 = ld_stack d /\
    (settled (ld_bounds d) (tl (ld_stack d)) (map2 Qmult sig (map2 Qplus data (map2 Qdiv (raw d') sig))) ->
     raw d2 = map2 Qmult sig (map2 Qplus data (map2 Qdiv (raw d') sig))).
Proof.
  intros Hd Ef Hl sig Es Hdata. destruct (sigma_ok _ _ _ Es) as [Hsl Hs0]. cbn [set_std]. rewrite Ef.
  cbn [check_frozen] in Ef. apply orb_false_iff in Ef. destruct Ef as [Ef1 Ef2].
  unfold raw in Es. rewrite Es. cbn [bind]. unfold shift_data.
  assert (L1 : length (map2 Qdiv (raw d') sig) = length (raw d)) by (apply map2_length'; congruence). unfold raw at 1 in L1.
  rewrite L1, Hdata, Nat.eqb_refl. cbn [bind].
  match goal with |- context [Root ?x _] => set (x0 := x) end.
  assert (Hx : length x0 = length (raw d)) by (unfold x0; fold (raw d'); repeat apply map2_length'; congruence).
  destruct (poke_dinv d x0 Hd Hx Ef1) as (d3 & w & E3 & H1 & H2 & H3 & H4 & H5 & H6).
  unfold through. cbn [value_del ld_root ld_stack ld_caches rt_frozen]. rewrite Ef1, Ef2. cbn [orb].
  match goal with |- context [value_get ?z] => change z with (LData (ld_stack d) (map (fun _ => None) (ld_stack d)) (Root x0 false)) end.
  rewrite E3. cbn [bind]. exists (with_frozen false d3). split; [reflexivity|]. split; [now apply dinv_frozen|]. split; [exact H2|].
  intros Hset. exact (H6 Hset).
Qed.

Lemma set_get t : forall r data, tinv t -> same_shape t r -> usable t -> usable r -> check_frozen t = false ->
  length data = dimension t -> leaves unbounded t ->
  exists t', set_std t data r = (t', Ok tt) /\ exists t'' y, get_std t' r = (t'', Ok y) /\ veq y data.
Proof.
  induction t as [h fz v|h p d IH|h fz k s f IH] using ptree_ind'; intros r data Hi Hs Hu Hr Hf Hd Hb.
  - destruct r; try easy. cbn in Hd. destruct data; [|discriminate]. cbn. eexists. split; [reflexivity|]. do 2 eexists. split; [reflexivity|constructor].
  - destruct r as [|h' p' d'|]; try easy. cbn in Hs. destruct Hs as [Hl _]. destruct Hr as [sig Hr]. cbn in Hd. fold (raw d) in Hd, Hl. fold (raw d') in Hl, Hr.
    destruct Hi as [_ Hi]. destruct (set_std_data h p d data h' p' d' Hi Hf Hl sig Hr Hd) as (d2 & E & H1 & H2 & H3).
    exists (PData h p d2). split; [easy|]. specialize (H3 (unbounded_settled_d d _ Hb)). destruct (sigma_ok _ _ _ Hr) as [Hsl Hs0].
    cbn [get_std]. fold (raw d') (raw d2). rewrite Hr. cbn [bind]. rewrite H3.
    assert (L : length (map2 Qmult sig (map2 Qplus data (map2 Qdiv (raw d') sig))) = length (raw d')) by (repeat apply map2_length'; congruence).
    rewrite L, Nat.eqb_refl. do 2 eexists. split; [reflexivity|]. apply std_numbers; congruence.
  - destruct r as [| |h' fz' k' s' g]; try easy. cbn in Hs. destruct Hs as (-> & Hl & Hs). pose proof (node_matched _ _ _ _ _ _ Hi Hl Hs) as M.
    rewrite (set_std_node h fz k' s f data h' fz' s' g Hf), (known_ok _ _ _ _ _ Hi Hu). fold (dims f).
    cbn in Hd. assert (Hd' : length data = sum_sizes (dims f)) by (unfold dims; now rewrite sum_sizes_dim).
    rewrite Hd', Nat.eqb_refl. cbn [negb]. rewrite set_slices_items.
    set (at_key := fun k x => match flookup k g with Some r => fset_std_at f k x r | None => None end).
    cbn in Hu, Hr, Hb, Hf. rewrite fusable_in in Hu, Hr. rewrite fleaves_in in Hb. apply orb_false_iff in Hf. destruct Hf as [_ Hf]. rewrite fcheck_in in Hf.
    assert (Hat : forall key x, In (key, x) (slices (dims f) data) -> exists t r t', flookup key f = Some t /\ flookup key g = Some r /\
      at_key key x = Some (t', Ok tt) /\ exists t'' y, get_std t' r = (t'', Ok y) /\ veq y x).
    { intros key x Hx. destruct (slices_in _ _ _ _ Hx Hd') as (n & Hn & Hnx). destruct (dims_in _ _ _ (mt_nodup _ _ M) Hn) as (t & Ht & Hdim).
      destruct (mt_right _ _ M key t Ht) as (r & Hrr & Hsh). pose proof (flookup_in _ _ _ Ht) as Hin. pose proof (flookup_in _ _ _ Hrr) as Hin'.
      destruct (IH key t Hin r x (mt_inv _ _ M _ _ Hin) Hsh (Hu _ _ Hin) (Hr _ _ Hin') (Hf _ _ Hin) (eq_trans Hnx (eq_sym Hdim)) (Hb _ _ Hin)) as (t' & E1 & E2).
      exists t, r, t'. unfold at_key. rewrite Hrr, fset_std_at_lookup, Ht. cbn. rewrite E1. auto. }
    destruct (set_items_succeeds at_key (slices (dims f) data) f) as [f' E].
    { intros key x Hx. destruct (Hat key x Hx) as (t & r & t' & _ & _ & H & _). eauto. }
    rewrite E. eexists. split; [reflexivity|].
    destruct (set_items_ok at_key (slices (dims f) data) f f') as [O1 O2].
    { rewrite slices_keys. apply dims_nodup, M. } { exact E. }
    assert (Hkey : forall key r, flookup key g = Some r -> exists x t' t'' y, In (key, x) (slices (dims f) data) /\ flookup key f' = Some t' /\ get_std t' r = (t'', Ok y) /\ veq y x).
    { intros key r Hrr. destruct (mt_left _ _ M key r Hrr) as (t & Ht & _). assert (Hk : In key (map fst (slices (dims f) data))).
      { rewrite slices_keys. apply dims_has. apply flookup_in in Ht. now apply (in_map fst) in Ht. }
      destruct (dget key (slices (dims f) data)) as [x|] eqn:Ex; [|apply dget_none in Ex; now exfalso].
      destruct (O1 key x Ex) as (t' & A1 & A2); [eauto|]. apply dget_some_in in Ex. destruct (Hat key x Ex) as (t0 & r0 & t0' & _ & B2 & B3 & t'' & y & B4 & B5).
      assert (r0 = r) by congruence. assert (t0' = t') by congruence. subst. exists x, t', t'', y. auto. }
    cbn [get_std]. rewrite kind_eqb_refl.
    destruct (collect_ok (fget_std_at f') (fitems g) f') as (f2 & l & Ec & F).
    { intros key r Hrr. apply (flookup_nodup _ _ _ (mt_nodup' _ _ M)) in Hrr. destruct (Hkey key r Hrr) as (x & t' & t'' & y & _ & B2 & B3 & _).
      rewrite fget_std_at_lookup, B2. cbn. rewrite B3. eauto. }
    rewrite Ec. destruct (dget_Forall2 (fun k p x => exists t', fget_std_at f' k p = Some (t', Ok x)) _ _ F) as [D1 _].
    destruct (gather_slices (dims f) data l Hd' (dims_nodup f (mt_nodup _ _ M))) as (z & Ez & Hz).
    { intros key x Hx. destruct (Hat key x Hx) as (t & r & t' & B1 & B2 & B3 & t'' & y & B4 & B5).
      destruct (D1 key r B2) as (y2 & Hy2 & t2 & E2). exists y2. split; [easy|]. rewrite fget_std_at_lookup in E2.
      assert (Hx' : dget key (slices (dims f) data) = Some x) by (apply dget_in_nodup; [unfold dkeys; rewrite slices_keys; apply dims_nodup, M|easy]).
      destruct (O1 key x Hx') as (t3 & A1 & A2); [eauto|]. rewrite A2 in E2. cbn in E2. assert (t3 = t') by congruence. subst t3.
      assert (y2 = y) by congruence. now subst. }
    rewrite Ez. do 2 eexists. split; [reflexivity|easy].
Qed.

(** * Data read then written *)
Lemma get_std_node h fz k s f h' fz' s' g t' x : tinv (PNode h fz k s f) -> same_shape (PNode h fz k s f) (PNode h' fz' k s' g) ->
  get_std (PNode h fz k s f) (PNode h' fz' k s' g) = (t', Ok x) ->
  exists data, gather (dims f) data = Ok x /\
    forall key y, dget key data = Some y -> exists t r t'', flookup key f = Some t /\ flookup key g = Some r /\ get_std t r = (t'', Ok y).
Proof.
  intros Hi Hs E. destruct (get_std_inv _ _ _ _ Hi Hs E) as (H1 & H2 & _). cbn [get_std] in E. rewrite kind_eqb_refl in E.
  destruct (collect (fget_std_at f) (fitems g) f) as [f1 [data|e]] eqn:Ec; [|discriminate]. injection E as <- E. exists data.
  destruct H1 as (_ & _ & H1 & _). cbn [skel] in H2. injection H2 as H2. apply (sizes_skel _ f1 f) in H1; [|apply skel_FR; now symmetry].
  cbn in H1. rewrite H1 in E. split; [exact E|]. apply collect_inv in Ec.
  destruct (dget_Forall2 (fun k p x => exists t', fget_std_at f k p = Some (t', Ok x)) _ _ Ec) as [_ D2].
  intros key y Hy. destruct (D2 key y Hy) as (r & Hr & t2 & E2). rewrite fget_std_at_lookup in E2. destruct (flookup key f) as [t|]; [|discriminate].
  cbn in E2. injection E2 as E2. exists t, r, t2. auto.
Qed.

Lemma get_set q : forall p r p' x, tinv q -> tinv p -> twins q p -> same_shape q r -> same_shape p r -> usable q -> usable r ->
  check_frozen q = false -> get_std p r = (p', Ok x) -> exists q', set_std q x r = (q', Ok tt) /\ teq q' p.
Proof.
  induction q as [h fz v|h pq d IH|h fz k s f IH] using ptree_ind'; intros p r p' x Hq Hp Ht Hqr Hpr Hu Hr Hf E.
  - destruct p; try easy. destruct r; try easy. cbn in E. injection E as _ <-. cbn. eexists. split; [reflexivity|]. exact Ht.
  - destruct p as [|hp pp dp|]; try easy. destruct r as [|h' pr d'|]; try easy. cbn in Ht, Hqr, Hpr. destruct Ht as [Ht1 Ht2].
    destruct Hqr as [Hqr _], Hpr as [Hpr _]. destruct Hr as [sig Hr]. fold (raw d) (raw dp) (raw d') in *.
    cbn [get_std] in E. fold (raw dp) (raw d') in E. rewrite Hr in E. cbn [bind] in E. rewrite Hpr, Nat.eqb_refl in E. injection E as _ <-.
    destruct (sigma_ok _ _ _ Hr) as [Hsl Hs0]. destruct Hq as [_ Hq], Hp as [_ Hp].
    destruct (set_std_data h pq d (map2 Qdiv (map2 Qminus (raw dp) (raw d')) sig) h' pr d' Hq Hf Hqr sig Hr) as (d2 & E & H1 & H2 & H3).
    { repeat apply map2_length'; congruence. }
    exists (PData h pq d2). split; [easy|]. cbn. split; [congruence|].
    assert (V : veq (map2 Qmult sig (map2 Qplus (map2 Qdiv (map2 Qminus (raw dp) (raw d')) sig) (map2 Qdiv (raw d') sig))) (raw dp)) by (apply std_numbers'; congruence).
    unfold dden, ld_bounds. rewrite H2, Ht1. rewrite H3; [apply den_proper; exact V|].
    unfold ld_bounds. rewrite Ht1. apply (settled_proper _ _ (raw dp)); [now apply veq_sym|]. now apply dinv_settled.
  - destruct p as [| |hp fzp kp sp fp]; try easy. destruct r as [| |h' fz' k' s' g]; try easy.
    cbn in Ht. destruct Ht as (<- & Htl & Ht). pose proof Hpr as Hpr0. cbn in Hqr, Hpr. destruct Hqr as (<- & Hql & Hqs). destruct Hpr as (_ & Hpl & Hps).
    pose proof (node_matched _ _ _ _ _ _ Hq Hql Hqs) as M. pose proof (node_matched _ _ _ _ _ _ Hp Hpl Hps) as N.
    destruct (get_std_node _ _ _ _ _ _ _ _ _ _ _ Hp Hpr0 E) as (data & Eg & Hdata).
    assert (Hdims : dims f = dims fp).
    { unfold dims. rewrite (dims_keys f (mt_nodup _ _ M)), (dims_keys fp (mt_nodup _ _ N)).
      destruct (shape_keys f g (mt_nodup _ _ M) Hql Hqs) as [_ P1]. destruct (shape_keys fp g (mt_nodup _ _ N) Hpl Hps) as [_ P2].
      assert (E1 : map (fun k => (k, dim_at f k)) (fkeys f) = map (fun k => (k, dim_at fp k)) (fkeys f)).
      { apply map_ext_in. intros key Hk. f_equal. destruct (flookup_some key f Hk) as [t Htt]. destruct (mt_right _ _ M key t Htt) as (r & Hrr & Hsh).
        destruct (mt_left _ _ N key r Hrr) as (t2 & Ht2 & Hsh2). unfold dim_at. rewrite Htt, Ht2.
        rewrite <- (shape_dim t r (mt_inv _ _ M _ _ (flookup_in _ _ _ Htt)) Hsh).
        apply (shape_dim t2 r (mt_inv _ _ N _ _ (flookup_in _ _ _ Ht2)) Hsh2). }
      rewrite E1. apply sort_perm.
      - apply Permutation_map. eapply perm_trans; [exact P1|]. now apply Permutation_sym.
      - rewrite map_map. cbn. rewrite map_id. apply M. }
    assert (Hlen : forall k0 n y, In (k0, n) (dims fp) -> dget k0 data = Some y -> length y = n).
    { intros k0 n y Hin Hy. destruct (dims_in _ _ _ (mt_nodup _ _ N) Hin) as (t & Htt & Hd). destruct (Hdata k0 y Hy) as (t2 & r & t3 & A1 & A2 & A3).
      assert (t2 = t) by congruence. subst t2. destruct (mt_right _ _ N k0 t Htt) as (r' & Hr' & Hsh). assert (r' = r) by congruence. subst r'.
      destruct (get_std_inv t r _ _ (mt_inv _ _ N _ _ (flookup_in _ _ _ Htt)) Hsh A3) as (_ & _ & _ & HH). rewrite <- Hd. now apply HH. }
    rewrite (set_std_node h fz k s f x h' fz' s' g Hf), (known_ok _ _ _ _ _ Hq Hu). fold (dims f). rewrite Hdims.
    rewrite (gather_length _ _ _ Eg Hlen), Nat.eqb_refl. cbn [negb]. rewrite set_slices_items.
    set (at_key := fun k x => match flookup k g with Some r => fset_std_at f k x r | None => None end).
    cbn in Hu, Hr, Hf. rewrite fusable_in in Hu, Hr. apply orb_false_iff in Hf. destruct Hf as [_ Hf]. rewrite fcheck_in in Hf.
    assert (Hat : forall key y, In (key, y) (slices (dims fp) x) -> exists t', at_key key y = Some (t', Ok tt) /\ forall tp, flookup key fp = Some tp -> teq t' tp).
    { intros key y Hy. pose proof (slices_gather _ _ _ Eg Hlen key y Hy) as Hy'. destruct (Hdata key y Hy') as (tp & r & t3 & A1 & A2 & A3).
      destruct (mt_left _ _ M key r A2) as (t & Htt & Hsh). pose proof (flookup_in _ _ _ Htt) as Hin. pose proof (flookup_in _ _ _ A1) as Hin1. pose proof (flookup_in _ _ _ A2) as Hin2.
      rewrite ftwins_in in Ht. destruct (Ht key t Hin) as (tp2 & B1 & B2). assert (tp2 = tp) by congruence. subst tp2.
      destruct (mt_right _ _ N key tp A1) as (r' & Hr' & Hsh2). assert (r' = r) by congruence. subst r'.
      destruct (IH key t Hin tp r _ _ (mt_inv _ _ M _ _ Hin) (mt_inv _ _ N _ _ Hin1) B2 Hsh Hsh2 (Hu _ _ Hin) (Hr _ _ Hin2) (Hf _ _ Hin) A3) as (t' & E1 & E2).
      exists t'. unfold at_key. rewrite A2, fset_std_at_lookup, Htt. cbn. rewrite E1. split; [easy|]. intros tp2 Htp2. congruence. }
    destruct (set_items_succeeds at_key (slices (dims fp) x) f) as [f' E2].
    { intros key y Hy. destruct (Hat key y Hy) as (t' & H & _). eauto. }
    rewrite E2. eexists. split; [reflexivity|].
    assert (Hstep : FR (fun _ _ => True) f f').
    { refine (set_items_FR (fun _ _ => True) at_key f _ _ f f' _ (FR_refl _ (fun _ => I) f) E2).
      intros key y t' u Ek. unfold at_key in Ek. destruct (flookup key g); [|discriminate]. rewrite fset_std_at_lookup in Ek.
      destruct (flookup key f) as [t|]; [|discriminate]. eauto. }
    destruct (set_items_ok at_key (slices (dims fp) x) f f') as [O1 O2].
    { rewrite slices_keys. apply dims_nodup, N. } { exact E2. }
    cbn. split; [easy|]. split; [rewrite (FR_length _ _ _ Hstep); exact Htl|]. apply fteq_in. intros key t' Hin'.
    assert (Hn' : NoDup (fkeys f')) by (rewrite (FR_keys _ _ _ Hstep); apply M).
    apply (flookup_nodup _ _ _ Hn') in Hin'. destruct (FR_lookup' _ _ _ _ _ Hstep Hin') as (t & Htt & _).
    assert (Hk : In key (map fst (slices (dims fp) x))).
    { rewrite slices_keys, <- Hdims. apply dims_has. apply flookup_in in Htt. now apply (in_map fst) in Htt. }
    destruct (dget key (slices (dims fp) x)) as [y|] eqn:Ey; [|apply dget_none in Ey; now exfalso].
    destruct (O1 key y Ey) as (t2 & A1 & A2); [eauto|]. apply dget_some_in in Ey. destruct (Hat key y Ey) as (t3 & B1 & B2).
    assert (t3 = t') by congruence. subst t3. destruct (mt_right _ _ M key t Htt) as (r & Hrr & _). destruct (mt_left _ _ N key r Hrr) as (tp & Htp & _).
    exists tp. auto.
Qed.

(** * Values written then read *)
Lemma ftakes_in f vs : ftakes f vs <-> (forall k t, In (k, t) (fitems f) -> exists v, dget k vs = Some v /\ takes t v).
Proof.
  induction f as [|k t f IH]; cbn; [easy|]. rewrite IH. split.
  - intros [H1 H2] k' t' [[= <- <-]|Hi]; eauto.
  - intros H. split; [eauto|]. intros k' t' Hi. eauto.
Qed.
Lemma cv_ok_dict l : cv_ok (CDict l) <-> NoDup (map fst l) /\ forall k x, In (k, x) l -> cv_ok x.
Proof.
  cbn. assert (E : forall l, (fix go (l : list (nat * cval)) : Prop := match l with [] => True | (_, x) :: l' => cv_ok x /\ go l' end) l <->
    forall k x, In (k, x) l -> cv_ok x).
  { clear l. induction l as [|[k x] l IH]; cbn; [easy|]. rewrite IH. split.
    - intros [H1 H2] k' x' [[= <- <-]|Hi]; eauto.
    - intros H. split; eauto. }
  now rewrite E.
Qed.
Lemma cv_ok_tuple l : cv_ok (CTuple l) <-> forall x, In x l -> cv_ok x.
Proof.
  cbn. induction l as [|x l IH]; cbn; [easy|]. rewrite IH. split.
  - intros [H1 H2] x' [<-|Hi]; eauto.
  - intros H. split; eauto.
Qed.
Lemma same_keys_iff a b : same_keys a b = true <-> (forall k, In k a <-> In k b).
Proof.
  unfold same_keys. rewrite andb_true_iff, !forallb_forall. split.
  - intros [H1 H2] k. split; intros H.
    + specialize (H1 k H). apply existsb_exists in H1. destruct H1 as (k' & H1 & E). apply Nat.eqb_eq in E. now subst.
    + specialize (H2 k H). apply existsb_exists in H2. destruct H2 as (k' & H2 & E). apply Nat.eqb_eq in E. now subst.
  - intros H. split; intros k Hk; apply existsb_exists; exists k; (split; [now apply H|apply Nat.eqb_refl]).
Qed.
Lemma combine_keys {A} (l : list A) n : map fst (combine (seq n (length l)) l) = seq n (length l).
Proof. revert n. induction l as [|x l IH]; intros n; cbn; [easy|]. now rewrite IH. Qed.
Lemma combine_vals {A} (l : list A) n : map snd (combine (seq n (length l)) l) = l.
Proof. revert n. induction l as [|x l IH]; intros n; cbn; [easy|]. now rewrite IH. Qed.
Lemma combine_len {A} (l : list A) n : length (combine (seq n (length l)) l) = length l.
Proof. rewrite combine_length, seq_length. apply Nat.min_id. Qed.

(** the items set by a container *)
Lemma items_set f items f' : (forall k t, In (k, t) (fitems f) -> tinv t) -> NoDup (fkeys f) ->
  NoDup (map fst items) -> (forall k, In k (map fst items) <-> In k (fkeys f)) ->
  set_items (fset_at f) items f = (f', Ok tt) ->
  FR (fun a b => exists v, step a b /\ tset a v = (b, Ok tt)) f f' /\
  (forall k t', flookup k f' = Some t' -> exists t v, flookup k f = Some t /\ dget k items = Some v /\ tset t v = (t', Ok tt)).
Proof.
  intros Hi Hn Hn' Hk E. destruct (set_items_ok (fset_at f) items f f' Hn' E) as [O1 O2].
  assert (HT : FR (fun _ _ => True) f f').
  { refine (set_items_FR (fun _ _ => True) _ f _ _ f f' _ (FR_refl _ (fun _ => I) f) E).
    intros key y t' u Ek. rewrite fset_at_lookup in Ek. destruct (flookup key f) as [t|]; [|discriminate]. eauto. }
  assert (HK : forall k t', flookup k f' = Some t' -> exists t v, flookup k f = Some t /\ dget k items = Some v /\ tset t v = (t', Ok tt)).
  { intros k t' Ht'. destruct (FR_lookup' _ _ _ _ _ HT Ht') as (t & Ht & _).
    assert (Hin : In k (map fst items)) by (apply Hk; apply flookup_in in Ht; now apply (in_map fst) in Ht).
    destruct (dget k items) as [v|] eqn:Ev; [|apply dget_none in Ev; now exfalso].
    destruct (O1 k v Ev) as (t2 & A1 & A2); [eauto|]. rewrite fset_at_lookup, Ht in A1. cbn in A1. exists t, v.
    repeat split; auto. congruence. }
  split; [|exact HK].
  assert (Hn2 : NoDup (fkeys f')) by (rewrite (FR_keys _ _ _ HT); exact Hn).
  clear O1 O2 E Hk. revert f' HT HK Hn2. unfold FR.
  enough (G : forall l m, Forall2 (fun a b => fst a = fst b /\ True) l m ->
    (forall k t, In (k, t) l -> forall t', In (k, t') m -> exists v, step t t' /\ tset t v = (t', Ok tt)) ->
    Forall2 (fun a b : nat * ptree => fst a = fst b /\ (exists v, step (snd a) (snd b) /\ tset (snd a) v = (snd b, Ok tt))) l m).
  { intros f' HT HK Hn2. apply G; [exact HT|]. intros k t Ht t' Ht'. apply (flookup_nodup _ _ _ Hn) in Ht. apply (flookup_nodup _ _ _ Hn2) in Ht'.
    destruct (HK k t' Ht') as (t0 & v & A & B & C). assert (t0 = t) by congruence. subst t0. exists v. split; [|easy]. pose proof (tset_step t v) as S. now rewrite C in S. }
  induction 1 as [|[a t] [b t'] l m [H1 _] H IH]; intros HH; constructor.
  - cbn in *. subst b. split; [easy|]. apply (HH a t (or_introl eq_refl) t' (or_introl eq_refl)).
  - apply IH. intros k t0 Ht0 t0' Ht0'. apply (HH k t0 (or_intror Ht0) t0' (or_intror Ht0')).
Qed.

Lemma tset_value t : forall v t', tinv t -> leaves plain_data t -> cv_ok v -> tset t v = (t', Ok tt) -> has_value t' v.
Proof.
  induction t as [h fz c|h p d IH|h fz k s f IH] using ptree_ind'; intros v t' Hi Hp Hv E.
  - cbn in E. destruct v as [v| |]; try discriminate. injection E as <- E. destruct (pval_eqb v c) eqn:Eb; [|discriminate].
    apply pval_eqb_iff in Eb. exists (CLeaf c). split; [easy|]. destruct v, c; try easy. cbn in *. now apply veq_sym.
  - destruct Hi as [_ Hi].
    assert (G : forall w, through p (value_set w) d = (match t' with PData _ _ d' => d' | _ => d end, Ok tt) -> t' = PData h p (match t' with PData _ _ d' => d' | _ => d end) ->
      shaped d w /\ has_value t' (CLeaf w)).
    { intros w Ew Et. set (d' := match t' with PData _ _ d' => d' | _ => d end) in *. clearbody d'. subst t'.
      destruct (through_set p w d d' _ Hi Ew) as (H1 & H2 & _ & _ & _ & H6 & _). destruct (H6 eq_refl) as (H7 & _ & H8). split; [easy|].
      destruct (through_read p d' H1) as (d2 & w2 & E2 & _ & _ & _ & C2 & S2). exists (CLeaf w2). cbn [tget]. rewrite E2. split; [easy|]. cbn.
      apply (shaped_eq d'); auto; [now apply (shaped_stack d)|]. eapply veq_trans; [exact C2|]. now apply H8. }
    cbn [tset] in E. destruct v as [w|l|l].
    + destruct (through p (value_set w) d) as [d' u] eqn:Ew. injection E as <- ->. apply G; [exact Ew|reflexivity].
    + destruct (through p (value_set (VOther 0)) d) as [d' u] eqn:Ew. injection E as <- ->.
      destruct (G (VOther 0) Ew eq_refl) as [H _]. unfold shaped in H. destruct (hd LArray (ld_stack d)); destruct H; discriminate.
    + destruct (through p (value_set (VOther 0)) d) as [d' u] eqn:Ew. injection E as <- ->.
      destruct (G (VOther 0) Ew eq_refl) as [H _]. unfold shaped in H. destruct (hd LArray (ld_stack d)); destruct H; discriminate.
  - pose proof Hi as (Hn & Ht & Hz & Hi'). rewrite ftinv_in in Hi'. cbn in Hp. rewrite fleaves_in in Hp.
    assert (G : forall items f', NoDup (map fst items) -> (forall k, In k (map fst items) <-> In k (fkeys f)) -> (forall k x, In (k, x) items -> cv_ok x) ->
      set_items (fset_at f) items f = (f', Ok tt) -> tinv (PNode h fz k s f') ->
      exists vs, readings f' vs /\ snd (tget (PNode h fz k s f')) = Ok (match k with KDict => CDict vs | KTuple => CTuple (map snd vs) end) /\
        fkeys f' = fkeys f /\ (forall key x, In (key, x) vs -> exists y, dget key items = Some y /\ cv_eq x y)).
    { intros items f' Hn' Hk Hc Es Hti. destruct (items_set f items f' Hi' Hn Hn' Hk Es) as [HF HK].
      destruct (node_reading _ _ _ _ _ Hti) as (vs & R & Er). exists vs. split; [easy|]. split; [easy|]. split; [exact (FR_keys _ _ _ HF)|].
      intros key x Hx. destruct (readings_in _ _ _ _ R Hx) as (tk & Htk & Ex).
      destruct (HK key tk) as (t & y & A1 & A2 & A3); [apply flookup_nodup; [rewrite (FR_keys _ _ _ HF); exact Hn|easy]|].
      exists y. split; [easy|]. pose proof (flookup_in _ _ _ A1) as Hin. apply dget_some_in in A2.
      destruct (IH key t Hin y tk (Hi' _ _ Hin) (Hp _ _ Hin) (Hc _ _ A2) A3) as (w & B1 & B2). congruence. }
    pose proof (tset_step (PNode h fz k s f) v Hi) as (Hti & _). rewrite E in Hti. cbn [fst] in Hti.
    destruct k; cbn [tset] in E; destruct v as [w|vs|vs]; try discriminate.
    + destruct (same_keys _ _) eqn:Ek; [|discriminate]. destruct (set_items (fset_at f) vs f) as [f' u] eqn:Es. injection E as <- ->.
      apply cv_ok_dict in Hv. destruct Hv as [Hv1 Hv2]. pose proof (proj1 (same_keys_iff _ _) Ek) as Hk.
      destruct (G vs f' Hv1 Hk Hv2 Es Hti) as (ws & R & Er & Ekk & HH). exists (CDict ws). split; [easy|]. apply cv_dict. split; [|easy].
      rewrite <- (map_length fst ws), (readings_keys _ _ R), Ekk, <- (map_length fst vs).
      apply Permutation_length. apply NoDup_Permutation; auto. intros k. symmetry. apply Hk.
    + destruct (Nat.eqb_spec (length vs) (length (fitems f))) as [El|El]; [|discriminate].
      destruct (set_items (fset_at f) _ f) as [f' u] eqn:Es. injection E as <- ->. rewrite cv_ok_tuple in Hv.
      assert (Hks : map fst (combine (seq 0 (length vs)) vs) = fkeys f) by (rewrite combine_keys, El; symmetry; now apply Ht).
      destruct (G (combine (seq 0 (length vs)) vs) f') as (ws & R & Er & Ekk & HH); auto.
      { rewrite Hks. exact Hn. } { intros key. now rewrite Hks. } { intros key x Hx. apply in_combine_r in Hx. auto. }
      exists (CTuple (map snd ws)). split; [easy|]. apply cv_tuple. rewrite <- (combine_vals vs 0) at 1.
      apply (indexed_rel cv_eq ws (combine (seq 0 (length vs)) vs) (length vs)).
      * rewrite (readings_keys _ _ R), Ekk, <- Hks. apply combine_keys.
      * apply combine_keys.
      * intros key x Hx. apply HH. now apply dget_some_in.
Qed.

(** which values are accepted *)
Lemma tset_takes t : forall v, tinv t -> cv_ok v -> (snd (tset t v) = Ok tt <-> takes t v).
Proof.
  induction t as [h fz c|h p d IH|h fz k s f IH] using ptree_ind'; intros v Hi Hv.
  - cbn. destruct v as [v| |]; cbn; try (split; easy). destruct (pval_eqb v c) eqn:Eb; split; try easy.
    + intros _. now apply pval_eqb_iff.
    + intros H. apply pval_eqb_iff in H. congruence.
  - destruct Hi as [_ Hi]. cbn [tset].
    assert (G : forall w, snd (let '(d', u) := through p (value_set w) d in (PData h p d', u)) = Ok tt <->
      check_frozen (PData h p d) = false /\ snd (value_set w d) = Ok tt).
    { intros w. destruct (through p (value_set w) d) as [d' u] eqn:Ew. cbn [snd check_frozen].
      destruct (through_set p w d d' u Hi Ew) as (_ & _ & _ & _ & _ & _ & H7 & H8).
      destruct (rt_frozen (ld_root d) || check_frozen p) eqn:Ef.
      - destruct (H7 eq_refl) as [e ->]. split; [discriminate|]. now intros [? _].
      - rewrite (H8 eq_refl). cbn. split; [auto|tauto]. }
    assert (N : ~ (check_frozen (PData h p d) = false /\ snd (value_set (VOther 0) d) = Ok tt)).
    { intros [_ H]. destruct (value_set (VOther 0) d) as [d' u] eqn:Ew. cbn in H. subst u.
      destruct (set_dinv _ _ _ _ Hi Ew) as (_ & _ & _ & _ & _ & H6 & _). destruct (H6 eq_refl) as [Hs _].
      unfold shaped in Hs. destruct (hd LArray (ld_stack d)); destruct Hs; discriminate. }
    destruct v as [w|l|l]; [apply G| |]; (split; [intros H; apply G in H; now apply N|easy]).
  - pose proof Hi as (Hn & Ht & Hz & Hi'). rewrite ftinv_in in Hi'.
    assert (G : forall items, NoDup (map fst items) -> (forall k, In k (map fst items) <-> In k (fkeys f)) -> (forall k x, In (k, x) items -> cv_ok x) ->
      (snd (let '(f', u) := set_items (fset_at f) items f in (PNode h fz k s f', u)) = Ok tt <-> ftakes f items)).
    { intros items Hn' Hk Hc. rewrite ftakes_in. split.
      - intros H key t Hin. destruct (set_items (fset_at f) items f) as [f' u] eqn:Es. cbn in H. subst u.
        assert (Hkey : In key (map fst items)) by (apply Hk; now apply (in_map fst) in Hin).
        destruct (dget key items) as [v0|] eqn:Ev; [|apply dget_none in Ev; now exfalso]. exists v0. split; [easy|].
        apply dget_some_in in Ev. destruct (set_items_all_ok _ _ _ _ Es key v0 Ev) as [t' Et]. rewrite fset_at_lookup, (flookup_nodup _ _ _ Hn Hin) in Et.
        cbn in Et. injection Et as Et. apply (IH key t Hin v0 (Hi' _ _ Hin) (Hc _ _ Ev)). now rewrite Et.
      - intros H. destruct (set_items_succeeds (fset_at f) items f) as [f' E]; [|now rewrite E].
        intros key v0 Hv0. assert (Hkey : In key (fkeys f)) by (apply Hk; now apply (in_map fst) in Hv0).
        destruct (flookup_some key f Hkey) as [t Htt]. pose proof (flookup_in _ _ _ Htt) as Hin. destruct (H key t Hin) as (v1 & Ev1 & Htk).
        assert (v1 = v0). { apply (dget_in_nodup key v0 items Hn') in Hv0. congruence. } subst v1.
        apply (IH key t Hin v0 (Hi' _ _ Hin) (Hc _ _ Hv0)) in Htk. rewrite fset_at_lookup, Htt. cbn. destruct (tset t v0) as [t' u]. cbn in Htk. subst. eauto. }
    destruct k; cbn [tset]; destruct v as [w|vs|vs]; cbn [takes snd]; try (split; easy).
    + apply cv_ok_dict in Hv. destruct Hv as [Hv1 Hv2]. destruct (same_keys (map fst vs) (fkeys f)) eqn:Ek.
      * pose proof (proj1 (same_keys_iff _ _) Ek) as Hk. rewrite (G vs Hv1 Hk Hv2).
        assert (Hl : length vs = length (fitems f)).
        { rewrite <- (map_length fst vs), <- (map_length fst (fitems f)). apply Permutation_length. apply NoDup_Permutation; auto. }
        tauto.
      * split; [discriminate|]. intros (_ & Hl & HT). exfalso. assert (same_keys (map fst vs) (fkeys f) = true); [|congruence].
        apply same_keys_iff. rewrite ftakes_in in HT.
        assert (I1 : incl (fkeys f) (map fst vs)).
        { intros key Hkey. destruct (flookup_some key f Hkey) as [t Htt]. destruct (HT key t (flookup_in _ _ _ Htt)) as (v0 & Ev0 & _).
          apply dget_some_in in Ev0. now apply (in_map fst) in Ev0. }
        intros key. split; [|apply I1]. apply (NoDup_length_incl Hn); [|exact I1]. unfold fkeys. rewrite !map_length. lia.
    + destruct (Nat.eqb_spec (length vs) (length (fitems f))) as [El|El]; cbn [snd]; [|split; [discriminate|tauto]].
      rewrite cv_ok_tuple in Hv.
      assert (Hks : map fst (combine (seq 0 (length vs)) vs) = fkeys f) by (rewrite combine_keys, El; symmetry; now apply Ht).
      rewrite (G (combine (seq 0 (length vs)) vs)); [tauto| | |].
      { rewrite Hks. exact Hn. } { intros key. now rewrite Hks. } { intros key x Hx. apply in_combine_r in Hx. auto. }
Qed.

(** * Other operations *)
Lemma set_self_step t data : step t (fst (set_std t data t)).
Proof. intros Hi. exact (set_std_step t data t (shape_refl t Hi) Hi). Qed.
Lemma step_then a b c : step a b -> step b c -> step a c.
Proof. apply step_trans. Qed.

Lemma mutate_step rnd t : forall i, step t (fst (fst (mutate rnd t i))).
Proof.
  induction t as [h fz v|h p d IH|h fz k s f IH] using ptree_ind'; intros i.
  - apply step_refl.
  - cbn [mutate]. destruct (check_frozen _); [apply step_refl|]. specialize (IH i). destruct (mutate rnd p i) as [[p' i1] u]. cbn in IH.
    assert (S : step (PData h p d) (PData h p' d)) by (apply step_data; auto).
    destruct u as [[]|e]; [|exact S].
    match goal with |- context [set_std ?t ?x ?t] => pose proof (set_self_step t x) as S2; destruct (set_std t x t) as [t2 u2] end.
    exact (step_trans _ _ _ S S2).
  - cbn [mutate]. destruct (check_frozen _); [apply step_refl|].
    assert (F : forall j, FR step f (fst (fst (fmutate rnd f j)))).
    { clear -IH. induction f as [|k' t f IHf]; intros j; cbn; [constructor|].
      specialize (IHf (fun key t' Hi => IH key t' (or_intror Hi))). pose proof (IH k' t (or_introl eq_refl) j) as S.
      destruct (mutate rnd t j) as [[t' i1] u]. cbn in S. destruct u as [[]|e].
      - specialize (IHf i1). destruct (fmutate rnd f i1) as [[f' i2] u]. cbn. now constructor.
      - cbn. constructor; [easy|]. apply FR_refl, step_refl. }
    specialize (F i). destruct (fmutate rnd f i) as [[f' i1] u]. cbn in F.
    assert (S : step (PNode h fz k s f) (PNode h fz k s f')) by (apply step_node; auto; now intros (_ & _ & H & _)).
    destruct u as [[]|e]; [|exact S].
    match goal with |- context [set_std ?t ?x ?t] => pose proof (set_self_step t x) as S2; destruct (set_std t x t) as [t2 u2] end.
    exact (step_trans _ _ _ S S2).
Qed.

Lemma recombine_step t : forall others, step t (fst (recombine t others)).
Proof.
  induction t as [h fz v|h p d IH|h fz k s f IH] using ptree_ind'; intros others.
  - apply step_refl.
  - cbn [recombine]. destruct (_ =? 0); [apply step_refl|]. destruct (check_frozen _); [apply step_refl|]. destruct (negb _); [apply step_refl|].
    destruct (all_some params_of others) as [ps|e]; [|apply step_refl]. specialize (IH ps). destruct (recombine p ps) as [p' u]. cbn [fst] in IH.
    assert (S : step (PData h p d) (PData h p' d)) by (apply step_data; auto).
    destruct u as [[]|e]; [|exact S]. destruct (all_std _ _) as [arrays|e]; [|exact S].
    exact (step_trans _ _ _ S (set_self_step _ _)).
  - cbn [recombine]. destruct (_ =? 0); [apply step_refl|]. destruct (check_frozen _); [apply step_refl|]. destruct (negb _); [apply step_refl|].
    assert (F : FR step f (fst (frecombine f others))).
    { clear -IH. induction f as [|k' t f IHf]; cbn; [constructor|].
      specialize (IHf (fun key t' Hi => IH key t' (or_intror Hi))).
      destruct (all_some (sub_of k') others) as [subs|e]; [|apply FR_refl, step_refl].
      pose proof (IH k' t (or_introl eq_refl) subs) as S.
      destruct (recombine t subs) as [t' u]. cbn in S. destruct u as [[]|e].
      - destruct (frecombine f others) as [f' u]. cbn. now constructor.
      - cbn. constructor; [easy|]. apply FR_refl, step_refl. }
    destruct (frecombine f others) as [f' u]. cbn in F. cbn [fst]. apply step_node; auto. now intros (_ & _ & H & _).
Qed.

Lemma freeze_frozen t : all_frozen (freeze t).
Proof.
  induction t as [h fz v|h p d IH|h fz k s f IH] using ptree_ind'; cbn; auto. split; [easy|].
  induction f as [|k' t f IHf]; cbn in *; [easy|]. split; [apply (IH k' t); now left|]. apply IHf. intros key t' Hi. apply (IH key t'). now right.
Qed.
Lemma freeze_id t : all_frozen t -> freeze t = t.
Proof.
  induction t as [h fz v|h p d IH|h fz k s f IH] using ptree_ind'; cbn; intros H.
  - now subst.
  - destruct H as [H1 H2]. rewrite (IH H2). rewrite <- H1. now rewrite with_frozen_id.
  - destruct H as [-> H]. f_equal. induction f as [|k' t f IHf]; cbn in *; [easy|]. destruct H as [H1 H2].
    rewrite (IH k' t (or_introl eq_refl) H1), IHf; auto. intros key t' Hi. apply (IH key t'). now right.
Qed.
Lemma ffreeze_items f : fitems (ffreeze f) = map (fun x => (fst x, freeze (snd x))) (fitems f).
Proof. induction f; cbn; congruence. Qed.
Lemma FR_map_f (R : ptree -> ptree -> Prop) (F : forest -> forest) (G : ptree -> ptree) f :
  (forall f, fitems (F f) = map (fun x => (fst x, G (snd x))) (fitems f)) ->
  (forall k t, In (k, t) (fitems f) -> R t (G t)) -> FR R f (F f).
Proof.
  intros HF H. unfold FR. rewrite HF. induction (fitems f) as [|[k t] l IH]; cbn; constructor.
  - split; [easy|]. apply (H k t). now left.
  - apply IH. intros k' t' Hi. apply (H k' t'). now right.
Qed.
Lemma freeze_step t : step t (freeze t).
Proof.
  assert (H : tinv t -> tinv (freeze t) /\ skel (freeze t) = skel t).
  { induction t as [h fz v|h p d IH|h fz k s f IH] using ptree_ind'.
    - now split.
    - intros [H1 H2]. destruct (IH H1) as [I1 I2]. cbn. rewrite I2. split; [|reflexivity]. split; [easy|]. now apply dinv_frozen.
    - intros (H1 & H2 & H3 & H4). rewrite ftinv_in in H4.
      assert (F : FR (fun a b => tinv b /\ skel b = skel a) f (ffreeze f)).
      { apply (FR_map_f _ ffreeze freeze); [apply ffreeze_items|]. intros key t Hi. apply (IH key t Hi). eauto. }
      assert (F2 : FR (fun a b => skel b = skel a) f (ffreeze f)) by (eapply FR_mono; [|exact F]; cbn; tauto).
      split; [|cbn; now rewrite (FR_skel _ _ F2)]. cbn. rewrite (FR_keys _ _ _ F), (FR_length _ _ _ F). repeat split; auto.
      + now apply (sizes_skel s f).
      + apply ftinv_in. intros key t Hi. destruct (FR_in _ _ _ _ _ F Hi) as (t0 & _ & A & _). exact A. }
  intros Hi. destruct (H Hi). repeat split; auto. intros Hf. now rewrite freeze_id.
Qed.
Lemma loss_step l t : step t (set_loss l t).
Proof.
  destruct t as [h fz v|h p d|h fz k s f]; cbn.
  - intros _. now repeat split.
  - apply step_data; [apply step_refl|reflexivity|auto].
  - apply step_node; [intros _; apply FR_refl, step_refl|now intros (_ & _ & H & _)|reflexivity].
Qed.

(** operations *)
Lemma t_step_step o t : op_fits o t -> step t (fst (t_step o t)).
Proof.
  intros Ho Hi. destruct o as [|v|ref|data ref|rnd|others| |l]; cbn [t_step].
  - destruct (tget_spec t Hi) as (t' & v & E & H & _). rewrite E. now apply H.
  - now apply tset_step.
  - assert (Hs : same_shape t (match ref with Some r => r | None => t end)) by (destruct ref; [exact Ho|now apply shape_refl]).
    destruct (get_std t _) as [t' u] eqn:E. destruct (get_std_inv _ _ _ _ Hi Hs E) as (H1 & H2 & H3 & _). cbn. auto.
  - assert (Hs : same_shape t (match ref with Some r => r | None => t end)) by (destruct ref; [exact Ho|now apply shape_refl]).
    now apply set_std_step.
  - pose proof (mutate_step rnd t 0 Hi) as H. destruct (mutate rnd t 0) as [[t' i] u]. exact H.
  - now apply recombine_step.
  - now apply freeze_step.
  - now apply loss_step.
Qed.
Lemma at_path_step {A} (op : ptree -> ptree * A) path : forall t s t' a, sub_at path t = Some s -> step s (fst (op s)) ->
  at_path path op t = Some (t', a) -> step t t'.
Proof.
  induction path as [|[k|] path IH]; intros t s t' a Hs Hop E; cbn in *.
  - injection Hs as ->. injection E as E. now rewrite E in Hop.
  - destruct t as [| |h fz kd sz f]; try discriminate. destruct (flookup k f) as [sub|] eqn:Ef; [|discriminate].
    destruct (at_path path op sub) as [[sub' a']|] eqn:Ea; [|discriminate]. cbn in E. injection E as <- <-.
    apply step_node; [|now intros (_ & _ & H & _)|reflexivity]. intros _. apply (FR_fset step f f k sub); [apply FR_refl, step_refl|easy|eauto].
  - destruct t as [|h p d|]; try discriminate. destruct (at_path path op p) as [[p' a']|] eqn:Ea; [|discriminate]. cbn in E. injection E as <- <-.
    apply step_data; [eauto|reflexivity|auto].
Qed.
Lemma at_path_sub {A} (op : ptree -> ptree * A) path : forall t, at_path path op t <> None <-> sub_at path t <> None.
Proof.
  induction path as [|[k|] path IH]; intros t; cbn.
  - split; discriminate.
  - destruct t as [| |h fz kd sz f]; try easy. destruct (flookup k f) as [sub|]; [|easy]. rewrite <- IH. now destruct (at_path path op sub) as [[? ?]|].
  - destruct t as [|h p d|]; try easy. rewrite <- IH. now destruct (at_path path op p) as [[? ?]|].
Qed.
Lemma run1_step t path o s : sub_at path t = Some s -> op_fits o s -> step t (t_run1 t (path, o)).
Proof.
  intros Hs Ho. unfold t_run1. cbn [fst snd]. destruct (at_path path (t_step o) t) as [[t' a]|] eqn:E; [|apply step_refl].
  apply (at_path_step (t_step o) path t s t' a Hs); [|easy]. now apply t_step_step.
Qed.

(** * Copies *)
Lemma tcopy_spec t : forall next, tinv t -> tinv (fst (tcopy t next)) /\ skel (fst (tcopy t next)) = skel t /\ teq (fst (tcopy t next)) t.
Proof.
  induction t as [h fz v|h p d IH|h fz k s f IH] using ptree_ind'; intros next Hi.
  - cbn. repeat split; auto. apply pv_eq_refl.
  - cbn [tcopy]. destruct Hi as [H1 H2]. destruct (IH (S next) H1) as (I1 & I2 & I3). destruct (tcopy p (S next)) as [p' n']. cbn [fst] in *.
    split; [split; [easy|now apply dinv_frozen, del_dinv]|]. split; [cbn; now rewrite I2|]. cbn. split; [reflexivity|apply veq_refl].
  - cbn [tcopy]. pose proof Hi as (H1 & H2 & H3 & H4). rewrite ftinv_in in H4.
    assert (F : forall nx, FR (fun a b => tinv b /\ skel b = skel a /\ teq b a) f (fst (fcopy f nx))).
    { clear -IH H4. induction f as [|k' t f IHf]; intros nx; cbn; [constructor|].
      specialize (IHf (fun key t' Hk => IH key t' (or_intror Hk)) (fun key t' Hk => H4 key t' (or_intror Hk))).
      pose proof (IH k' t (or_introl eq_refl) nx (H4 k' t (or_introl eq_refl))) as S. destruct (tcopy t nx) as [t' n1].
      specialize (IHf n1). destruct (fcopy f n1) as [f' n2]. cbn. now constructor. }
    specialize (F (S next)). destruct (fcopy f (S next)) as [f' n']. cbn [fst] in *.
    assert (F2 : FR (fun a b => skel b = skel a) f f') by (eapply FR_mono; [|exact F]; cbn; tauto).
    split; [|split].
    + cbn. rewrite (FR_keys _ _ _ F), (FR_length _ _ _ F). repeat split; auto; [now apply (sizes_skel s f)|].
      apply ftinv_in. intros key t Hk. destruct (FR_in _ _ _ _ _ F Hk) as (t0 & _ & A & _). exact A.
    + cbn. now rewrite (FR_skel _ _ F2).
    + cbn. split; [easy|]. split; [exact (FR_length _ _ _ F)|]. apply fteq_in. intros key t Hk. destruct (FR_in _ _ _ _ _ F Hk) as (t0 & Hi0 & _ & _ & A).
      exists t0. split; [now apply flookup_nodup|easy].
Qed.

(** * Parenthood *)
(** headers and structure only *)
Definition no_data : ldata := ld_new [] [].
Fixpoint hskel (t : ptree) : ptree :=
  match t with
  | PConst h fz _ => PConst h fz (VOther 0)
  | PData h p d => PData h (hskel p) (with_frozen (rt_frozen (ld_root d)) no_data)
  | PNode h fz k _ f => PNode h fz k None (fhskel f)
  end
with fhskel (f : forest) : forest :=
  match f with FNil => FNil | FCons k t f' => FCons k (hskel t) (fhskel f') end.
Lemma FR_hskel f g : FR (fun a b => hskel b = hskel a) f g -> fhskel g = fhskel f.
Proof.
  revert g. induction f as [|k t f IH]; intros [|k' t' g] H; inversion H as [|? ? ? ? [H1 H2] H3]; subst; cbn; [easy|].
  cbn in *. subst. f_equal; auto.
Qed.
Lemma fhskel_lookup k f : flookup k (fhskel f) = option_map hskel (flookup k f).
Proof. unfold flookup. induction f as [|k' t f IH]; cbn; [easy|]. now destruct (k =? k'). Qed.
Lemma sub_hskel path : forall t, sub_at path (hskel t) = option_map hskel (sub_at path t).
Proof.
  induction path as [|[k|] path IH]; intros t; cbn; [easy| |].
  - destruct t as [| |h fz kd s f]; cbn; try easy. rewrite fhskel_lookup. destruct (flookup k f); cbn; [apply IH|easy].
  - destruct t; cbn; easy.
Qed.
Lemma through_frozen {A} p (op : ldata -> ldata * A) d d' a : through p op d = (d', a) -> rt_frozen (ld_root d') = rt_frozen (ld_root d).
Proof. unfold through. destruct (op _) as [d1 a1]. now intros [= <- <-]. Qed.
Lemma tset_hskel t : forall v, hskel (fst (tset t v)) = hskel t.
Proof.
  induction t as [h fz c|h p d IH|h fz k s f IH] using ptree_ind'; intros v.
  - cbn. now destruct v.
  - cbn [tset]. assert (G : forall w, hskel (fst (let '(d', u) := through p (value_set w) d in (PData h p d', u))) = hskel (PData h p d)).
    { intros w. destruct (through p (value_set w) d) as [d' u] eqn:E. cbn. now rewrite (through_frozen _ _ _ _ _ E). }
    destruct v; apply G.
  - assert (G : forall vs, hskel (fst (let '(f', u) := set_items (fset_at f) vs f in (PNode h fz k s f', u))) = hskel (PNode h fz k s f)).
    { intros vs. destruct (set_items (fset_at f) vs f) as [f' u] eqn:E. cbn. f_equal. apply FR_hskel.
      refine (set_items_FR (fun a b => hskel b = hskel a) (fset_at f) f _ vs f f' u (FR_refl _ (fun _ => eq_refl) f) E).
      intros key w t' u' Ek. rewrite fset_at_lookup in Ek. destruct (flookup key f) as [t|] eqn:El; [|discriminate].
      cbn in Ek. injection Ek as Ek. exists t. split; [easy|]. pose proof (IH key t (flookup_in _ _ _ El) w) as H. now rewrite Ek in H. }
    cbn [tset]. destruct k, v; try reflexivity.
    + destruct (same_keys _ _); [apply G|reflexivity].
    + destruct (_ =? _); [apply G|reflexivity].
Qed.
Lemma uids_hskel t : uids_of (hskel t) = uids_of t.
Proof.
  induction t as [h fz c|h p d IH|h fz k s f IH] using ptree_ind'; cbn; [easy|now rewrite IH|]. f_equal.
  induction f as [|k' t f IHf]; cbn in *; [easy|]. rewrite (IH k' t (or_introl eq_refl)), IHf; [easy|]. intros key t' Hi. apply (IH key t'). now right.
Qed.

(** a child and its parent *)
Fixpoint heir (t c : ptree) {struct t} : Prop :=
  match t, c with
  | PConst h _ v, PConst h' fz v' => child_of h h' /\ fz = false /\ v' = v
  | PData h p d, PData h' p' d' =>
      child_of h h' /\ heir p p' /\ d' = with_frozen false (value_del d)
  | PNode h _ k s f, PNode h' fz k' s' f' => child_of h h' /\ fz = false /\ k' = k /\ s' = s /\ fheir f f'
  | _, _ => False
  end
with fheir (f g : forest) {struct f} : Prop :=
  match f, g with
  | FNil, FNil => True
  | FCons k t f', FCons k' t' g' => k' = k /\ heir t t' /\ fheir f' g'
  | _, _ => False
  end.
Lemma fheir_FR f : forall g, fheir f g <-> FR heir f g.
Proof.
  induction f as [|k t f IH]; intros [|k' t' g]; cbn; split; intros H; try easy; try (now inversion H).
  - constructor.
  - destruct H as (-> & H1 & H2). constructor; [easy|]. now apply IH.
  - inversion H as [|? ? ? ? [H1 H2] H3]; subst. cbn in *. subst. repeat split; auto. now apply IH.
Qed.
Lemma seq_cut a b c : a <= b -> b <= c -> seq a (c - a) = seq a (b - a) ++ seq b (c - b).
Proof. intros H1 H2. replace (c - a) with ((b - a) + (c - b)) by lia. rewrite seq_app. do 2 f_equal. lia. Qed.
Lemma child_of_copy h next : child_of h (child_header (copy_header next h) h).
Proof. now repeat split. Qed.
Lemma adopt_copy t : tinv t -> forall next, exists c, adopt (fst (tcopy t next)) t = Ok c /\ heir t c /\
  next < snd (tcopy t next) /\ uids_of c = seq next (snd (tcopy t next) - next).
Proof.
  induction t as [h fz v|h p d IH|h fz k s f IH] using ptree_ind'; intros Hi next.
  - cbn [tcopy fst snd adopt header_of]. eexists. split; [reflexivity|]. split; [repeat split|]. split; [lia|]. cbn [uids_of child_header copy_header h_uid]. now replace (S next - next) with 1 by lia.
  - destruct Hi as [Hi _]. cbn [tcopy]. destruct (IH Hi (S next)) as (c & E & H1 & H2 & H3). destruct (tcopy p (S next)) as [p' n']. cbn [fst snd] in *.
    cbn [adopt]. rewrite E. cbn [bind]. eexists. split; [reflexivity|]. split; [repeat split; auto|]. split; [lia|].
    cbn. rewrite H3. replace (n' - next) with (S (n' - S next)) by lia. reflexivity.
  - pose proof Hi as (Hn & _ & _ & Hi'). rewrite ftinv_in in Hi'. cbn [tcopy].
    assert (G : forall g, (forall key t, In (key, t) (fitems g) -> In (key, t) (fitems f)) -> forall nx, exists g', fadopt (fst (fcopy g nx)) f = Ok g' /\ fheir g g' /\
      nx <= snd (fcopy g nx) /\ fuids_of g' = seq nx (snd (fcopy g nx) - nx)).
    { induction g as [|k' t g IHg]; intros Hg nx; cbn.
      - eexists. split; [reflexivity|]. rewrite Nat.sub_diag. repeat split; auto.
      - assert (Hin : In (k', t) (fitems f)) by (apply Hg; now left).
        destruct (IH k' t Hin (Hi' _ _ Hin) nx) as (c & E & A1 & A2 & A3). destruct (tcopy t nx) as [t' n1]. cbn [fst snd] in *.
        destruct (IHg (fun key t' Hk => Hg key t' (or_intror Hk)) n1) as (g' & E2 & B1 & B2 & B3). destruct (fcopy g n1) as [g2 n2]. cbn [fst snd fadopt] in *.
        rewrite (flookup_nodup _ _ _ Hn Hin), E. cbn [bind]. rewrite E2. cbn [bind]. eexists. split; [reflexivity|]. split; [auto|]. split; [lia|].
        cbn. rewrite A3, B3. symmetry. apply seq_cut; lia. }
    destruct (G f (fun _ _ H => H) (S next)) as (g' & E & A1 & A2 & A3). destruct (fcopy f (S next)) as [f' n']. cbn [fst snd] in *.
    cbn [adopt]. rewrite E. cbn [bind]. eexists. split; [reflexivity|]. split; [repeat split; auto|]. split; [lia|].
    cbn. rewrite A3. replace (n' - next) with (S (n' - S next)) by lia. reflexivity.
Qed.
Lemma heir_spec t : forall c, tinv t -> heir t c -> tinv c /\ skel c = skel t /\ teq c t.
Proof.
  induction t as [h fz v|h p d IH|h fz k s f IH] using ptree_ind'; intros [h' fz' v'|h' p' d'|h' fz' k' s' g] Hi H; try easy.
  - destruct H as (_ & -> & ->). cbn. repeat split. apply pv_eq_refl.
  - destruct H as (_ & H1 & ->). destruct Hi as [Hi1 Hi2]. destruct (IH _ Hi1 H1) as (I1 & I2 & I3).
    split; [split; [easy|now apply dinv_frozen, del_dinv]|]. split; [cbn; now rewrite I2|]. cbn. split; [reflexivity|apply veq_refl].
  - cbn in H. destruct H as (_ & -> & -> & -> & H). apply fheir_FR in H. pose proof Hi as (H1 & H2 & H3 & H4). rewrite ftinv_in in H4.
    assert (F : FR (fun a b => tinv b /\ skel b = skel a /\ teq b a) f g).
    { eapply FR_mono; [|exact H]. intros key a b Hk Hh. apply (IH key a Hk b (H4 _ _ Hk) Hh). }
    assert (F2 : FR (fun a b => skel b = skel a) f g) by (eapply FR_mono; [|exact F]; cbn; tauto).
    split; [|split].
    + cbn. rewrite (FR_keys _ _ _ F), (FR_length _ _ _ F). repeat split; auto; [now apply (sizes_skel s f)|].
      apply ftinv_in. intros key t Hk. destruct (FR_in _ _ _ _ _ F Hk) as (t0 & _ & A & _). exact A.
    + cbn. now rewrite (FR_skel _ _ F2).
    + cbn. split; [easy|]. split; [exact (FR_length _ _ _ F)|]. apply fteq_in. intros key t Hk. destruct (FR_in _ _ _ _ _ F Hk) as (t0 & Hi0 & _ & _ & A).
      exists t0. split; [now apply flookup_nodup|easy].
Qed.
Lemma heir_path path : forall t c, heir t c ->
  (forall s, sub_at path t = Some s -> exists c', sub_at path c = Some c' /\ heir s c') /\
  (forall c', sub_at path c = Some c' -> exists s, sub_at path t = Some s /\ heir s c').
Proof.
  induction path as [|[k|] path IH]; intros t c H; cbn.
  - split; intros x [= <-]; eauto.
  - destruct t as [| |h fz kd s f], c as [| |h' fz' kd' s' g]; try easy. cbn in H. destruct H as (_ & _ & _ & _ & H). apply fheir_FR in H.
    destruct (flookup k f) as [t|] eqn:Ef, (flookup k g) as [c|] eqn:Eg; try easy.
    + destruct (FR_lookup _ _ _ _ _ H Ef) as (c' & Ec & Hh). apply IH. congruence.
    + destruct (FR_lookup _ _ _ _ _ H Ef) as (c' & Ec & Hh). congruence.
    + destruct (FR_lookup' _ _ _ _ _ H Eg) as (c' & Ec & Hh). congruence.
  - destruct t as [|h p d|], c as [|h' p' d'|]; try easy. apply IH. apply H.
Qed.
Lemma heir_head t c : heir t c -> child_of (header_of t) (header_of c) /\ is_frozen c = false.
Proof. destruct t, c; cbn; try easy; intros H; (split; [apply H|]); try apply H. destruct H as (_ & _ & ->). reflexivity. Qed.
Lemma sub_inv path : forall t s, tinv t -> sub_at path t = Some s -> tinv s.
Proof.
  induction path as [|[k|] path IH]; intros t s Hi E; cbn in E.
  - now injection E as <-.
  - destruct t as [| |h fz kd sz f]; try discriminate. destruct (flookup k f) as [sub|] eqn:Ef; [|discriminate]. apply (IH sub); auto.
    destruct Hi as (_ & _ & _ & Hi). rewrite ftinv_in in Hi. exact (Hi _ _ (flookup_in _ _ _ Ef)).
  - destruct t as [|h p d|]; try discriminate. apply (IH p); auto. apply Hi.
Qed.

(** * Orphans *)
Lemma forphan_items f : fitems (forphan f) = map (fun x => (fst x, orphan (snd x))) (fitems f).
Proof. induction f; cbn; congruence. Qed.
Lemma orphan_spec t : tinv t -> tinv (orphan t) /\ skel (orphan t) = skel t.
Proof.
  induction t as [h fz v|h p d IH|h fz k s f IH] using ptree_ind'.
  - now split.
  - intros [H1 H2]. destruct (IH H1) as [I1 I2]. cbn. rewrite I2. auto.
  - intros (H1 & H2 & H3 & H4). rewrite ftinv_in in H4.
    assert (F : FR (fun a b => tinv b /\ skel b = skel a) f (forphan f)).
    { apply (FR_map_f _ forphan orphan); [apply forphan_items|]. intros key t Hi. apply (IH key t Hi). eauto. }
    assert (F2 : FR (fun a b => skel b = skel a) f (forphan f)) by (eapply FR_mono; [|exact F]; cbn; tauto).
    split; [|cbn; now rewrite (FR_skel _ _ F2)]. cbn. rewrite (FR_keys _ _ _ F), (FR_length _ _ _ F). repeat split; auto.
    + now apply (sizes_skel s f).
    + apply ftinv_in. intros key t Hi. destruct (FR_in _ _ _ _ _ F Hi) as (t0 & _ & A & _). exact A.
Qed.
Lemma forphan_lookup k f : flookup k (forphan f) = option_map orphan (flookup k f).
Proof. unfold flookup. induction f as [|k' t f IH]; cbn; [easy|]. now destruct (k =? k'). Qed.
Lemma sub_orphan path : forall t, sub_at path (orphan t) = option_map orphan (sub_at path t).
Proof.
  induction path as [|[k|] path IH]; intros t; cbn; [easy| |].
  - destruct t as [| |h fz kd s f]; cbn; try easy. rewrite forphan_lookup. destruct (flookup k f); cbn; [apply IH|easy].
  - destruct t; cbn; easy.
Qed.

(** * Spawning and sampling *)
Lemma spawn_spec t v next c next' : tinv t -> (forall h fz x, t <> PConst h fz x) -> spawn_child t v next = (Ok c, next') ->
  exists c0, heir t c0 /\ uids_of c0 = seq next (next' - next) /\ next < next' /\ tinv c /\ skel c = skel t /\
    match v with None => c = c0 | Some v => tset c0 v = (c, Ok tt) end.
Proof.
  intros Hi Hc E. destruct (adopt_copy t Hi next) as (c0 & E0 & H1 & H2 & H3).
  assert (E' : (let '(c, next') := tcopy t next in (bind (adopt c t) (fun c => match v with None => Ok c | Some v => let '(c', u) := tset c v in bind u (fun _ => Ok c') end), next')) = (Ok c, next')).
  { destruct t; [now exfalso; apply (Hc h frozen v0)|exact E|exact E]. }
  destruct (tcopy t next) as [t' n']. cbn [fst snd] in *. rewrite E0 in E'. cbn [bind] in E'. injection E' as E1 <-.
  destruct (heir_spec t c0 Hi H1) as (K1 & K2 & K3). exists c0. split; [easy|]. split; [easy|]. split; [easy|]. destruct v as [v|].
  - pose proof (tset_step c0 v K1) as (S1 & S2 & _). destruct (tset c0 v) as [c' [[]|e]]; cbn in E1; [|discriminate]. injection E1 as ->. cbn in S1, S2.
    repeat split; auto. congruence.
  - injection E1 as ->. auto.
Qed.
Lemma sample_spec rnd t : forall i next c i' next', tinv t -> sample rnd t i next = (Ok c, i', next') ->
  tinv c /\ skel c = skel t /\ exists c0, c = orphan c0.
Proof.
  induction t as [h fz v|h p d IH|h fz k s f IH] using ptree_ind'; intros i next c i' next' Hi E.
  - cbn [sample] in E. injection E as <- <- <-. destruct (orphan_spec _ Hi). split; [easy|]. split; [easy|]. now exists (PConst h fz v).
  - cbn [sample] in E. destruct (spawn_child (PData h p d) None next) as [r n'] eqn:Es. destruct r as [c1|e]; [|discriminate].
    destruct (spawn_spec _ _ _ _ _ Hi (fun _ _ _ => ltac:(discriminate)) Es) as (c0 & _ & _ & _ & H1 & H2 & _).
    pose proof (mutate_step rnd c1 i H1) as (S1 & S2 & _). destruct (mutate rnd c1 i) as [[c2 i2] u]. cbn [fst] in *.
    destruct u as [[]|e]; cbn in E; [|discriminate]. injection E as <- <- <-. destruct (orphan_spec _ S1) as [O1 O2]. split; [easy|]. split; [congruence|eauto].
  - cbn [sample] in E. destruct (spawn_child (PNode h fz k s f) None next) as [r n'] eqn:Es.
    destruct (fsample rnd f i n') as [[rf i2] n2] eqn:Ef. destruct r as [c1|e]; [|discriminate].
    destruct (spawn_spec _ _ _ _ _ Hi (fun _ _ _ => ltac:(discriminate)) Es) as (c0 & H0 & _ & _ & H1 & H2 & ->).
    destruct c0 as [| |h0 fz0 k0 s0 f0]; try easy. cbn [bind] in E. destruct rf as [f'|e]; cbn [bind] in E; [|discriminate]. injection E as <- <- <-.
    cbn in H0. destruct H0 as (_ & -> & -> & -> & _). pose proof Hi as (A1 & A2 & A3 & A4). rewrite ftinv_in in A4.
    assert (G : forall g i n g' i' n', (forall key t, In (key, t) (fitems g) -> In (key, t) (fitems f)) -> fsample rnd g i n = (Ok g', i', n') ->
      FR (fun a b => tinv b /\ skel b = skel a) g g').
    { clear -IH A4. induction g as [|k' t g IHg]; intros i n g' i' n' Hg E; cbn in E; [injection E as <- <- <-; constructor|].
      destruct (sample rnd t i n) as [[rt i1] n1] eqn:Et. destruct rt as [t'|e]; [|discriminate].
      destruct (fsample rnd g i1 n1) as [[rg i2] n2] eqn:Eg. destruct rg as [g2|e]; cbn in E; [|discriminate]. injection E as <- <- <-.
      assert (Hin : In (k', t) (fitems f)) by (apply Hg; now left).
      destruct (IH k' t Hin _ _ _ _ _ (A4 _ _ Hin) Et) as (B1 & B2 & _). constructor; [auto|].
      apply (IHg _ _ _ _ _ (fun key t' Hk => Hg key t' (or_intror Hk)) Eg). }
    specialize (G f i n' f' i2 n2 (fun _ _ H => H) Ef).
    assert (F2 : FR (fun a b => skel b = skel a) f f') by (eapply FR_mono; [|exact G]; cbn; tauto).
    assert (T : tinv (PNode h0 false k s f')).
    { cbn. rewrite (FR_keys _ _ _ G), (FR_length _ _ _ G). repeat split; auto; [now apply (sizes_skel s f)|].
      apply ftinv_in. intros key t Hk. destruct (FR_in _ _ _ _ _ G Hk) as (t0 & _ & B & _). exact B. }
    destruct (orphan_spec _ T) as [O1 O2]. split; [exact O1|]. split; [|now exists (PNode h0 false k s f')].
    transitivity (skel (orphan (PNode h0 false k s f'))); [reflexivity|]. rewrite O2. cbn. now rewrite (FR_skel _ _ F2).
Qed.

(** * Reachable trees *)
Lemma forest_of_items l : fitems (forest_of l) = l.
Proof. induction l as [|[k t] l IH]; cbn; congruence. Qed.
Lemma built_inv t : built t -> tinv t.
Proof.
  induction 1 as [uid v|uid puid sigma n c st x Hb IH Hok Hi|uid l Hn Hl IH|uid l Hl IH].
  - easy.
  - cbn. split; [|exists n, c, st; split; [easy|now apply new_inv]]. cbn. repeat split; auto; try discriminate. repeat constructor. easy.
  - cbn. unfold fkeys. rewrite forest_of_items. repeat split; auto; [discriminate|]. apply ftinv_in. rewrite forest_of_items. exact IH.
  - cbn. unfold fkeys. rewrite forest_of_items, combine_keys, combine_len. repeat split; auto; [apply seq_NoDup|].
    apply ftinv_in. rewrite forest_of_items. intros k t Hi. apply in_combine_r in Hi. auto.
Qed.
Lemma reachable_inv t : reachable t -> tinv t.
Proof.
  induction 1 as [t Hb|t path o s H IH Hs Ho|t next H IH|t v next c next' H IH E|t rnd i next c i' next' H IH E].
  - now apply built_inv.
  - now apply (run1_step t path o s Hs Ho).
  - now apply tcopy_spec.
  - destruct t as [h fz x|h p d|h fz k s f].
    + cbn in E. destruct v as [[v| |]|]; cbn in E; try (injection E as <- _; exact IH); try discriminate.
      destruct (pval_eqb v x); cbn in E; [|discriminate]. injection E as <- _. exact IH.
    + destruct (spawn_spec _ _ _ _ _ IH (fun _ _ _ => ltac:(discriminate)) E) as (_ & _ & _ & _ & H1 & _). exact H1.
    + destruct (spawn_spec _ _ _ _ _ IH (fun _ _ _ => ltac:(discriminate)) E) as (_ & _ & _ & _ & H1 & _). exact H1.
  - now apply (sample_spec rnd t i next c i' next').
Qed.

(** * More *)
Lemma run_frozen ops : forall t, tinv t -> all_frozen t -> run_fits ops t ->
  tinv (t_run ops t) /\ all_frozen (t_run ops t) /\ strip (t_run ops t) = strip t.
Proof.
  induction ops as [|[path o] ops IH]; intros t Hi Hf Hr; cbn; [auto|]. destruct Hr as [H1 H2]. cbn [fst snd] in *.
  assert (S : step t (t_run1 t (path, o))).
  { destruct (sub_at path t) as [s|] eqn:Es; [apply (run1_step t path o s Es); auto|].
    unfold t_run1. cbn [fst snd]. destruct (at_path path (t_step o) t) as [[t' a]|] eqn:E; [|apply step_refl].
    exfalso. pose proof (at_path_sub (t_step o) path t) as [K _]. rewrite E, Es in K. now apply K. }
  destruct (S Hi) as (S1 & S2 & S3). specialize (S3 Hf). destruct (IH _ S1 (strip_frozen _ _ S3 Hf) H2) as (I1 & I2 & I3).
  split; [easy|]. split; [easy|]. etransitivity; [exact I3|exact S3].
Qed.
Lemma run_skel ops : forall t, tinv t -> run_fits ops t -> tinv (t_run ops t) /\ skel (t_run ops t) = skel t.
Proof.
  induction ops as [|[path o] ops IH]; intros t Hi Hr; cbn; [auto|]. destruct Hr as [H1 H2]. cbn [fst snd] in *.
  assert (S : step t (t_run1 t (path, o))).
  { destruct (sub_at path t) as [s|] eqn:Es; [apply (run1_step t path o s Es); auto|].
    unfold t_run1. cbn [fst snd]. destruct (at_path path (t_step o) t) as [[t' a]|] eqn:E; [|apply step_refl].
    exfalso. pose proof (at_path_sub (t_step o) path t) as [K _]. rewrite E, Es in K. now apply K. }
  destruct (S Hi) as (S1 & S2 & S3). destruct (IH _ S1 H2) as (I1 & I2). split; [easy|]. etransitivity; [exact I2|exact S2].
Qed.
Lemma teq_same_value a b : tinv a -> tinv b -> teq b a -> same_value a b.
Proof. intros Ha Hb H. destruct (teq_value b a Hb Ha H) as (vb & va & E1 & E2 & E3). exists va. split; [easy|]. now exists vb. Qed.
Lemma strip_same_value a b : tinv a -> tinv b -> strip b = strip a -> same_value a b.
Proof. intros Ha Hb H. apply teq_same_value; auto. now apply strip_teq. Qed.
Lemma sub_strip path : forall a b, strip b = strip a -> forall s, sub_at path a = Some s -> exists s', sub_at path b = Some s' /\ strip s' = strip s.
Proof.
  induction path as [|[k|] path IH]; intros a b E s Hs; cbn in *.
  - injection Hs as <-. eauto.
  - destruct a as [| |h fz kd sz f]; try discriminate. destruct b as [| |h' fz' kd' sz' g]; try discriminate. cbn in E.
    assert (E' : fstrip g = fstrip f) by congruence. apply strip_FR in E'. destruct (flookup k f) as [sub|] eqn:Ef; [|discriminate].
    destruct (FR_lookup _ _ _ _ _ E' Ef) as (sub' & -> & Es). eauto.
  - destruct a as [|h p d|]; try discriminate. destruct b as [|h' p' d'|]; try discriminate. cbn in E.
    assert (E' : strip p' = strip p) by congruence. eauto.
Qed.
Lemma strip_header a b : strip b = strip a -> no_loss (header_of b) = no_loss (header_of a) /\ is_frozen b = is_frozen a.
Proof. destruct a, b; cbn; try discriminate; intros E; split; congruence. Qed.
Lemma all_frozen_check t : is_constant t = false -> all_frozen t -> check_frozen t = true.
Proof. destruct t; cbn; try discriminate; intros _ [-> _]; reflexivity. Qed.
Lemma frozen_takes t : forall v, all_frozen t -> takes t v -> leaves (fun _ => False) t.
Proof.
  induction t as [h fz c|h p d IH|h fz k s f IH] using ptree_ind'; intros v Hf Ht.
  - easy.
  - destruct v; cbn in Ht; try easy. destruct Ht as [Ht _]. cbn in Hf. destruct Hf as [Hf _]. rewrite Hf in Ht. discriminate.
  - cbn. apply fleaves_in. cbn in Hf. destruct Hf as [_ Hf]. rewrite fall_frozen_in in Hf.
    assert (G : forall vs, ftakes f vs -> forall key t, In (key, t) (fitems f) -> leaves (fun _ => False) t).
    { intros vs H key t Hi. rewrite ftakes_in in H. destruct (H key t Hi) as (w & _ & Hw). apply (IH key t Hi w); eauto. }
    destruct k, v; cbn in Ht; try easy; eapply G; apply Ht.
Qed.
Lemma get_std_zero t : forall r t' x, tinv t -> same_shape t r -> strip t = strip r -> tinv r -> get_std t r = (t', Ok x) -> Forall (fun q => q == 0)%Q x.
Proof.
  induction t as [h fz v|h p d IH|h fz k s f IH] using ptree_ind'; intros r t' x Hi Hs He Hr E.
  - cbn in E. injection E as _ <-. constructor.
  - destruct r as [|h' p' d'|]; try easy. cbn [get_std] in E. destruct (sigma_value _ p') as [sig|e] eqn:Es; cbn [bind] in E; [|discriminate].
    cbn in He. assert (Er : ld_root d = ld_root d') by congruence. rewrite Er, Nat.eqb_refl in E. injection E as _ <-.
    destruct (sigma_ok _ _ _ Es) as [Hl H0]. revert Hl. generalize (rt_value (ld_root d')). clear -H0.
    induction H0 as [|s sig Hs H IH]; intros [|x l] Hl; try discriminate; cbn in *; constructor.
    + field. exact Hs.
    + apply IH. congruence.
  - destruct r as [| |h' fz' k' s' g]; try easy. assert (k' = k) by (cbn in Hs; destruct Hs as (-> & _); reflexivity). subst k'.
    destruct (get_std_node _ _ _ _ _ _ _ _ _ _ _ Hi Hs E) as (data & Eg & Hd). cbn in Hs. destruct Hs as (_ & Hl & Hs).
    pose proof (node_matched _ _ _ _ _ _ Hi Hl Hs) as M. cbn in He. assert (He' : fstrip f = fstrip g) by congruence. apply strip_FR in He'.
    assert (Z : forall key y, dget key data = Some y -> Forall (fun q => q == 0)%Q y).
    { intros key y Hy. destruct (Hd key y Hy) as (t & r & t2 & A1 & A2 & A3). pose proof (flookup_in _ _ _ A1) as Hin.
      destruct (mt_right _ _ M key t A1) as (r' & Hr' & Hsh). assert (r' = r) by congruence. subst r'.
      destruct (FR_lookup _ _ _ _ _ He' A2) as (t3 & A4 & A5). assert (t3 = t) by congruence. subst t3.
      apply (IH key t Hin r t2 y (mt_inv _ _ M _ _ Hin) Hsh A5); [|easy].
      destruct Hr as (_ & _ & _ & Hr). rewrite ftinv_in in Hr. exact (Hr _ _ (flookup_in _ _ _ A2)). }
    clear -Eg Z. revert x Eg. induction (dims f) as [|[key n] l IH]; intros x Eg; cbn in Eg; [injection Eg as <-; constructor|].
    destruct (dget key data) as [y|] eqn:Ey; [|discriminate]. destruct (gather l data) as [z|e]; cbn in Eg; [|discriminate]. injection Eg as <-.
    apply Forall_app. split; eauto.
Qed.
Lemma tcopy_uids t : forall next, uids_of (fst (tcopy t next)) = seq next (snd (tcopy t next) - next) /\ next < snd (tcopy t next).
Proof.
  induction t as [h fz v|h p d IH|h fz k s f IH] using ptree_ind'; intros next; cbn [tcopy].
  - cbn [fst snd uids_of copy_header h_uid]. split; [|lia]. now replace (S next - next) with 1 by lia.
  - destruct (IH (S next)) as [I1 I2]. destruct (tcopy p (S next)) as [p' n']. cbn [fst snd uids_of copy_header h_uid] in *. split; [|lia].
    rewrite I1. replace (n' - next) with (S (n' - S next)) by lia. reflexivity.
  - assert (G : forall nx, fuids_of (fst (fcopy f nx)) = seq nx (snd (fcopy f nx) - nx) /\ nx <= snd (fcopy f nx)).
    { clear -IH. induction f as [|k' t f IHf]; intros nx; cbn; [now rewrite Nat.sub_diag|].
      specialize (IHf (fun key t' Hk => IH key t' (or_intror Hk))). destruct (IH k' t (or_introl eq_refl) nx) as [I1 I2].
      destruct (tcopy t nx) as [t' n1]. destruct (IHf n1) as [J1 J2]. destruct (fcopy f n1) as [f' n2]. cbn [fst snd fuids_of] in *. split; [|lia].
      rewrite I1, J1. symmetry. apply seq_cut; lia. }
    destruct (G (S next)) as [I1 I2]. destruct (fcopy f (S next)) as [f' n']. cbn [fst snd uids_of copy_header h_uid] in *. split; [|lia].
    rewrite I1. replace (n' - next) with (S (n' - S next)) by lia. reflexivity.
Qed.
Lemma sub_freeze path : forall t, sub_at path (freeze t) = option_map freeze (sub_at path t).
Proof.
  assert (L : forall k f, flookup k (ffreeze f) = option_map freeze (flookup k f)).
  { intros k f. unfold flookup. induction f as [|k' t f IH]; cbn; [easy|]. destruct (k =? k'); easy. }
  induction path as [|[k|] path IH]; intros t; cbn; [easy| |].
  - destruct t as [| |h fz kd s f]; cbn; try easy. rewrite L. destruct (flookup k f); cbn; [apply IH|easy].
  - destruct t; cbn; easy.
Qed.
Lemma freeze_teq t : tinv t -> teq (freeze t) t.
Proof.
  induction t as [h fz v|h p d IH|h fz k s f IH] using ptree_ind'; intros Hi; cbn.
  - apply pv_eq_refl.
  - split; [reflexivity|apply veq_refl].
  - pose proof Hi as (H1 & _ & _ & H4). rewrite ftinv_in in H4.
    assert (F : forall g, (forall k t, In (k, t) (fitems g) -> In (k, t) (fitems f)) -> fteq (ffreeze g) f).
    { induction g as [|k' t g IHg]; cbn; intros Hg; [easy|]. split; [|apply IHg; auto].
      exists t. split; [apply flookup_nodup; auto|]. apply (IH k' t); auto. eapply H4; auto. }
    split; [easy|]. split; [|apply F; auto]. clear. induction f; cbn; auto.
Qed.
Lemma sub_copy path : forall t next s, sub_at path t = Some s -> exists n, sub_at path (fst (tcopy t next)) = Some (fst (tcopy s n)).
Proof.
  assert (L : forall k f n t, flookup k f = Some t -> exists n', flookup k (fst (fcopy f n)) = Some (fst (tcopy t n'))).
  { intros k f. unfold flookup. induction f as [|k' t f IH]; intros n u E; cbn in *; [easy|]. destruct (tcopy t n) as [t' n1] eqn:Et. specialize (IH n1).
    destruct (fcopy f n1) as [f' n2] eqn:Ef. cbn in *. destruct (k =? k'); [|eauto]. injection E as <-. exists n. now rewrite Et. }
  induction path as [|[k|] path IH]; intros t next s E; cbn in E.
  - injection E as <-. now exists next.
  - destruct t as [| |h fz kd sz f]; try discriminate. destruct (flookup k f) as [sub|] eqn:Ef; [|discriminate]. cbn [tcopy].
    destruct (L k f (S next) sub Ef) as (n1 & E1). destruct (fcopy f (S next)) as [f' n']. cbn [fst snd sub_at] in *. rewrite E1. now apply IH.
  - destruct t as [|h p d|]; try discriminate. cbn [tcopy]. destruct (IH p (S next) s E) as (n & E1). destruct (tcopy p (S next)). cbn in *. eauto.
Qed.
Lemma teq_plain a : forall b, teq a b -> leaves plain_data b -> leaves plain_data a.
Proof.
  induction a as [h fz v|h p d IH|h fz k s f IH] using ptree_ind'; intros [h' fz' v'|h' p' d'|h' fz' k' s' g] H Hp; try easy.
  - destruct H as [H _]. cbn in *. unfold plain_data in *. congruence.
  - cbn in *. destruct H as (_ & _ & H). rewrite fleaves_in in *. intros key t Hi. rewrite fteq_in in H.
    destruct (H key t Hi) as (t' & E & Ht). apply (IH key t Hi t' Ht). exact (Hp _ _ (flookup_in _ _ _ E)).
Qed.

From Coq Require Import List Arith ZArith QArith Qround Qabs Bool Lia Lqa Setoid Morphisms.
From Verif.Model Require Import Prelude MultiValue Layers.
From Verif.Spec Require Import Layers.
From Verif.Proofs Require Import Prelude MultiValue.
Import ListNotations.
Open Scope nat_scope.

(** * Lists of rationals *)
Lemma veq_refl a : veq a a.
Proof. induction a; constructor; [reflexivity|easy]. Qed.
Lemma veq_sym a b : veq a b -> veq b a.
Proof. induction 1; constructor; [now symmetry|easy]. Qed.
Lemma veq_trans a b c : veq a b -> veq b c -> veq a c.
Proof.
  intros H. revert c. induction H as [|x y a b Hx H IH]; intros c Hc; inversion Hc; subst; constructor.
  - now rewrite Hx.
  - now apply IH.
Qed.
Lemma veq_length a b : veq a b -> length a = length b.
Proof. induction 1; cbn; congruence. Qed.
Lemma map2_length {A B C} (f : A -> B -> C) a : forall b, length a = length b -> length (map2 f a b) = length a.
Proof. induction a; intros [|y b]; cbn; try discriminate; auto. Qed.
Lemma map2_length' {A B C} (f : A -> B -> C) a n : forall b, length a = n -> length b = n -> length (map2 f a b) = n.
Proof. intros b H1 H2. rewrite map2_length; congruence. Qed.
Lemma map2_veq f a a' b b' : (forall x x' y y', x == x' -> y == y' -> f x y == f x' y')%Q ->
  veq a a' -> veq b b' -> veq (map2 f a b) (map2 f a' b').
Proof.
  intros Hf Ha. revert b b'. induction Ha as [|x x' a a' Hx Ha IH]; intros b b' Hb; cbn; [constructor|].
  inversion Hb; subst; constructor; [now apply Hf|now apply IH].
Qed.
Lemma qlt_proper a a' b b' : (a == a')%Q -> (b == b')%Q -> qlt a b = qlt a' b'.
Proof.
  intros Ha Hb. destruct (qlt a b) eqn:E.
  - apply qlt_iff in E. symmetry. apply qlt_iff. now rewrite <- Ha, <- Hb.
  - apply qlt_false in E. symmetry. apply qlt_false. now rewrite <- Ha, <- Hb.
Qed.
Lemma any_lt_proper a a' b b' : veq a a' -> veq b b' -> any_lt a b = any_lt a' b'.
Proof.
  unfold any_lt. intros Ha. revert b b'. induction Ha as [|x x' a a' Hx Ha IH]; intros b b' Hb; cbn; [easy|].
  inversion Hb as [|y y' b0 b0' Hy Hb']; subst; cbn; [easy|]. rewrite (qlt_proper x x' y y' Hx Hy). now rewrite (IH _ _ Hb').
Qed.
Lemma checker_proper lo up v v' : veq v v' -> bound_checker lo up v = bound_checker lo up v'.
Proof.
  intros H. unfold bound_checker.
  destruct lo as [lo|], up as [up|]; rewrite ?(any_lt_proper v v' _ _ H (veq_refl _)), ?(any_lt_proper up up v v' (veq_refl _) H); easy.
Qed.
Lemma qmax_proper a a' b b' : (a == a')%Q -> (b == b')%Q -> (qmax a b == qmax a' b')%Q.
Proof. intros Ha Hb. unfold qmax. rewrite (qlt_proper a a' b b' Ha Hb). now destruct (qlt a' b'). Qed.
Lemma qmin_proper a a' b b' : (a == a')%Q -> (b == b')%Q -> (qmin a b == qmin a' b')%Q.
Proof. intros Ha Hb. unfold qmin. rewrite (qlt_proper b b' a a' Hb Ha). now destruct (qlt b' a'). Qed.
Lemma np_clip_proper lo up v v' : veq v v' -> veq (np_clip lo up v) (np_clip lo up v').
Proof.
  intros H. unfold np_clip. destruct lo as [lo|], up as [up|]; auto.
  - apply map2_veq; [apply qmin_proper| |apply veq_refl]. apply map2_veq; [apply qmax_proper|easy|apply veq_refl].
  - apply map2_veq; [apply qmax_proper|easy|apply veq_refl].
  - apply map2_veq; [apply qmin_proper|easy|apply veq_refl].
Qed.
Lemma clip_forward_proper bo lo up v v' : veq v v' -> veq (clip_forward bo lo up v) (clip_forward bo lo up v').
Proof.
  intros H. unfold clip_forward. rewrite (checker_proper lo up v v' H). destruct (bound_checker lo up v'); [easy|].
  assert (Hc := np_clip_proper lo up v v' H). destruct bo; [|easy]. apply np_clip_proper.
  apply map2_veq; [|easy|easy]. intros x x' y y' Hx Hy. now rewrite Hx, Hy.
Qed.
Lemma qmod_proper x x' m m' : (x == x')%Q -> (m == m')%Q -> (qmod x m == qmod x' m')%Q.
Proof.
  intros Hx Hm. unfold qmod. rewrite (Qfloor_comp (x / m) (x' / m')); [|now rewrite Hx, Hm]. now rewrite Hx, Hm.
Qed.
Lemma round_proper x x' : (x == x')%Q -> round_half_even x = round_half_even x'.
Proof.
  intros H. unfold round_half_even. rewrite (Qfloor_comp x x' H).
  assert (E : Qcompare (x - inject_Z (Qfloor x')) (1 # 2) = Qcompare (x' - inject_Z (Qfloor x')) (1 # 2)).
  { apply Qcompare_comp; [now rewrite H|reflexivity]. }
  now rewrite E.
Qed.
Lemma map_round_proper v v' : veq v v' -> map round_half_even v = map round_half_even v'.
Proof. induction 1 as [|x x' a a' Hx H IH]; cbn; [easy|]. now rewrite (round_proper x x' Hx), IH. Qed.
Lemma int_round_proper b v v' : veq v v' -> int_round b v = int_round b v'.
Proof. intros H. unfold int_round. now rewrite (map_round_proper v v' H). Qed.

Lemma vmap_veq f a b : veq a b -> vmap f a = vmap f b.
Proof. unfold vmap. induction 1 as [|x y a b Hx H IH]; cbn; [easy|]. now rewrite (Qred_complete x y Hx), IH. Qed.
Lemma vmap_length f a : length (vmap f a) = length a.
Proof. apply map_length. Qed.

(** * Bounds *)
Lemma any_lt_false a : forall b, length a = length b -> any_lt a b = false <-> Forall2 Qle b a.
Proof.
  unfold any_lt. induction a as [|x a IH]; intros [|y b]; cbn; try discriminate.
  - split; constructor.
  - intros [= H]. rewrite orb_false_iff, qlt_false, (IH b H). split.
    + intros []. now constructor.
    + intros HF. inversion HF; subst. easy.
Qed.
Lemma checker_within n lo up v : opt_length n lo -> opt_length n up -> length v = n ->
  bound_checker lo up v = true <-> within lo up v.
Proof.
  intros Hlo Hup Hv. unfold bound_checker, within, above, below.
  destruct lo as [lo|], up as [up|]; cbn in *; subst.
  - destruct (any_lt v lo) eqn:E1.
    + split; [easy|]. intros [H _]. apply any_lt_false in H; congruence.
    + apply any_lt_false in E1; [|congruence]. destruct (any_lt up v) eqn:E2; cbn.
      * split; [easy|]. intros [_ H]. apply any_lt_false in H; congruence.
      * apply any_lt_false in E2; [|congruence]. easy.
  - destruct (any_lt v lo) eqn:E1.
    + split; [easy|]. intros [H _]. apply any_lt_false in H; congruence.
    + apply any_lt_false in E1; [|congruence]. easy.
  - destruct (any_lt up v) eqn:E2; cbn.
    + split; [easy|]. intros [_ H]. apply any_lt_false in H; congruence.
    + apply any_lt_false in E2; [|congruence]. easy.
  - easy.
Qed.
Lemma np_clip_length n lo up v : opt_length n lo -> opt_length n up -> length v = n -> length (np_clip lo up v) = n.
Proof.
  intros Hlo Hup Hv. unfold np_clip. destruct lo as [lo|], up as [up|]; cbn in *; auto; repeat apply map2_length'; auto.
Qed.
Lemma clip_forward_length n bo lo up v : opt_length n lo -> opt_length n up -> length v = n -> length (clip_forward bo lo up v) = n.
Proof.
  intros Hlo Hup Hv. unfold clip_forward. destruct (bound_checker lo up v); [easy|].
  destruct bo; [|now apply np_clip_length]. apply np_clip_length; auto. apply map2_length'; auto. now apply np_clip_length.
Qed.
Lemma clip_above v : forall lo, length v = length lo -> Forall2 Qle lo (map2 qmax v lo).
Proof. induction v as [|x v IH]; intros [|y lo]; cbn; try discriminate; constructor; auto. apply qmax_ge_r. Qed.
Lemma clip_below v : forall up, length v = length up -> Forall2 Qle (map2 qmin v up) up.
Proof. induction v as [|x v IH]; intros [|y up]; cbn; try discriminate; constructor; auto. apply qmin_le_r. Qed.
Lemma min_keeps_above lo v : Forall2 Qle lo v -> forall up, Forall2 Qlt lo up -> Forall2 Qle lo (map2 qmin v up).
Proof.
  induction 1 as [|b x lo v Hb H IH]; intros up Hu; inversion Hu; subst; cbn; constructor; auto.
  destruct (qmin_or x y) as [-> | ->]; lra.
Qed.
Lemma np_clip_within n lo up v : opt_length n lo -> opt_length n up -> ordered_bounds lo up -> length v = n ->
  within lo up (np_clip lo up v).
Proof.
  intros Hlo Hup Ho Hv. unfold np_clip, within, above, below. destruct lo as [lo|], up as [up|]; cbn in *; subst; split; auto.
  - apply min_keeps_above; [now apply clip_above|easy].
  - apply clip_below. rewrite map2_length; congruence.
  - now apply clip_above.
  - now apply clip_below.
Qed.
Lemma clip_forward_within n bo lo up v : opt_length n lo -> opt_length n up -> ordered_bounds lo up -> length v = n ->
  within lo up (clip_forward bo lo up v).
Proof.
  intros Hlo Hup Ho Hv. unfold clip_forward. destruct (bound_checker lo up v) eqn:E; [now apply (checker_within n) in E|].
  destruct bo; [|now apply (np_clip_within n)]. apply (np_clip_within n); auto. apply map2_length'; auto. now apply np_clip_length.
Qed.

(** * Denotation of the layers *)
Section Den.
  Variable bounds : bounds_t.

  Fixpoint den (st : list lop) (x : list Q) : list Q :=
    match st with
    | [] => x
    | LAdd o :: st' => map2 Qplus o (den st' x)
    | LMul m :: st' => map2 Qmult m (den st' x)
    | LFun f _ :: st' => vmap f (den st' x)
    | LBound bo lo up :: st' => clip_forward bo lo up (den st' x)
    | LModulo m :: st' => map2 qmod (den st' x) m
    | LInt :: st' => map inject_Z (int_round bounds (den st' x))
    | LCheck _ _ :: st' | LArray :: st' | LScalar :: st' => den st' x
    end.
  Fixpoint bwd (st : list lop) (y : list Q) : list Q :=
    match st with
    | [] => y
    | LAdd o :: st' => bwd st' (map2 Qminus y o)
    | LMul m :: st' => bwd st' (map2 Qdiv y m)
    | LFun _ g :: st' => bwd st' (vmap g y)
    | _ :: st' => bwd st' y
    end.

  Fixpoint settled (st : list lop) (x : list Q) : Prop :=
    match st with
    | [] => True
    | LBound _ lo up :: st' => bound_checker lo up (den st' x) = true /\ settled st' x
    | _ :: st' => settled st' x
    end.
  Fixpoint cons_ok (st : list lop) (cs : caches) (x : list Q) : Prop :=
    match st with
    | [] => True
    | LInt :: st' =>
        match hd None cs with Some out => int_round bounds (den st' x) = out /\ settled st' x | None => True end /\ cons_ok st' (tl cs) x
    | _ :: st' => cons_ok st' (tl cs) x
    end.

  Lemma den_proper st : forall x x', veq x x' -> veq (den st x) (den st x').
  Proof.
    induction st as [|l st IH]; intros x x' H; cbn; [easy|]. specialize (IH _ _ H).
    destruct l; auto.
    - apply map2_veq; [|apply veq_refl|easy]. intros a a' b b' Ha Hb. now rewrite Ha, Hb.
    - apply map2_veq; [|apply veq_refl|easy]. intros a a' b b' Ha Hb. now rewrite Ha, Hb.
    - rewrite (vmap_veq _ _ _ IH). apply veq_refl.
    - now apply clip_forward_proper.
    - apply map2_veq; [apply qmod_proper|easy|apply veq_refl].
    - rewrite (int_round_proper bounds _ _ IH). apply veq_refl.
  Qed.
  Lemma settled_proper st : forall x x', veq x x' -> settled st x -> settled st x'.
  Proof.
    induction st as [|l st IH]; intros x x' H Hs; cbn in *; [easy|].
    destruct l; eauto. destruct Hs as [H1 H2]. split; [|eauto].
    now rewrite <- (checker_proper _ _ _ _ (den_proper st x x' H)).
  Qed.

  Lemma int_round_length n x : opt_length n (fst bounds) -> opt_length n (snd bounds) -> length x = n ->
    length (int_round bounds x) = n.
  Proof.
    intros H1 H2 Hx. unfold int_round. destruct (fst bounds) as [lo|], (snd bounds) as [up|]; cbn in *;
      repeat apply map2_length'; rewrite ?map_length; auto.
  Qed.

  Section Size.
  Variable n : nat.
  Hypothesis Hb1 : opt_length n (fst bounds).
  Hypothesis Hb2 : opt_length n (snd bounds).

  Lemma den_length st : Forall (lop_ok n) st -> forall x, length x = n -> length (den st x) = n.
  Proof.
    induction 1 as [|l st Hl H IH]; intros x Hx; cbn; [easy|]. specialize (IH x Hx).
    destruct l; cbn in Hl; auto; try (apply map2_length'; tauto).
    - now rewrite vmap_length.
    - now apply clip_forward_length.
    - rewrite map_length. now apply int_round_length.
  Qed.
  Lemma bwd_length st : Forall (lop_ok n) st -> forall y, length y = n -> length (bwd st y) = n.
  Proof.
    induction 1 as [|l st Hl H IH]; intros y Hy; cbn; [easy|].
    destruct l; cbn in Hl; auto; apply IH; rewrite ?vmap_length; auto; apply map2_length'; tauto.
  Qed.

  Lemma sub_add o : forall y, length o = length y -> veq (map2 Qplus o (map2 Qminus y o)) y.
  Proof. induction o as [|a o IH]; intros [|b y] E; try discriminate E; cbn; [constructor|]. injection E as E. constructor; [ring|now apply IH]. Qed.
  Lemma add_sub o : forall y, length o = length y -> veq (map2 Qminus (map2 Qplus o y) o) y.
  Proof. induction o as [|a o IH]; intros [|b y] E; try discriminate E; cbn; [constructor|]. injection E as E. constructor; [ring|now apply IH]. Qed.
  Lemma div_mul m : Forall (fun x => ~ x == 0)%Q m -> forall y, length m = length y -> veq (map2 Qmult m (map2 Qdiv y m)) y.
  Proof. induction 1 as [|a m Ha Hm IH]; intros [|b y] E; try discriminate E; cbn; [constructor|]. injection E as E. constructor; [now field|now apply IH]. Qed.
  Lemma mul_div m : Forall (fun x => ~ x == 0)%Q m -> forall y, length m = length y -> veq (map2 Qdiv (map2 Qmult m y) m) y.
  Proof. induction 1 as [|a m Ha Hm IH]; intros [|b y] E; try discriminate E; cbn; [constructor|]. injection E as E. constructor; [now field|now apply IH]. Qed.

  Lemma den_bwd st : invertible st -> Forall (lop_ok n) st -> forall y, length y = n -> veq (den st (bwd st y)) y.
  Proof.
    induction 1 as [|l st Hi H IH]; intros Hok y Hy; cbn; [apply veq_refl|]. pose proof (Forall_inv Hok) as Hl; pose proof (Forall_inv_tail Hok) as Hok'. specialize (IH Hok').
    destruct l; cbn in Hi, Hl; try easy; auto.
    - eapply veq_trans; [|apply (sub_add offset); congruence]. apply map2_veq; [|apply veq_refl|apply IH; apply map2_length'; congruence].
      intros a a' b b' Ha Hb. now rewrite Ha, Hb.
    - destruct Hl as [Hl1 Hl2].
      eapply veq_trans; [|apply (div_mul mult Hl2); congruence]. apply map2_veq; [|apply veq_refl|apply IH; apply map2_length'; congruence].
      intros a a' b b' Ha Hb. now rewrite Ha, Hb.
  Qed.

  (** reading through invertible layers changes nothing *)
  Lemma inv_get st : invertible st -> forall cs r, exists cs', lget bounds st cs r = (cs', r, Ok (VArr (den st (rt_value r)))).
  Proof.
    induction 1 as [|l st Hi H IH]; intros cs r; cbn; [eauto|]. destruct (IH (tl cs) r) as [cs' E].
    destruct l; cbn in Hi; try easy; rewrite E; cbn; eauto.
  Qed.
  Lemma inv_set st : invertible st -> Forall (lop_ok n) st -> forall cs y r, length y = n -> length (rt_value r) = n -> rt_frozen r = false ->
    exists cs', lset bounds st cs (VArr y) r = (cs', Root (bwd st y) false, Ok tt).
  Proof.
    induction 1 as [|l st Hi H IH]; intros Hok cs y r Hy Hr Hf; cbn.
    - unfold root_set. rewrite Hf, Hy, Hr, Nat.eqb_refl. eauto.
    - pose proof (Forall_inv Hok) as Hl; pose proof (Forall_inv_tail Hok) as Hok'. specialize (IH Hok').
      destruct l; cbn in Hi, Hl; try easy.
      + destruct (IH (tl cs) (map2 Qminus y offset) r) as [cs' E]; auto; [apply map2_length'; congruence|].
        cbn [on_array sized]. rewrite Hl, Hy, Nat.eqb_refl, E. eauto.
      + destruct (IH (tl cs) (map2 Qdiv y mult) r) as [cs' E]; auto; [apply map2_length'; tauto|].
        cbn [on_array sized]. rewrite (proj1 Hl), Hy, Nat.eqb_refl, E. eauto.
      + destruct (IH (tl cs) y r) as [cs' E]; auto. rewrite E. eauto.
      + destruct (IH (tl cs) y r) as [cs' E]; auto. rewrite E. eauto.
  Qed.
  Lemma inv_settled st : invertible st -> forall x, settled st x.
  Proof. induction 1 as [|l st Hi H IH]; intros x; cbn; [easy|]. now destruct l. Qed.
  Lemma inv_cons st : invertible st -> forall cs x, cons_ok st cs x.
  Proof. induction 1 as [|l st Hi H IH]; intros cs x; cbn; [easy|]. now destruct l. Qed.
  Lemma inv_good st : invertible st -> good st.
  Proof. induction 1 as [|l st Hi H IH]; cbn; [easy|]. now destruct l. Qed.

  Lemma plain_noint st : plain st -> ~ In LInt st.
  Proof. intros H Hi. eapply Forall_forall in H; [|exact Hi]. exact H. Qed.
  Lemma noint_cons st : ~ In LInt st -> forall cs x, cons_ok st cs x.
  Proof. induction st as [|l st IH]; intros Hn cs x; cbn; [easy|]. destruct l; try (apply IH; intros Hi; apply Hn; now right). exfalso. apply Hn. now left. Qed.

  (** ** Reading *)
  Record read_spec (st : list lop) (r : root) (cs' : caches) (r' : root) (v : list Q) : Prop := {
    rs_value : veq v (den st (rt_value r));
    rs_length : length (rt_value r') = n;
    rs_frozen : rt_frozen r' = rt_frozen r;
    rs_same : veq (den st (rt_value r')) (den st (rt_value r));
    rs_settled : settled st (rt_value r');
    rs_unchanged : settled st (rt_value r) -> r' = r;
    rs_cons : cons_ok st cs' (rt_value r') }.

  Lemma get_good st : good st -> Forall (lop_ok n) st -> forall cs r, length (rt_value r) = n ->
    cons_ok st cs (rt_value r) -> (rt_frozen r = false \/ settled st (rt_value r)) ->
    exists cs' r' v, lget bounds st cs r = (cs', r', Ok (VArr v)) /\ read_spec st r cs' r' v.
  Proof.
    induction st as [|l st IH]; intros Hg Hok cs r Hlen Hc Hf.
    - cbn. exists cs, r, (rt_value r). split; [easy|]. constructor; cbn; auto; apply veq_refl.
    - pose proof (Forall_inv Hok) as Hl; pose proof (Forall_inv_tail Hok) as Hok'. specialize (fun G => IH G Hok').
      destruct l; cbn [good] in Hg; try easy; cbn [lget].
      + destruct (IH Hg (tl cs) r Hlen Hc Hf) as (cs' & r' & v & E & R). rewrite E. cbn [bind on_array].
        do 3 eexists. split; [reflexivity|]. destruct R. constructor; cbn; auto.
        * apply map2_veq; [|apply veq_refl|easy]. intros a a' b b' Ha Hb. now rewrite Ha, Hb.
        * apply map2_veq; [|apply veq_refl|easy]. intros a a' b b' Ha Hb. now rewrite Ha, Hb.
      + destruct (IH Hg (tl cs) r Hlen Hc Hf) as (cs' & r' & v & E & R). rewrite E. cbn [bind on_array].
        do 3 eexists. split; [reflexivity|]. destruct R. constructor; cbn; auto.
        * apply map2_veq; [|apply veq_refl|easy]. intros a a' b b' Ha Hb. now rewrite Ha, Hb.
        * apply map2_veq; [|apply veq_refl|easy]. intros a a' b b' Ha Hb. now rewrite Ha, Hb.
      + destruct (IH Hg (tl cs) r Hlen Hc Hf) as (cs' & r' & v & E & R). rewrite E. cbn [bind on_array].
        do 3 eexists. split; [reflexivity|]. destruct R. constructor; cbn; auto.
        * rewrite (vmap_veq _ _ _ rs_value0). apply veq_refl.
        * rewrite (vmap_veq _ _ _ rs_same0). apply veq_refl.
      + destruct (inv_get st Hg (tl cs) r) as [cs' E]. rewrite E.
        destruct (bound_checker lower upper (den st (rt_value r))) eqn:Ec.
        * do 3 eexists. split; [reflexivity|]. constructor; cbn; auto.
          -- unfold clip_forward. rewrite Ec. apply veq_refl.
          -- apply veq_refl.
          -- split; [easy|now apply inv_settled].
          -- now apply inv_cons.
        * destruct Hf as [Hf|[Hf _]]; [|congruence]. destruct Hl as (Hl1 & Hl2 & Hl3).
          assert (Hd : length (den st (rt_value r)) = n) by (now apply den_length).
          assert (Hcl : length (clip_forward bounce lower upper (den st (rt_value r))) = n) by (now apply clip_forward_length).
          assert (Hw : within lower upper (clip_forward bounce lower upper (den st (rt_value r)))) by (now apply (clip_forward_within n)).
          destruct (inv_set st Hg Hok' cs' (clip_forward bounce lower upper (den st (rt_value r))) r Hcl Hlen Hf) as [cs2 E2].
          rewrite E2. cbn [bind].
          assert (Hdb : veq (den st (bwd st (clip_forward bounce lower upper (den st (rt_value r))))) (clip_forward bounce lower upper (den st (rt_value r)))).
          { now apply den_bwd. }
          assert (Hck : bound_checker lower upper (den st (bwd st (clip_forward bounce lower upper (den st (rt_value r))))) = true).
          { rewrite (checker_proper _ _ _ _ Hdb). now apply (checker_within n). }
          do 3 eexists. split; [reflexivity|]. constructor; cbn [rt_value rt_frozen].
          -- cbn. apply veq_refl.
          -- now apply bwd_length.
          -- congruence.
          -- cbn. eapply veq_trans; [apply clip_forward_proper; exact Hdb|].
             unfold clip_forward at 1. replace (bound_checker lower upper (clip_forward bounce lower upper (den st (rt_value r)))) with true; [apply veq_refl|].
             symmetry. now apply (checker_within n).
          -- cbn. split; [easy|now apply inv_settled].
          -- cbn. intros [H _]. congruence.
          -- cbn. now apply inv_cons.
      + destruct (IH Hg (tl cs) r Hlen Hc Hf) as (cs' & r' & v & E & R). rewrite E.
        do 3 eexists. split; [reflexivity|]. destruct R. now constructor.
      + destruct Hg as [Hg Hn]. destruct (IH Hg (tl cs) r Hlen Hc Hf) as (cs' & r' & v & E & R). rewrite E. cbn [bind on_array].
        do 3 eexists. split; [reflexivity|]. destruct R. constructor; cbn; auto.
        * apply map2_veq; [apply qmod_proper|easy|apply veq_refl].
        * apply map2_veq; [apply qmod_proper|easy|apply veq_refl].
      + cbn [cons_ok] in Hc. destruct Hc as [Hc1 Hc2]. destruct (hd None cs) as [out|] eqn:Eh.
        * destruct Hc1 as [Hout Hset]. do 3 eexists. split; [reflexivity|]. constructor; cbn; auto.
          -- rewrite Hout. apply veq_refl.
          -- apply veq_refl.
          -- rewrite Eh. auto.
        * destruct (IH Hg (tl cs) r Hlen Hc2 Hf) as (cs' & r' & v & E & R). rewrite E.
          do 3 eexists. split; [reflexivity|]. destruct R. constructor; cbn; auto.
          -- rewrite (int_round_proper bounds v _ rs_value0). apply veq_refl.
          -- rewrite (int_round_proper bounds _ _ rs_same0). apply veq_refl.
          -- split; [|easy]. split; [|easy]. apply int_round_proper. eapply veq_trans; [exact rs_same0|]. now apply veq_sym.
      + destruct (IH Hg (tl cs) r Hlen Hc Hf) as (cs' & r' & v & E & R). rewrite E.
        do 3 eexists. split; [reflexivity|]. destruct R. now constructor.
  Qed.

  (** ** Setting *)
  Fixpoint nocache (st : list lop) (cs : caches) : Prop :=
    match st with
    | [] => True
    | LInt :: st' => hd None cs = None /\ nocache st' (tl cs)
    | _ :: st' => nocache st' (tl cs)
    end.
  Lemma nocache_cons st : forall cs x, nocache st cs -> cons_ok st cs x.
  Proof.
    induction st as [|l st IH]; intros cs x H; cbn in *; [easy|]. destruct l; try now apply IH.
    destruct H as [-> H]. split; [easy|now apply IH].
  Qed.
  Lemma noint_nocache st : ~ In LInt st -> forall cs, nocache st cs.
  Proof.
    induction st as [|l st IH]; intros Hn cs; cbn; [easy|].
    destruct l; try (apply IH; intros Hi; apply Hn; now right). exfalso. apply Hn. now left.
  Qed.
  Lemma cleared_nocache (st : list lop) : nocache st (map (fun _ => None) st).
  Proof. induction st as [|l st IH]; cbn; [easy|]. now destruct l. Qed.

  (** what is read after [y] was set *)
  Fixpoint eff (st : list lop) (y : list Q) : list Q :=
    match st with
    | [] => y
    | LAdd o :: st' => map2 Qplus o (eff st' (map2 Qminus y o))
    | LMul m :: st' => map2 Qmult m (eff st' (map2 Qdiv y m))
    | LFun f g :: st' => vmap f (eff st' (vmap g y))
    | LModulo m :: st' => map2 qmod y m
    | LInt :: st' => map inject_Z (int_round bounds (eff st' y))
    | _ :: st' => eff st' y
    end.
  Lemma eff_proper st : forall y y', veq y y' -> veq (eff st y) (eff st y').
  Proof.
    induction st as [|l st IH]; intros y y' H; cbn; [easy|]. destruct l; auto.
    - apply map2_veq; [|apply veq_refl|apply IH; apply map2_veq; [|easy|apply veq_refl]]; intros a a' b b' Ha Hb; now rewrite Ha, Hb.
    - apply map2_veq; [|apply veq_refl|apply IH; apply map2_veq; [|easy|apply veq_refl]]; intros a a' b b' Ha Hb; now rewrite Ha, Hb.
    - rewrite (vmap_veq g _ _ H). apply veq_refl.
    - apply map2_veq; [apply qmod_proper|easy|apply veq_refl].
    - rewrite (int_round_proper bounds _ _ (IH _ _ H)). apply veq_refl.
  Qed.
  Lemma eff_plain st : plain st -> Forall (lop_ok n) st -> forall y, length y = n -> veq (eff st y) y.
  Proof.
    induction 1 as [|l st Hi H IH]; intros Hok y Hy; cbn; [apply veq_refl|].
    pose proof (Forall_inv Hok) as Hl; pose proof (Forall_inv_tail Hok) as Hok'. specialize (IH Hok').
    destruct l; cbn in Hi, Hl; try easy; auto.
    - eapply veq_trans; [|apply (sub_add offset); congruence]. apply map2_veq; [|apply veq_refl|apply IH; apply map2_length'; congruence].
      intros a a' b b' Ha Hb. now rewrite Ha, Hb.
    - destruct Hl as [Hl1 Hl2].
      eapply veq_trans; [|apply (div_mul mult Hl2); congruence]. apply map2_veq; [|apply veq_refl|apply IH; apply map2_length'; congruence].
      intros a a' b b' Ha Hb. now rewrite Ha, Hb.
  Qed.

  Lemma qmod_shift c y m : (0 < m -> qmod (c - qmod c m + y) m == qmod y m)%Q.
  Proof.
    intros Hm. unfold qmod.
    assert (E : ((c - (c - m * inject_Z (Qfloor (c / m))) + y) / m == y / m + inject_Z (Qfloor (c / m)))%Q) by (field; lra).
    rewrite (Qfloor_comp _ _ E). clear E.
    assert (E : Qfloor (y / m + inject_Z (Qfloor (c / m))) = (Qfloor (y / m) + Qfloor (c / m))%Z).
    { set (k := Qfloor (c / m)). pose proof (Qfloor_le (y / m)) as H1. pose proof (Qlt_floor (y / m)) as H2.
      pose proof (Qfloor_le (y / m + inject_Z k)) as H3. pose proof (Qlt_floor (y / m + inject_Z k)) as H4.
      rewrite inject_Z_plus in H2, H4. change (inject_Z 1) with 1%Q in H2, H4.
      apply Z.le_antisymm.
      - apply Z.lt_succ_r. rewrite Zlt_Qlt. unfold Z.succ. rewrite !inject_Z_plus. change (inject_Z 1) with 1%Q. lra.
      - apply Z.lt_succ_r. rewrite Zlt_Qlt. unfold Z.succ. rewrite !inject_Z_plus. change (inject_Z 1) with 1%Q. lra. }
    rewrite E, inject_Z_plus. ring.
  Qed.
  Lemma vmod_shift m : Forall (fun x => 0 < x)%Q m -> forall c y, length c = length m -> length y = length m ->
    veq (map2 qmod (map2 Qplus (map2 Qminus c (map2 qmod c m)) y) m) (map2 qmod y m).
  Proof.
    induction 1 as [|a m Ha Hm IH]; intros [|c cs] [|y ys] H1 H2; try discriminate; cbn; [constructor|].
    injection H1 as H1. injection H2 as H2. constructor; [now apply qmod_shift|now apply IH].
  Qed.

  Record set_spec (st : list lop) (v : pval) (r : root) (cs' : caches) (r' : root) (u : result unit) : Prop := {
    ss_length : length (rt_value r') = n;
    ss_frozen : rt_frozen r' = rt_frozen r;
    ss_nocache : nocache st cs';
    ss_settled : settled st (rt_value r');
    ss_err : forall e, u = Err e -> r' = r;
    ss_is_frozen : rt_frozen r = true -> r' = r;
    ss_value : u = Ok tt -> exists y, v = VArr y /\ length y = n /\ veq (den st (rt_value r')) (eff st y) }.

  Lemma set_refused st v r cs e : length (rt_value r) = n -> nocache st cs -> settled st (rt_value r) ->
    set_spec st v r cs r (Err e).
  Proof. intros. constructor; auto. discriminate. Qed.

  Lemma set_good st : good st -> Forall (lop_ok n) st -> forall cs v r, length (rt_value r) = n ->
    nocache st cs -> settled st (rt_value r) ->
    forall cs' r' u, lset bounds st cs v r = (cs', r', u) -> set_spec st v r cs' r' u.
  Proof.
    induction st as [|l st IH]; intros Hg Hok cs v r Hlen Hn Hs cs' r' u E.
    - cbn in E. unfold root_set in E. destruct (rt_frozen r) eqn:Ef.
      { injection E as <- <- <-. now apply set_refused. }
      destruct v as [y|q|k]; try (injection E as <- <- <-; now apply set_refused).
      destruct (Nat.eqb_spec (length y) (length (rt_value r))) as [El|El]; injection E as <- <- <-; [|now apply set_refused].
      constructor; cbn; auto; try congruence; try discriminate. intros _. exists y. split; [easy|]. split; [congruence|apply veq_refl].
    - pose proof (Forall_inv Hok) as Hl; pose proof (Forall_inv_tail Hok) as Hok'. specialize (fun G => IH G Hok').
      destruct l; cbn [good] in Hg; try easy; cbn [lset] in E.
      + cbn in Hl. destruct (sized (length offset) v) eqn:Es; [|injection E as <- <- <-; now apply set_refused].
        destruct (lset bounds st (tl cs) _ r) as [[cs2 r2] u2] eqn:E2. injection E as <- <- <-.
        destruct (IH Hg _ _ _ Hlen Hn Hs _ _ _ E2). constructor; auto.
        intros Hu. destruct (ss_value0 Hu) as (y & Hy & Hy2 & Hy3). destruct v as [x|q|k]; cbn in Hy; try discriminate.
        injection Hy as <-. cbn in Es. apply Nat.eqb_eq in Es. exists x. split; [easy|]. split; [congruence|].
        cbn. apply map2_veq; [|apply veq_refl|easy]. intros a a' b b' Ha Hb. now rewrite Ha, Hb.
      + destruct Hl as [Hl Hl2]. destruct (sized (length mult) v) eqn:Es; [|injection E as <- <- <-; now apply set_refused].
        destruct (lset bounds st (tl cs) _ r) as [[cs2 r2] u2] eqn:E2. injection E as <- <- <-.
        destruct (IH Hg _ _ _ Hlen Hn Hs _ _ _ E2). constructor; auto.
        intros Hu. destruct (ss_value0 Hu) as (y & Hy & Hy2 & Hy3). destruct v as [x|q|k]; cbn in Hy; try discriminate.
        injection Hy as <-. cbn in Es. apply Nat.eqb_eq in Es. exists x. split; [easy|]. split; [congruence|].
        cbn. apply map2_veq; [|apply veq_refl|easy]. intros a a' b b' Ha Hb. now rewrite Ha, Hb.
      + destruct (lset bounds st (tl cs) _ r) as [[cs2 r2] u2] eqn:E2. injection E as <- <- <-.
        destruct (IH Hg _ _ _ Hlen Hn Hs _ _ _ E2). constructor; auto.
        intros Hu. destruct (ss_value0 Hu) as (y & Hy & Hy2 & Hy3). destruct v as [x|q|k]; cbn in Hy; try discriminate.
        injection Hy as <-. rewrite vmap_length in Hy2. exists x. split; [easy|]. split; [congruence|].
        cbn. rewrite (vmap_veq _ _ _ Hy3). apply veq_refl.
      + destruct v as [y|q|k]; try (injection E as <- <- <-; now apply set_refused).
        destruct (sized_opt lower (VArr y) && sized_opt upper (VArr y)) eqn:Es; [|injection E as <- <- <-; now apply set_refused].
        unfold clip_backward in E. destruct (bound_checker lower upper y) eqn:Ec; [|injection E as <- <- <-; now apply set_refused].
        destruct (lset bounds st (tl cs) _ r) as [[cs2 r2] u2] eqn:E2. injection E as <- <- <-. cbn in Hs.
        assert (R : set_spec st (VArr y) r cs2 r2 u2).
        { apply (IH (inv_good st Hg) _ _ _ Hlen Hn (proj2 Hs) _ _ _ E2). }
        destruct R.
        assert (Hb : u2 = Ok tt -> veq (den st (rt_value r2)) y).
        { intros Hu. destruct (ss_value0 Hu) as (y' & Hy & Hy2 & Hy3). injection Hy as <-.
          eapply veq_trans; [exact Hy3|]. apply eff_plain; auto. eapply Forall_impl; [|exact Hg]. intros []; cbn; tauto. }
        assert (Hset : bound_checker lower upper (den st (rt_value r2)) = true).
        { destruct u2 as [[]|e]; [|now rewrite (ss_err0 e eq_refl)].
          now rewrite (checker_proper _ _ _ _ (Hb eq_refl)). }
        constructor; auto.
        * cbn. auto.
        * intros Hu. destruct (ss_value0 Hu) as (y' & Hy & Hy2 & Hy3). injection Hy as <-. exists y. split; [easy|]. split; [easy|].
          cbn. unfold clip_forward. now rewrite Hset.
      + destruct (lset bounds st (tl cs) _ r) as [[cs2 r2] u2] eqn:E2. injection E as <- <- <-.
        destruct (IH Hg _ _ _ Hlen Hn Hs _ _ _ E2). constructor; auto.
      + destruct v as [y|q|k]; try (injection E as <- <- <-; now apply set_refused).
        destruct Hg as [Hg Hp]. destruct Hl as [Hl Hl2]. cbn in Hs, Hn.
        destruct (sized (length module) (VArr y) && _) eqn:Es; [|injection E as <- <- <-; now apply set_refused].
        apply andb_prop in Es. destruct Es as [Es _]. cbn in Es. apply Nat.eqb_eq in Es.
        destruct (get_good st Hg Hok' (tl cs) r Hlen (nocache_cons st _ _ Hn) (or_intror Hs)) as (cs1 & r1 & cur & E1 & R).
        rewrite E1 in E. destruct (lset bounds st cs1 _ r1) as [[cs2 r2] u2] eqn:E2. injection E as <- <- <-.
        assert (r1 = r) by (now apply (rs_unchanged _ _ _ _ _ R)). subst r1.
        assert (Hcur : length cur = n). { rewrite (veq_length _ _ (rs_value _ _ _ _ _ R)). now apply den_length. }
        assert (Hn1 : nocache st cs1) by (apply noint_nocache; now apply plain_noint).
        destruct (IH Hg _ _ _ Hlen Hn1 Hs _ _ _ E2). constructor; auto.
        intros Hu. destruct (ss_value0 Hu) as (y' & Hy & Hy2 & Hy3). injection Hy as <-. exists y. split; [easy|]. split; [congruence|].
        cbn. eapply veq_trans; [|apply (vmod_shift module Hl2 cur y); congruence].
        apply map2_veq; [apply qmod_proper| |apply veq_refl].
        eapply veq_trans; [exact Hy3|]. now apply eff_plain.
      + cbn in Hn, Hs. destruct Hn as [Hn1 Hn2].
        destruct (lset bounds st (tl cs) _ r) as [[cs2 r2] u2] eqn:E2. injection E as <- <- <-.
        destruct (IH Hg _ _ _ Hlen Hn2 Hs _ _ _ E2). constructor; auto.
        * cbn. auto.
        * intros Hu. destruct (ss_value0 Hu) as (y' & Hy & Hy2 & Hy3). exists y'. split; [easy|]. split; [easy|].
          cbn. rewrite (int_round_proper bounds _ _ Hy3). apply veq_refl.
      + destruct v as [y|q|k]; try (injection E as <- <- <-; now apply set_refused).
        destruct (lset bounds st (tl cs) _ r) as [[cs2 r2] u2] eqn:E2. injection E as <- <- <-.
        destruct (IH Hg _ _ _ Hlen Hn Hs _ _ _ E2). constructor; auto.
  Qed.

  (** a settable value is accepted unless frozen, out of the bounds or of another size *)
  Fixpoint accepts (st : list lop) (y : list Q) : Prop :=
    match st with
    | [] => True
    | LAdd o :: st' => accepts st' (map2 Qminus y o)
    | LMul m :: st' => accepts st' (map2 Qdiv y m)
    | LFun _ g :: st' => accepts st' (vmap g y)
    | LBound _ lo up :: st' => within lo up y /\ accepts st' y
    | LModulo _ :: _ => False
    | _ :: st' => accepts st' y
    end.
  Lemma sized_ok y : length y = n -> forall b, opt_length n b -> sized_opt b (VArr y) = true.
  Proof. intros Hy [l|] H; cbn in *; [|easy]. apply Nat.eqb_eq. congruence. Qed.
  Lemma set_accepts st : good st -> Forall (lop_ok n) st -> forall cs y r, length (rt_value r) = n -> rt_frozen r = false ->
    length y = n -> accepts st y -> snd (lset bounds st cs (VArr y) r) = Ok tt.
  Proof.
    induction st as [|l st IH]; intros Hg Hok cs y r Hlen Hf Hy Ha.
    - cbn. unfold root_set. now rewrite Hf, Hy, Hlen, Nat.eqb_refl.
    - pose proof (Forall_inv Hok) as Hl; pose proof (Forall_inv_tail Hok) as Hok'. specialize (fun G => IH G Hok').
      destruct l; cbn [good] in Hg; try easy; cbn [lset]; cbn in Ha, Hl.
      + cbn [sized on_array]. rewrite Hy, Hl, Nat.eqb_refl.
        specialize (IH Hg (tl cs) (map2 Qminus y offset) r Hlen Hf (map2_length' Qminus _ n _ Hy Hl) Ha).
        now destruct (lset bounds st (tl cs) _ r) as [[? ?] ?].
      + destruct Hl as [Hl _]. cbn [sized on_array]. rewrite Hy, Hl, Nat.eqb_refl.
        specialize (IH Hg (tl cs) (map2 Qdiv y mult) r Hlen Hf (map2_length' Qdiv _ n _ Hy Hl) Ha).
        now destruct (lset bounds st (tl cs) _ r) as [[? ?] ?].
      + cbn [on_array]. rewrite <- (vmap_length g) in Hy. specialize (IH Hg (tl cs) _ r Hlen Hf Hy Ha).
        now destruct (lset bounds st (tl cs) _ r) as [[? ?] ?].
      + destruct Hl as (Hl1 & Hl2 & _). rewrite (sized_ok y Hy _ Hl1), (sized_ok y Hy _ Hl2). cbn [andb].
        unfold clip_backward. rewrite (proj2 (checker_within n lower upper y Hl1 Hl2 Hy) (proj1 Ha)).
        specialize (IH (inv_good st Hg) (tl cs) y r Hlen Hf Hy (proj2 Ha)).
        now destruct (lset bounds st (tl cs) _ r) as [[? ?] ?].
      + specialize (IH Hg (tl cs) y r Hlen Hf Hy Ha). now destruct (lset bounds st (tl cs) _ r) as [[? ?] ?].
      + specialize (IH Hg (tl cs) y r Hlen Hf Hy Ha). now destruct (lset bounds st (tl cs) _ r) as [[? ?] ?].
      + specialize (IH Hg (tl cs) y r Hlen Hf Hy Ha). now destruct (lset bounds st (tl cs) _ r) as [[? ?] ?].
  Qed.
  Lemma set_accepted st : good st -> Forall (lop_ok n) st -> ~ (exists m, In (LModulo m) st) -> forall cs y r, length (rt_value r) = n ->
    length y = n -> snd (lset bounds st cs (VArr y) r) = Ok tt -> rt_frozen r = false /\ accepts st y.
  Proof.
    induction st as [|l st IH]; intros Hg Hok Hm cs y r Hlen Hy Hu.
    - cbn in Hu. unfold root_set in Hu. destruct (rt_frozen r); [discriminate|]. easy.
    - pose proof (Forall_inv Hok) as Hl; pose proof (Forall_inv_tail Hok) as Hok'. specialize (fun G => IH G Hok').
      assert (Hm' : ~ (exists m, In (LModulo m) st)) by (intros [m Hi]; apply Hm; exists m; now right).
      destruct l; cbn [good] in Hg; try easy; cbn [lset] in Hu; cbn in Hl; cbn.
      + destruct (sized _ _); [|discriminate]. cbn [on_array] in Hu.
        destruct (lset bounds st (tl cs) _ r) as [[cs2 r2] u2] eqn:E2. cbn in Hu. subst u2.
        apply (IH Hg Hm' (tl cs) _ r Hlen); [now apply map2_length'|now rewrite E2].
      + destruct Hl as [Hl _]. destruct (sized _ _); [|discriminate]. cbn [on_array] in Hu.
        destruct (lset bounds st (tl cs) _ r) as [[cs2 r2] u2] eqn:E2. cbn in Hu. subst u2.
        apply (IH Hg Hm' (tl cs) _ r Hlen); [now apply map2_length'|now rewrite E2].
      + cbn [on_array] in Hu. destruct (lset bounds st (tl cs) _ r) as [[cs2 r2] u2] eqn:E2. cbn in Hu. subst u2.
        apply (IH Hg Hm' (tl cs) _ r Hlen); [now rewrite vmap_length|now rewrite E2].
      + destruct (_ && _); [|discriminate]. unfold clip_backward in Hu. destruct (bound_checker lower upper y) eqn:Ec; [|discriminate].
        destruct Hl as (Hl1 & Hl2 & _). apply (checker_within n) in Ec; auto.
        destruct (lset bounds st (tl cs) _ r) as [[cs2 r2] u2] eqn:E2. cbn in Hu. subst u2.
        destruct (IH (inv_good st Hg) Hm' (tl cs) y r Hlen Hy); [now rewrite E2|]. auto.
      + destruct (lset bounds st (tl cs) _ r) as [[cs2 r2] u2] eqn:E2. cbn in Hu. subst u2.
        apply (IH Hg Hm' (tl cs) y r Hlen Hy). now rewrite E2.
      + exfalso. apply Hm. eexists. now left.
      + destruct (lset bounds st (tl cs) _ r) as [[cs2 r2] u2] eqn:E2. cbn in Hu. subst u2.
        apply (IH Hg Hm' (tl cs) y r Hlen Hy). now rewrite E2.
      + destruct (lset bounds st (tl cs) _ r) as [[cs2 r2] u2] eqn:E2. cbn in Hu. subst u2.
        apply (IH Hg Hm' (tl cs) y r Hlen Hy). now rewrite E2.
  Qed.
  End Size.
End Den.

(** * Whole parameters *)
Lemma data_bounds_top l st : data_bounds (rev (l :: st)) =
  match lop_bounds l with
  | Some b => b
  | None => (option_map (lop_forward l) (fst (data_bounds (rev st))), option_map (lop_forward l) (snd (data_bounds (rev st))))
  end.
Proof. unfold data_bounds. cbn [rev]. rewrite fold_left_app. reflexivity. Qed.
Lemma lop_forward_length n l b : lop_ok n l -> length b = n -> length (lop_forward l b) = n.
Proof. intros Hl Hb. destruct l; cbn in *; rewrite ?vmap_length; auto; apply map2_length'; tauto. Qed.
Lemma data_bounds_length n st : Forall (lop_ok n) st -> opt_length n (fst (data_bounds (rev st))) /\ opt_length n (snd (data_bounds (rev st))).
Proof.
  induction 1 as [|l st Hl H IH]; [easy|]. rewrite data_bounds_top. destruct IH as [I1 I2].
  destruct (lop_bounds l) as [[lo up]|] eqn:E.
  - destruct l; cbn in E; try discriminate; injection E as <- <-; cbn in *; try tauto. rewrite map_length. tauto.
  - cbn [fst snd]. split.
    + destruct (fst (data_bounds (rev st))); cbn in *; [now apply lop_forward_length|easy].
    + destruct (snd (data_bounds (rev st))); cbn in *; [now apply lop_forward_length|easy].
Qed.

Lemma den_inv_indep b b' st : invertible st -> forall x, den b st x = den b' st x.
Proof.
  induction 1 as [|l st Hi H IH]; intros x; cbn; [easy|]. destruct l; cbn in Hi; try easy; now rewrite IH.
Qed.

Lemma den_noint_indep b b' st : ~ In LInt st -> forall x, den b st x = den b' st x.
Proof.
  induction st as [|l st IH]; intros Hn x; cbn; [easy|].
  assert (Hn' : ~ In LInt st) by (intros H; apply Hn; now right).
  destruct l; rewrite ?(IH Hn'); try easy. exfalso. apply Hn. now left.
Qed.
Lemma settled_noint_indep b b' st : ~ In LInt st -> forall x, settled b st x -> settled b' st x.
Proof.
  induction st as [|l st IH]; intros Hn x Hs; cbn in *; [easy|].
  assert (Hn' : ~ In LInt st) by (intros H; apply Hn; now right).
  destruct l; auto. rewrite (den_noint_indep b' b st Hn'). destruct Hs. auto.
Qed.
Section Arrays.
  Variable a : list lop.
  Hypothesis Ha : arrays a.
  Lemma den_arr b st x : den b (a ++ st) x = den b st x.
  Proof. induction Ha as [|l a' -> H IH]; [easy|]. now apply IH. Qed.
  Lemma settled_arr b st x : settled b (a ++ st) x <-> settled b st x.
  Proof. induction Ha as [|l a' -> H IH]; [easy|]. now apply IH. Qed.
  Lemma eff_arr b st x : eff b (a ++ st) x = eff b st x.
  Proof. induction Ha as [|l a' -> H IH]; [easy|]. now apply IH. Qed.
  Lemma accepts_arr st x : accepts (a ++ st) x <-> accepts st x.
  Proof. induction Ha as [|l a' -> H IH]; [easy|]. now apply IH. Qed.
  Lemma good_arr st : good (a ++ st) <-> good st.
  Proof. induction Ha as [|l a' -> H IH]; [easy|]. now apply IH. Qed.
  Lemma arr_ok n st : Forall (lop_ok n) (a ++ st) <-> Forall (lop_ok n) st.
  Proof.
    rewrite Forall_app. split; [easy|]. intros H. split; [|easy]. eapply Forall_impl; [|exact Ha]. intros l ->. exact I.
  Qed.
  Lemma in_arr l st : In l (a ++ st) <-> In l a \/ In l st.
  Proof. apply in_app_iff. Qed.
  Lemma not_arr l : l <> LArray -> ~ In l a.
  Proof. intros Hl Hi. eapply Forall_forall in Ha; [|exact Hi]. cbn in Ha. congruence. Qed.
End Arrays.
Lemma stack_arr n c a st : arrays a -> stack_ok n c (a ++ st) -> casting c /\ good st /\ Forall (lop_ok n) st.
Proof.
  intros Ha (H1 & H2 & H3). apply Forall_inv_tail in H3. rewrite good_arr in H2 by easy. now rewrite arr_ok in H3 by easy.
Qed.
Lemma veq_nth a b k q : veq a b -> nth_error b k = Some q -> exists q', nth_error a k = Some q' /\ (q' == q)%Q.
Proof.
  intros H. revert k. induction H as [|x y a b Hx H IH]; intros [|k]; cbn; try discriminate; [|apply IH].
  intros [= <-]. eauto.
Qed.

Section Data.
  Variables (n : nat) (c : lop) (st : list lop).
  Hypothesis Hok : stack_ok n c st.
  Let b := data_bounds (rev (c :: st)).
  Let Hst : Forall (lop_ok n) st.
  Proof. destruct Hok as (_ & _ & H). now apply Forall_inv_tail in H. Qed.
  Let Hg : good st.
  Proof. exact (proj1 (proj2 Hok)). Qed.
  Let Hb1 : opt_length n (fst b).
  Proof. apply data_bounds_length. exact (proj2 (proj2 Hok)). Qed.
  Let Hb2 : opt_length n (snd b).
  Proof. apply data_bounds_length. exact (proj2 (proj2 Hok)). Qed.

  Definition ld_inv (d : ldata) : Prop :=
    ld_stack d = c :: st /\ length (rt_value (ld_root d)) = n /\
    cons_ok b st (tl (ld_caches d)) (rt_value (ld_root d)) /\ settled b st (rt_value (ld_root d)).

  Lemma cast_read (v : list Q) : length v = n ->
    exists w, match c with LScalar => match v with [x] => Ok (VNum x) | _ => Err RuntimeError end | _ => Ok (VArr v) end = Ok w /\ coords w = v.
  Proof.
    intros Hv. destruct Hok as ([-> | ->] & _ & H); [now exists (VArr v)|].
    apply Forall_inv in H. cbn in H. rewrite H in Hv. destruct v as [|x [|y v]]; try discriminate. now exists (VNum x).
  Qed.

  Lemma read_any d : ld_stack d = c :: st -> length (rt_value (ld_root d)) = n ->
    cons_ok b st (tl (ld_caches d)) (rt_value (ld_root d)) ->
    (rt_frozen (ld_root d) = false \/ settled b st (rt_value (ld_root d))) ->
    exists d' v, value_get d = (d', Ok v) /\ veq (coords v) (den b st (rt_value (ld_root d))) /\ ld_inv d' /\
      veq (den b st (rt_value (ld_root d'))) (den b st (rt_value (ld_root d))) /\
      rt_frozen (ld_root d') = rt_frozen (ld_root d) /\
      (settled b st (rt_value (ld_root d)) -> ld_root d' = ld_root d).
  Proof.
    intros E1 E2 E3 E4.
    destruct (get_good b n Hb1 Hb2 st Hg Hst _ _ E2 E3 E4) as (cs' & r' & v & E & R).
    assert (Hv : length v = n). { rewrite (veq_length _ _ (rs_value _ _ _ _ _ _ _ R)). now apply den_length. }
    destruct (cast_read v Hv) as (w & Hw & Hc). destruct R.
    unfold value_get. unfold ld_bounds. rewrite E1. fold b.
    assert (EE : lget b (c :: st) (ld_caches d) (ld_root d) = (hd None (ld_caches d) :: cs', r', Ok w)).
    { destruct Hok as ([-> | ->] & _ & _); cbn [lget]; rewrite E; cbn [bind]; rewrite Hw; reflexivity. }
    rewrite EE. do 2 eexists. split; [reflexivity|]. cbn. rewrite Hc. repeat split; cbn; auto.
  Qed.
  Lemma read_inv d : ld_inv d ->
    exists d' v, value_get d = (d', Ok v) /\ veq (coords v) (den b st (rt_value (ld_root d))) /\ ld_inv d' /\ ld_root d' = ld_root d.
  Proof.
    intros (E1 & E2 & E3 & E4). destruct (read_any d E1 E2 E3 (or_intror E4)) as (d' & v & E & H1 & H2 & _ & _ & H5).
    exists d', v. auto.
  Qed.

  Lemma new_unsettled x : length x = n -> ld_stack (ld_new (c :: st) x) = c :: st /\
    cons_ok b st (tl (ld_caches (ld_new (c :: st) x))) x.
  Proof. intros Hx. split; [easy|]. apply nocache_cons. cbn. apply cleared_nocache. Qed.

  Lemma init_settled x : init_ok n (c :: st) x -> settled b st x.
  Proof.
    intros [Hx Hi]. destruct (new_unsettled x Hx) as [E1 E3].
    destruct (read_any (ld_new (c :: st) x) E1 Hx E3 (or_introl eq_refl)) as (d' & v & E & H1 & H2 & H3 & _).
    rewrite E in Hi. cbn in Hi. destruct H2 as (_ & _ & _ & H). rewrite Hi in H. exact H.
  Qed.
  Lemma settled_init x : length x = n -> settled b st x -> init_ok n (c :: st) x.
  Proof.
    intros Hx Hs. split; [easy|]. destruct (new_unsettled x Hx) as [E1 E3].
    destruct (read_any (ld_new (c :: st) x) E1 Hx E3 (or_introl eq_refl)) as (d' & v & E & _ & _ & _ & _ & H5).
    rewrite E. cbn. exact (H5 Hs).
  Qed.
  Lemma new_inv x : init_ok n (c :: st) x -> ld_inv (ld_new (c :: st) x).
  Proof. intros Hi. pose proof (init_settled x Hi) as Hs. destruct Hi as [Hx _]. destruct (new_unsettled x Hx). repeat split; auto. Qed.

  (** the array given to the layers below the casting *)
  Definition uncast (v : pval) : option (list Q) :=
    match c, v with LScalar, VNum x => Some [x] | LScalar, _ => None | _, VArr y => Some y | _, _ => None end.

  Lemma read_shape d d' v : ld_inv d -> value_get d = (d', Ok v) -> uncast v = Some (coords v).
  Proof.
    intros (E1 & E2 & E3 & E4) E.
    destruct (get_good b n Hb1 Hb2 st Hg Hst _ _ E2 E3 (or_intror E4)) as (cs' & r' & w & G & R).
    unfold value_get, ld_bounds in E. rewrite E1 in E. fold b in E. unfold uncast.
    destruct Hok as ([Hc|Hc] & _ & Hn); rewrite Hc in *; cbn [lget] in E; fold b in E.
    - rewrite G in E. injection E as _ <-. reflexivity.
    - rewrite G in E. injection E as _ E. cbn [bind] in E. destruct w as [|q [|]]; try discriminate. injection E as <-. reflexivity.
  Qed.

  Lemma set_inv v d d' u : ld_inv d -> value_set v d = (d', u) ->
    ld_inv d' /\ rt_frozen (ld_root d') = rt_frozen (ld_root d) /\
    (forall e, u = Err e -> ld_root d' = ld_root d) /\
    (u = Ok tt -> exists y, uncast v = Some y /\ length y = n /\ veq (den b st (rt_value (ld_root d'))) (eff b st y)) /\
    (rt_frozen (ld_root d) = true -> ld_root d' = ld_root d).
  Proof.
    intros (E1 & E2 & E3 & E4) E. unfold value_set, value_del, ld_bounds in E. cbn [ld_stack ld_caches ld_root] in E.
    rewrite E1 in E. fold b in E. cbn [map] in E.
    assert (K : lset b (c :: st) (None :: map (fun _ => None) st) v (ld_root d) =
      match uncast v with
      | Some y => let '(cs', r', u) := lset b st (map (fun _ => None) st) (VArr y) (ld_root d) in (None :: cs', r', u)
      | None => (None :: map (fun _ => None) st, ld_root d, Err TypeError)
      end).
    { unfold uncast. destruct Hok as ([Hc|Hc] & _); rewrite Hc; cbn [lset hd tl]; now destruct v. }
    rewrite K in E. destruct (uncast v) as [y|].
    - destruct (lset b st _ _ _) as [[cs2 r2] u2] eqn:E5. injection E as <- <-.
      destruct (set_good b n Hb1 Hb2 st Hg Hst _ _ _ E2 (cleared_nocache st) E4 _ _ _ E5).
      split; [repeat split; cbn; auto; now apply nocache_cons|]. cbn. repeat split; auto.
      intros Hu. destruct (ss_value0 Hu) as (y' & Hy & Hy2). injection Hy as <-. eauto.
    - injection E as <- <-. split; [repeat split; cbn; auto; apply nocache_cons, cleared_nocache|]. repeat split; cbn; auto; discriminate.
  Qed.
  Lemma set_ok_iff y v d : ld_inv d -> ~ (exists m, In (LModulo m) st) -> uncast v = Some y -> length y = n ->
    (snd (value_set v d) = Ok tt <-> rt_frozen (ld_root d) = false /\ accepts st y).
  Proof.
    intros (E1 & E2 & E3 & E4) Hm Hu Hy. unfold value_set, value_del, ld_bounds. cbn [ld_stack ld_caches ld_root].
    rewrite E1. fold b. cbn [map]. unfold uncast in Hu.
    assert (K : snd (let '(cs, r, u) := lset b (c :: st) (None :: map (fun _ => None) st) v (ld_root d) in (LData (c :: st) cs r, u))
                = snd (lset b st (map (fun _ => None) st) (VArr y) (ld_root d))).
    { destruct Hok as ([-> | ->] & _ & _); cbn [lset hd tl]; destruct v; try discriminate; injection Hu as <-;
        now destruct (lset b st _ _ _) as [[? ?] ?]. }
    rewrite K. split.
    - intros H. exact (set_accepted b n st Hg Hst Hm _ _ _ E2 Hy H).
    - intros [Hf Ha]. now apply (set_accepts b n).
  Qed.

  Lemma raw_inv x d d' u : ld_inv d -> raw_set x d = (d', u) ->
    ld_inv d' /\ rt_frozen (ld_root d') = rt_frozen (ld_root d) /\
    (forall e, u = Err e -> ld_root d' = ld_root d) /\
    (u = Ok tt <-> rt_frozen (ld_root d) = false /\ length x = n) /\
    (u = Ok tt -> veq (den b st (rt_value (ld_root d'))) (den b st x) /\ (settled b st x -> rt_value (ld_root d') = x)) /\
    (rt_frozen (ld_root d) = true -> d' = d).
  Proof.
    intros Hi E. pose proof Hi as (E1 & E2 & E3 & E4). unfold raw_set in E. destruct (rt_frozen (ld_root d)) eqn:Ef.
    { injection E as <- <-. repeat split; auto; try easy. }
    cbn [value_del ld_root ld_stack ld_caches] in E. rewrite E2 in E. destruct (Nat.eqb_spec (length x) n) as [Hx|Hx]; cbn [negb] in E.
    - rewrite Ef in E. destruct (new_unsettled x Hx) as [E5 E6].
      replace (LData (ld_stack d) (map (fun _ => None) (ld_stack d)) (Root x false)) with (ld_new (c :: st) x) in E by (unfold ld_new; now rewrite E1).
      destruct (read_any (ld_new (c :: st) x) E5 Hx E6 (or_introl eq_refl)) as (d1 & v & G & G1 & G2 & G3 & G4 & G5).
      rewrite G in E. injection E as <- <-. cbn in *. split; [easy|]. split; [easy|]. split; [discriminate|]. split; [easy|].
      split; [|discriminate]. intros _. split; [easy|]. intros Hs. now rewrite (G5 Hs).
    - injection E as <- <-. cbn. split; [repeat split; cbn; auto; rewrite E1; cbn; apply nocache_cons, cleared_nocache|].
      repeat split; auto; try easy; try discriminate.
  Qed.

  Lemma step_inv d o : ld_inv d -> ld_inv (ld_step d o).
  Proof.
    intros Hi. destruct o; cbn.
    - destruct (read_inv d Hi) as (d' & v & E & _ & H & _). now rewrite E.
    - destruct (value_set v d) as [d' u] eqn:E. now apply (set_inv v d d' u).
    - destruct (raw_set x d) as [d' u] eqn:E. now apply (raw_inv x d d' u).
    - destruct Hi as (E1 & E2 & E3 & E4). repeat split; auto.
  Qed.
  Lemma run_inv ops : forall d, ld_inv d -> ld_inv (ld_run ops d).
  Proof. induction ops as [|o ops IH]; intros d Hi; cbn; [easy|]. apply IH. now apply step_inv. Qed.
End Data.

(** * Integers *)
Lemma round_bounds x : (x - (1 # 2) <= inject_Z (round_half_even x) /\ inject_Z (round_half_even x) <= x + (1 # 2))%Q.
Proof.
  unfold round_half_even. set (f := Qfloor x). pose proof (Qfloor_le x) as H1. pose proof (Qlt_floor x) as H2.
  fold f in H1, H2. rewrite inject_Z_plus in H2. change (inject_Z 1) with 1%Q in H2.
  assert (E : (inject_Z (f + 1) == inject_Z f + 1)%Q) by (now rewrite inject_Z_plus).
  destruct (Qcompare_spec (x - inject_Z f) (1 # 2)) as [H|H|H].
  - destruct (Z.even f); rewrite ?E; split; lra.
  - split; lra.
  - rewrite E. split; lra.
Qed.
(** nothing closer than the rounded integer *)
Lemma Zle_of_lt a k : (inject_Z a < inject_Z k + 1)%Q -> (a <= k)%Z.
Proof. intros H. apply Z.lt_succ_r. rewrite Zlt_Qlt. unfold Z.succ. rewrite inject_Z_plus. exact H. Qed.
Lemma lower_int bd k : (bd <= inject_Z k)%Q -> (round_half_even (bd + (1 # 2) - int_eps) <= k)%Z.
Proof.
  intros H. destruct (round_bounds (bd + (1 # 2) - int_eps)) as [_ H2]. apply Zle_of_lt.
  assert (0 < int_eps)%Q by reflexivity. lra.
Qed.
Lemma lower_int_ge bd : (bd - int_eps <= inject_Z (round_half_even (bd + (1 # 2) - int_eps)))%Q.
Proof. destruct (round_bounds (bd + (1 # 2) - int_eps)) as [H _]. lra. Qed.
Lemma upper_int bd k : (inject_Z k <= bd)%Q -> (k <= round_half_even (bd - (1 # 2) + int_eps))%Z.
Proof.
  intros H. destruct (round_bounds (bd - (1 # 2) + int_eps)) as [H2 _]. apply Zle_of_lt.
  assert (0 < int_eps)%Q by reflexivity. lra.
Qed.
Lemma upper_int_le bd : (inject_Z (round_half_even (bd - (1 # 2) + int_eps)) <= bd + int_eps)%Q.
Proof. destruct (round_bounds (bd - (1 # 2) + int_eps)) as [_ H]. lra. Qed.

Lemma nearer_left x a k : (k <= a)%Z -> (inject_Z a <= x + (1 # 2))%Q -> (Qabs (x - inject_Z a) <= Qabs (x - inject_Z k))%Q.
Proof.
  intros H H2. destruct (Z.eq_dec k a) as [->|Hn]; [apply Qle_refl|].
  assert (K : (inject_Z k + 1 <= inject_Z a)%Q). { change 1%Q with (inject_Z 1). rewrite <- inject_Z_plus, <- Zle_Qle. lia. }
  apply (Qabs_case (x - inject_Z a)); intros; apply (Qabs_case (x - inject_Z k)); intros; lra.
Qed.
Lemma nearer_right x a k : (a <= k)%Z -> (x - (1 # 2) <= inject_Z a)%Q -> (Qabs (x - inject_Z a) <= Qabs (x - inject_Z k))%Q.
Proof.
  intros H H2. destruct (Z.eq_dec k a) as [->|Hn]; [apply Qle_refl|].
  assert (K : (inject_Z a + 1 <= inject_Z k)%Q). { change 1%Q with (inject_Z 1). rewrite <- inject_Z_plus, <- Zle_Qle. lia. }
  apply (Qabs_case (x - inject_Z a)); intros; apply (Qabs_case (x - inject_Z k)); intros; lra.
Qed.

(** one coordinate *)
Definition int_round1 (lo up : option Q) (x : Q) : Z :=
  let o := round_half_even x in
  let o := match lo with Some b => Z.max (round_half_even (b + (1 # 2) - int_eps)%Q) o | None => o end in
  match up with Some b => Z.min (round_half_even (b - (1 # 2) + int_eps)%Q) o | None => o end.
Lemma int_round1_spec lo up x k0 : ge_opt lo (inject_Z k0) -> le_opt up (inject_Z k0) ->
  ge_opt (option_map (fun q => q - int_eps)%Q lo) (inject_Z (int_round1 lo up x)) /\
  le_opt (option_map (fun q => q + int_eps)%Q up) (inject_Z (int_round1 lo up x)) /\
  forall k, ge_opt lo (inject_Z k) -> le_opt up (inject_Z k) -> (Qabs (x - inject_Z (int_round1 lo up x)) <= Qabs (x - inject_Z k))%Q.
Proof.
  intros H1 H2. destruct (round_bounds x) as [R1 R2]. unfold int_round1.
  destruct lo as [lo|], up as [up|]; cbn [ge_opt le_opt option_map] in *.
  - pose proof (lower_int_ge lo) as L1. pose proof (upper_int_le up) as U1.
    pose proof (lower_int lo _ H1) as L0. pose proof (upper_int up _ H2) as U0.
    set (L := round_half_even (lo + (1 # 2) - int_eps)) in *. set (U := round_half_even (up - (1 # 2) + int_eps)) in *.
    set (o := round_half_even x) in *.
    assert (A : (L <= Z.min U (Z.max L o) <= U)%Z) by lia. split; [|split].
    + eapply Qle_trans; [exact L1|]. rewrite <- Zle_Qle. lia.
    + eapply Qle_trans; [|exact U1]. rewrite <- Zle_Qle. lia.
    + intros k K1 K2. pose proof (lower_int lo _ K1) as KL. pose proof (upper_int up _ K2) as KU. fold L in KL. fold U in KU.
      destruct (Z_le_gt_dec o k) as [Hk|Hk].
      * apply nearer_right; [lia|]. assert (inject_Z (Z.min U o) <= inject_Z (Z.min U (Z.max L o)))%Q by (rewrite <- Zle_Qle; lia).
        destruct (Z_le_gt_dec o U) as [Ho|Ho]; [replace (Z.min U o) with o in H by lia; lra|]. lia.
      * apply nearer_left; [lia|]. destruct (Z_le_gt_dec L o) as [Ho|Ho]; [|lia].
        replace (Z.max L o) with o by lia. assert (inject_Z (Z.min U o) <= inject_Z o)%Q by (rewrite <- Zle_Qle; lia). lra.
  - pose proof (lower_int_ge lo) as L1. pose proof (lower_int lo _ H1) as L0.
    set (L := round_half_even (lo + (1 # 2) - int_eps)) in *. set (o := round_half_even x) in *. split; [|split; [easy|]].
    + eapply Qle_trans; [exact L1|]. rewrite <- Zle_Qle. lia.
    + intros k K1 _. pose proof (lower_int lo _ K1) as KL. fold L in KL.
      destruct (Z_le_gt_dec o k) as [Hk|Hk].
      * apply nearer_right; [lia|]. assert (inject_Z o <= inject_Z (Z.max L o))%Q by (rewrite <- Zle_Qle; lia). lra.
      * replace (Z.max L o) with o by lia. apply nearer_left; [lia|lra].
  - pose proof (upper_int_le up) as U1. pose proof (upper_int up _ H2) as U0.
    set (U := round_half_even (up - (1 # 2) + int_eps)) in *. set (o := round_half_even x) in *. split; [easy|split].
    + eapply Qle_trans; [|exact U1]. rewrite <- Zle_Qle. lia.
    + intros k _ K2. pose proof (upper_int up _ K2) as KU. fold U in KU.
      destruct (Z_le_gt_dec o k) as [Hk|Hk].
      * replace (Z.min U o) with o by lia. apply nearer_right; [lia|lra].
      * apply nearer_left; [lia|]. assert (inject_Z (Z.min U o) <= inject_Z o)%Q by (rewrite <- Zle_Qle; lia). lra.
  - split; [easy|split; [easy|]]. intros k _ _. set (o := round_half_even x) in *.
    destruct (Z_le_gt_dec o k); [apply nearer_right; [lia|lra]|apply nearer_left; [lia|lra]].
Qed.
(** ties go to the even integer *)
Lemma round_tie x a : (x == inject_Z a + (1 # 2))%Q -> round_half_even x = if Z.even a then a else (a + 1)%Z.
Proof.
  intros H. rewrite (round_proper _ _ H). unfold round_half_even.
  assert (E : Qfloor (inject_Z a + (1 # 2)) = a).
  { apply Z.le_antisymm.
    - apply Zle_of_lt. pose proof (Qfloor_le (inject_Z a + (1 # 2))). lra.
    - apply Zle_of_lt. pose proof (Qlt_floor (inject_Z a + (1 # 2))) as X. rewrite inject_Z_plus in X. change (inject_Z 1) with 1%Q in X. lra. }
  rewrite E. destruct (Qcompare_spec (inject_Z a + (1 # 2) - inject_Z a) (1 # 2)) as [X|X|X]; [reflexivity|lra|lra].
Qed.
Lemma int_round1_range lo up x k : ge_opt lo (inject_Z k) -> le_opt up (inject_Z k) ->
  let o := round_half_even x in let z := int_round1 lo up x in
  (z = o \/ (o < z <= k)%Z \/ (k <= z < o)%Z).
Proof.
  intros H1 H2 o z. unfold z, int_round1. fold o. destruct lo as [lo|], up as [up|]; cbn [ge_opt le_opt] in *;
    try pose proof (lower_int lo _ H1); try pose proof (upper_int up _ H2); lia.
Qed.
Lemma int_round1_tie lo up x k : ge_opt lo (inject_Z k) -> le_opt up (inject_Z k) ->
  let z := int_round1 lo up x in
  k <> z -> (Qabs (x - inject_Z k) == Qabs (x - inject_Z z))%Q -> Z.even z = true.
Proof.
  intros H1 H2 z Hk Ht. pose proof (int_round1_range lo up x k H1 H2) as Hr. cbn zeta in Hr. fold z in Hr.
  destruct (round_bounds x) as [R1 R2]. set (o := round_half_even x) in *.
  (* [x] is in the middle of [k] and [z] *)
  assert (Hm : (2 * x == inject_Z (k + z))%Q).
  { rewrite inject_Z_plus.
    assert (Hne : ~ (inject_Z k == inject_Z z)%Q) by (intros X; apply Hk; apply inject_Z_injective; exact X).
    revert Ht. apply (Qabs_case (x - inject_Z k)); intros A; apply (Qabs_case (x - inject_Z z)); intros B C; try lra;
      exfalso; apply Hne; lra. }
  rewrite inject_Z_plus in Hm.
  assert (Hzo : (z = o)%Z \/ (o < z)%Z \/ (z < o)%Z) by lia.
  assert (Kz : z = o -> Z.even z = true).
  { intros Ez.
    assert (Hadj : (k = z + 1 \/ k = z - 1)%Z).
    { rewrite Ez in *. assert (inject_Z k <= inject_Z o + 1)%Q by lra. assert (inject_Z o - 1 <= inject_Z k)%Q by lra.
      assert (k <= o + 1)%Z by (rewrite Zle_Qle, inject_Z_plus; change (inject_Z 1) with 1%Q; lra).
      assert (o <= k + 1)%Z by (rewrite Zle_Qle, inject_Z_plus; change (inject_Z 1) with 1%Q; lra).
      lia. }
    destruct Hadj as [-> | ->].
    - assert (T : (x == inject_Z z + (1 # 2))%Q) by (rewrite inject_Z_plus in Hm; change (inject_Z 1) with 1%Q in Hm; lra).
      apply round_tie in T. fold o in T. destruct (Z.even z) eqn:Ev; [reflexivity|]. lia.
    - assert (T : (x == inject_Z (z - 1) + (1 # 2))%Q).
      { assert (Y : (inject_Z z == inject_Z (z - 1) + 1)%Q).
        { change 1%Q with (inject_Z 1). rewrite <- inject_Z_plus. replace (z - 1 + 1)%Z with z by lia. reflexivity. }
        lra. }
      apply round_tie in T. fold o in T. destruct (Z.even (z - 1)) eqn:Ev; [lia|].
      replace z with (Z.succ (z - 1)) by lia. rewrite Z.even_succ, <- Z.negb_even, Ev. reflexivity. }
  destruct Hr as [Ez|[[Ha Hb]|[Ha Hb]]]; [exact (Kz Ez)| |]; exfalso.
  - (* o < z < k, yet x is nearer to o *)
    assert (X : (z < k)%Z) by lia.
    assert (inject_Z o + 1 <= inject_Z z)%Q by (change 1%Q with (inject_Z 1); rewrite <- inject_Z_plus, <- Zle_Qle; lia).
    assert (inject_Z z + 1 <= inject_Z k)%Q by (change 1%Q with (inject_Z 1); rewrite <- inject_Z_plus, <- Zle_Qle; lia). lra.
  - assert (X : (k < z)%Z) by lia.
    assert (inject_Z z + 1 <= inject_Z o)%Q by (change 1%Q with (inject_Z 1); rewrite <- inject_Z_plus, <- Zle_Qle; lia).
    assert (inject_Z k + 1 <= inject_Z z)%Q by (change 1%Q with (inject_Z 1); rewrite <- inject_Z_plus, <- Zle_Qle; lia). lra.
Qed.
Lemma nth_error_map2 {A B C} (f : A -> B -> C) a : forall b k, nth_error (map2 f a b) k =
  match nth_error a k, nth_error b k with Some x, Some y => Some (f x y) | _, _ => None end.
Proof.
  induction a as [|x a IH]; intros [|y b] [|k]; cbn; auto.
  - now destruct (nth_error a k).
Qed.
Lemma int_round_nth n (b : bounds_t) x k q : opt_length n (fst b) -> opt_length n (snd b) -> length x = n ->
  nth_error x k = Some q ->
  nth_error (int_round b x) k = Some (int_round1 (at_or (fst b) k) (at_or (snd b) k) q).
Proof.
  intros H1 H2 Hx Hk. assert (Hkn : (k < n)%nat). { rewrite <- Hx. apply nth_error_Some. congruence. }
  assert (Hr : nth_error (map round_half_even x) k = Some (round_half_even q)) by (now rewrite nth_error_map, Hk).
  unfold int_round, int_round1. destruct b as [lo up]. cbn [fst snd] in *.
  assert (N : forall l : list Q, length l = n -> exists z, nth_error l k = Some z).
  { intros l Hl. destruct (nth_error l k) eqn:E; [eauto|]. apply nth_error_None in E. lia. }
  destruct lo as [lo|], up as [up|]; cbn [at_or opt_length] in *.
  - destruct (N lo H1) as [z1 Z1]. destruct (N up H2) as [z2 Z2]. rewrite !nth_error_map2, Z1, Z2, Hr. reflexivity.
  - destruct (N lo H1) as [z1 Z1]. rewrite !nth_error_map2, Z1, Hr. reflexivity.
  - destruct (N up H2) as [z2 Z2]. rewrite !nth_error_map2, Z2, Hr. reflexivity.
  - exact Hr.
Qed.

(** * Bounds of the whole parameter *)
Lemma qmod_range x m : (0 < m -> 0 <= qmod x m /\ qmod x m < m)%Q.
Proof.
  intros Hm. unfold qmod. pose proof (Qfloor_le (x / m)) as H1. pose proof (Qlt_floor (x / m)) as H2.
  rewrite inject_Z_plus in H2. change (inject_Z 1) with 1%Q in H2.
  assert (E : (x == x / m * m)%Q) by (field; lra).
  set (q := (x / m)%Q) in *. set (f := inject_Z (Qfloor q)) in *.
  assert (f * m <= q * m)%Q by (apply Qmult_le_compat_r; lra).
  assert (q * m < (f + 1) * m)%Q by (apply Qmult_lt_compat_r; lra).
  split; rewrite E; lra.
Qed.
Lemma mod_range m : Forall (fun x => 0 < x)%Q m -> forall v, length v = length m ->
  Forall2 (fun v m => 0 <= v /\ v < m)%Q (map2 qmod v m) m.
Proof.
  induction 1 as [|a m Ha Hm IH]; intros [|x v] E; try discriminate; cbn; constructor; [now apply qmod_range|].
  apply IH. now injection E.
Qed.
Lemma mod_within m v : Forall (fun x => 0 < x)%Q m -> length v = length m ->
  within (Some (map (fun _ => 0%Q) m)) (Some m) (map2 qmod v m).
Proof.
  intros Hm Hv. pose proof (mod_range m Hm v Hv) as H. unfold within, above, below. clear Hm Hv.
  induction H as [|x y a b Hx H IH]; cbn; split; constructor; try tauto. lra.
Qed.
Lemma plus_le o : forall a b, Forall2 Qle a b -> length a = length o -> Forall2 Qle (map2 Qplus o a) (map2 Qplus o b).
Proof.
  induction o as [|x o IH]; intros a b Hab El; destruct Hab as [|y z a b Hy Hab]; try discriminate; cbn; constructor; [lra|].
  apply IH; [easy|now injection El].
Qed.
Lemma mult_le m : Forall (fun x => 0 < x)%Q m -> forall a b, Forall2 Qle a b -> length a = length m -> Forall2 Qle (map2 Qmult m a) (map2 Qmult m b).
Proof.
  induction 1 as [|x m Hx Hm IH]; intros a b Hab El; destruct Hab as [|y z a b Hy Hab]; try discriminate; cbn; constructor.
  - rewrite (Qmult_comm x y), (Qmult_comm x z). apply Qmult_le_compat_r; lra.
  - apply IH; [easy|now injection El].
Qed.
Lemma den_within bb n st : Forall (lop_ok n) st -> positive st -> ~ In LInt st -> (forall lo up, ~ In (LCheck lo up) st) ->
  forall x, length x = n -> opt_length n (fst bb) -> opt_length n (snd bb) ->
  within (fst (data_bounds (rev st))) (snd (data_bounds (rev st))) (den bb st x).
Proof.
  intros Hok Hp Hi Hc x Hx B1 B2. induction Hok as [|l st Hl Hok IH]; [easy|].
  pose proof (Forall_inv Hp) as Hp1. apply Forall_inv_tail in Hp.
  assert (Hd : length (den bb st x) = n) by (now apply den_length).
  destruct (data_bounds_length n st Hok) as [D1 D2].
  assert (IH' : within (fst (data_bounds (rev st))) (snd (data_bounds (rev st))) (den bb st x)).
  { apply IH; auto; [intros H; apply Hi; now right|]. intros lo up H. apply (Hc lo up). now right. }
  clear IH. rewrite data_bounds_top. destruct l; cbn [lop_bounds lop_forward fst snd den] in *.
  - destruct IH' as [I1 I2]. destruct (fst (data_bounds (rev st))), (snd (data_bounds (rev st))); cbn in *; split; auto; apply plus_le; auto; congruence.
  - destruct IH' as [I1 I2]. destruct Hl as [Hl _]. destruct (fst (data_bounds (rev st))), (snd (data_bounds (rev st))); cbn in *; split; auto; apply mult_le; auto; congruence.
  - easy.
  - destruct Hl as (L1 & L2 & L3). now apply (clip_forward_within n).
  - exfalso. apply (Hc lower upper). now left.
  - destruct Hl as [L1 L2]. apply mod_within; [easy|congruence].
  - exfalso. apply Hi. now left.
  - destruct IH' as [I1 I2]. destruct (fst (data_bounds (rev st))), (snd (data_bounds (rev st))); cbn in *; split; auto.
  - destruct IH' as [I1 I2]. destruct (fst (data_bounds (rev st))), (snd (data_bounds (rev st))); cbn in *; split; auto.
Qed.

(** * Clipping and bouncing, coordinate by coordinate *)
Definition clip1 (lo up : option Q) (x : Q) : Q :=
  let x := match lo with Some b => qmax x b | None => x end in
  match up with Some b => qmin x b | None => x end.
Lemma np_clip_nth n lo up v k x : opt_length n lo -> opt_length n up -> length v = n -> nth_error v k = Some x ->
  nth_error (np_clip lo up v) k = Some (clip1 (at_or lo k) (at_or up k) x).
Proof.
  intros H1 H2 Hx Hk. assert (Hkn : (k < n)%nat). { rewrite <- Hx. apply nth_error_Some. congruence. }
  assert (N : forall l : list Q, length l = n -> exists z, nth_error l k = Some z).
  { intros l Hl. destruct (nth_error l k) eqn:E; [eauto|]. apply nth_error_None in E. lia. }
  unfold np_clip, clip1. destruct lo as [lo|], up as [up|]; cbn [at_or opt_length] in *.
  - destruct (N lo H1) as [z1 Z1]. destruct (N up H2) as [z2 Z2]. rewrite !nth_error_map2, Z1, Z2, Hk. reflexivity.
  - destruct (N lo H1) as [z1 Z1]. rewrite !nth_error_map2, Z1, Hk. reflexivity.
  - destruct (N up H2) as [z2 Z2]. rewrite !nth_error_map2, Z2, Hk. reflexivity.
  - exact Hk.
Qed.
Lemma ordered_nth lo up k a b : ordered_bounds lo up -> at_or lo k = Some a -> at_or up k = Some b -> (a < b)%Q.
Proof.
  destruct lo as [lo|], up as [up|]; cbn; try discriminate. intros H. revert k.
  induction H as [|x y l l' Hx H IH]; intros [|k]; cbn; try discriminate; [congruence|apply IH].
Qed.
Lemma qmin_cases a b : (qmin a b == a /\ a <= b \/ qmin a b == b /\ b <= a)%Q.
Proof. unfold qmin. destruct (qlt b a) eqn:E; [apply qlt_iff in E; right; split; [reflexivity|lra]|apply qlt_false in E; left; split; [reflexivity|lra]]. Qed.
Lemma qmax_cases a b : (qmax a b == a /\ b <= a \/ qmax a b == b /\ a <= b)%Q.
Proof. unfold qmax. destruct (qlt a b) eqn:E; [apply qlt_iff in E; right; split; [reflexivity|lra]|apply qlt_false in E; left; split; [reflexivity|lra]]. Qed.
Lemma clip1_spec lo up x : (forall a b, lo = Some a -> up = Some b -> a < b)%Q ->
  ge_opt lo (clip1 lo up x) /\ le_opt up (clip1 lo up x) /\
  forall z, ge_opt lo z -> le_opt up z -> (Qabs (x - clip1 lo up x) <= Qabs (x - z))%Q.
Proof.
  intros Ho. unfold clip1. destruct lo as [a|], up as [b|]; cbn [ge_opt le_opt].
  - specialize (Ho a b eq_refl eq_refl).
    destruct (qmin_cases (qmax x a) b) as [[E1 E2]|[E1 E2]], (qmax_cases x a) as [[E3 E4]|[E3 E4]];
      rewrite E1 in *; rewrite ?E3 in *; (split; [lra|split; [lra|]]); intros z Z1 Z2;
      apply (Qabs_case (x - z)); intros; match goal with |- (Qabs ?u <= _)%Q => apply (Qabs_case u) end; intros; lra.
  - destruct (qmax_cases x a) as [[E3 E4]|[E3 E4]]; rewrite E3 in *; (split; [lra|split; [easy|]]); intros z Z1 Z2;
      apply (Qabs_case (x - z)); intros; match goal with |- (Qabs ?u <= _)%Q => apply (Qabs_case u) end; intros; lra.
  - destruct (qmin_cases x b) as [[E3 E4]|[E3 E4]]; rewrite E3 in *; (split; [easy|split; [lra|]]); intros z Z1 Z2;
      apply (Qabs_case (x - z)); intros; match goal with |- (Qabs ?u <= _)%Q => apply (Qabs_case u) end; intros; lra.
  - split; [easy|split; [easy|]]. intros z _ _. setoid_replace (x - x)%Q with 0%Q by ring. apply Qabs_nonneg.
Qed.
Lemma clip1_inside lo up x : ge_opt lo x -> le_opt up x -> (clip1 lo up x == x)%Q.
Proof.
  unfold clip1. destruct lo as [a|], up as [b|]; cbn; intros H1 H2.
  - destruct (qmin_cases (qmax x a) b) as [[E1 E2]|[E1 E2]], (qmax_cases x a) as [[E3 E4]|[E3 E4]]; rewrite E1 in *; rewrite ?E3 in *; lra.
  - destruct (qmax_cases x a) as [[E3 E4]|[E3 E4]]; rewrite E3 in *; lra.
  - destruct (qmin_cases x b) as [[E3 E4]|[E3 E4]]; rewrite E3 in *; lra.
  - reflexivity.
Qed.
Lemma within_nth n lo up v k x : opt_length n lo -> opt_length n up -> length v = n -> within lo up v -> nth_error v k = Some x ->
  ge_opt (at_or lo k) x /\ le_opt (at_or up k) x.
Proof.
  intros H1 H2 Hv [W1 W2] Hk.
  assert (G : forall (l m : list Q) j a b, Forall2 Qle l m -> nth_error l j = Some a -> nth_error m j = Some b -> (a <= b)%Q).
  { intros l m j a b HF. revert j. induction HF as [|? ? ? ? ? ? IH]; intros [|j]; cbn; try discriminate; [congruence|apply IH]. }
  split.
  - destruct lo as [lo|]; cbn in *; [|easy]. destruct (nth_error lo k) eqn:E; cbn; [|easy]. eapply (G lo v); eauto.
  - destruct up as [up|]; cbn in *; [|easy]. destruct (nth_error up k) eqn:E; cbn; [|easy]. eapply (G v up); eauto.
Qed.
Lemma clip_nth n lo up v k x : opt_length n lo -> opt_length n up -> length v = n -> nth_error v k = Some x ->
  exists y, nth_error (clip_forward false lo up v) k = Some y /\ (y == clip1 (at_or lo k) (at_or up k) x)%Q.
Proof.
  intros H1 H2 Hv Hk. unfold clip_forward. destruct (bound_checker lo up v) eqn:E.
  - exists x. split; [easy|]. apply (checker_within n) in E; auto. destruct (within_nth n lo up v k x); auto.
    symmetry. now apply clip1_inside.
  - exists (clip1 (at_or lo k) (at_or up k) x). split; [now apply (np_clip_nth n)|reflexivity].
Qed.
Lemma bounce_nth n lo up v k x : opt_length n lo -> opt_length n up -> length v = n -> nth_error v k = Some x ->
  exists y, nth_error (clip_forward true lo up v) k = Some y /\
    (y == clip1 (at_or lo k) (at_or up k) (2 * clip1 (at_or lo k) (at_or up k) x - x))%Q.
Proof.
  intros H1 H2 Hv Hk. unfold clip_forward. destruct (bound_checker lo up v) eqn:E.
  - exists x. split; [easy|]. apply (checker_within n) in E; auto. destruct (within_nth n lo up v k x) as [W1 W2]; auto.
    pose proof (clip1_inside _ _ x W1 W2) as C.
    assert (C2 : (2 * clip1 (at_or lo k) (at_or up k) x - x == x)%Q) by (rewrite C; ring).
    symmetry. transitivity (2 * clip1 (at_or lo k) (at_or up k) x - x)%Q; [|exact C2]. apply clip1_inside.
    + destruct (at_or lo k); cbn [ge_opt] in *; [rewrite C2; exact W1|exact I].
    + destruct (at_or up k); cbn [le_opt] in *; [rewrite C2; exact W2|exact I].
  - assert (Hl : length (map2 (fun o xi => 2 * o - xi)%Q (np_clip lo up v) v) = n).
    { apply map2_length'; auto. now apply np_clip_length. }
    eexists. split; [|reflexivity]. apply (np_clip_nth n); auto. rewrite nth_error_map2, Hk.
    now rewrite (np_clip_nth n lo up v k x).
Qed.

(** * Frozen roots *)
Lemma frozen_root_set v r : rt_frozen r = true -> fst (root_set v r) = r.
Proof. intros H. unfold root_set. now rewrite H. Qed.
Lemma frozen_stack bounds st : forall cs r, rt_frozen r = true ->
  (forall cs' r' v, lget bounds st cs r = (cs', r', v) -> r' = r) /\
  (forall v cs' r' u, lset bounds st cs v r = (cs', r', u) -> r' = r).
Proof.
  induction st as [|l st IH]; intros cs r Hf; cbn [lget lset].
  - split; [now intros cs' r' v [= <- <- <-]|]. intros v cs' r' u E. unfold root_set in E. rewrite Hf in E. now injection E as _ <- _.
  - split.
    + intros cs' r' v E. destruct (IH (tl cs) r Hf) as [IH1 IH2].
      destruct (lget bounds st (tl cs) r) as [[cs1 r1] v1] eqn:E1. specialize (IH1 _ _ _ eq_refl). subst r1.
      destruct l; try (injection E as _ <- _; reflexivity).
      * destruct v1 as [[deep|q|k]|e]; try (injection E as _ <- _; reflexivity).
        destruct (bound_checker lower upper deep); [injection E as _ <- _; reflexivity|].
        destruct (lset bounds st cs1 _ r) as [[cs2 r2] u2] eqn:E2. injection E as _ <- _.
        exact (proj2 (IH cs1 r Hf) _ _ _ _ E2).
      * destruct (hd None cs); [injection E as _ <- _; reflexivity|]. destruct v1 as [[deep|q|k]|e]; injection E as _ <- _; reflexivity.
    + intros v cs' r' u E. destruct (IH (tl cs) r Hf) as [IH1 IH2].
      assert (D : forall v0 c0, (let '(cs'0, r'0, u0) := lset bounds st (tl cs) v0 r in (c0 :: cs'0, r'0, u0)) = (cs', r', u) -> r' = r).
      { intros v0 c0 E0. destruct (lset bounds st (tl cs) v0 r) as [[cs2 r2] u2] eqn:E2. injection E0 as _ <- _. exact (IH2 _ _ _ _ E2). }
      destruct l; try (exact (D _ _ E)).
      * destruct (sized _ _); [exact (D _ _ E)|]. now injection E as _ <- _.
      * destruct (sized _ _); [exact (D _ _ E)|]. now injection E as _ <- _.
      * destruct v; try (now injection E as _ <- _). destruct (_ && _); [|now injection E as _ <- _].
        destruct (clip_backward _ _ _); [exact (D _ _ E)|]. now injection E as _ <- _.
      * destruct v; try (now injection E as _ <- _). destruct (_ && _); [|now injection E as _ <- _].
        destruct (lget bounds st (tl cs) r) as [[cs1 r1] cur] eqn:E1. specialize (IH1 _ _ _ eq_refl). subst r1.
        destruct cur as [[cur|q|k]|e]; try (now injection E as _ <- _).
        destruct (lset bounds st cs1 _ r) as [[cs2 r2] u2] eqn:E2. injection E as _ <- _. exact (proj2 (IH cs1 r Hf) _ _ _ _ E2).
      * destruct v; try (now injection E as _ <- _). exact (D _ _ E).
      * destruct v; try (now injection E as _ <- _). exact (D _ _ E).
Qed.
Lemma frozen_set_refused bounds st : forall cs v r cs' r' u, rt_frozen r = true ->
  lset bounds st cs v r = (cs', r', u) -> exists e, u = Err e.
Proof.
  induction st as [|l st IH]; intros cs v r cs' r' u Hf E; cbn [lset] in E.
  - unfold root_set in E. rewrite Hf in E. injection E as _ _ <-. eauto.
  - assert (D : forall cs v cs' r' u, (let '(cs', r', u) := lset bounds st (tl cs) v r in (hd None cs :: cs', r', u)) = (cs', r', u) -> exists e, u = Err e).
    { intros c1 v1 cs1 r1 u1 E1. destruct (lset bounds st (tl c1) v1 r) as [[a b2] u2] eqn:E2. injection E1 as _ _ <-. eauto. }
    destruct l.
    + destruct (sized _ v); [exact (D _ _ _ _ _ E)|injection E as _ _ <-; eauto].
    + destruct (sized _ v); [exact (D _ _ _ _ _ E)|injection E as _ _ <-; eauto].
    + exact (D _ _ _ _ _ E).
    + destruct v as [y|q|k]; try (injection E as _ _ <-; eauto).
      destruct (_ && _); [|injection E as _ _ <-; eauto].
      destruct (clip_backward lower upper y); [exact (D _ _ _ _ _ E)|injection E as _ _ <-; eauto].
    + exact (D _ _ _ _ _ E).
    + destruct v as [y|q|k]; try (injection E as _ _ <-; eauto).
      destruct (_ && _); [|injection E as _ _ <-; eauto].
      destruct (lget bounds st (tl cs) r) as [[cs1 r1] cur] eqn:E1.
      pose proof (proj1 (frozen_stack bounds st (tl cs) r Hf) _ _ _ E1). subst r1.
      destruct cur as [[cur|q|k]|e]; try (injection E as _ _ <-; eauto).
      destruct (lset bounds st cs1 _ r) as [[cs2 r2] u2] eqn:E2. injection E as _ _ <-. eauto.
    + exact (D _ _ _ _ _ E).
    + destruct v; try (injection E as _ _ <-; eauto). exact (D _ _ _ _ _ E).
    + destruct v; try (injection E as _ _ <-; eauto). exact (D _ _ _ _ _ E).
Qed.

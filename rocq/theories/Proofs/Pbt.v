(** Lemmas on population based training. *)
From Coq Require Import List Arith QArith Bool Lia Lqa.
From Verif.Model Require Import Prelude MultiValue Pbt.
From Verif.Spec Require Import Pbt.
From Verif.Proofs Require Import MultiValue.
Import ListNotations.
Open Scope nat_scope.

Lemma set_length {A} (l : list A) i v : length (set_nth l i v) = length l.
Proof. revert i; induction l as [|a l IH]; intros [|i]; cbn; auto. Qed.
Lemma set_same {A} (l : list A) i v : i < length l -> nth_error (set_nth l i v) i = Some v.
Proof. revert i; induction l as [|a l IH]; intros [|i] H; cbn in *; try lia; auto. apply IH. lia. Qed.
Lemma set_other {A} (l : list A) i j v : i <> j -> nth_error (set_nth l i v) j = nth_error l j.
Proof. revert i j; induction l as [|a l IH]; intros [|i] [|j] H; cbn; auto; congruence. Qed.
Lemma set_nth_cases {A} (l : list A) i j v x : nth_error (set_nth l i v) j = Some x ->
  (i = j /\ x = v) \/ (i <> j /\ nth_error l j = Some x).
Proof.
  intros H. destruct (Nat.eq_dec i j) as [->|N]; [|rewrite set_other in H; auto].
  left. split; [reflexivity|]. rewrite set_same in H; [congruence|].
  rewrite <- (set_length l j v). apply nth_error_Some. congruence.
Qed.
Lemma get_ok {A} (l : list A) i : i < length l -> exists a, nth_error l i = Some a /\ get l i = Ok a.
Proof. intros H. unfold get. destruct (nth_error l i) eqn:E; [eauto|]. apply nth_error_None in E. lia. Qed.
Lemma get_nth {A} (l : list A) i a : get l i = Ok a -> nth_error l i = Some a.
Proof. unfold get. destruct (nth_error l i); intros H; inversion H; auto. Qed.

(** argmin *)
Lemma dist_lt_iff a b : dist_lt a b = true <-> ~ dist_le b a.
Proof.
  destruct a as [x|], b as [y|]; cbn.
  - rewrite qlt_iff. split; [intros H K; lra|]. intros H. destruct (Qlt_le_dec x y); [auto|contradiction].
  - split; auto.
  - split; [discriminate|tauto].
  - split; [discriminate|tauto].
Qed.
Lemma dist_lt_false a b : dist_lt a b = false <-> dist_le b a.
Proof.
  destruct a as [x|], b as [y|]; cbn; try tauto; try (split; [discriminate|contradiction]).
  - apply qlt_false.
Qed.
Lemma dist_le_trans a b c : dist_le a b -> dist_le b c -> dist_le a c.
Proof. destruct a, b, c; cbn; try tauto. intros; lra. Qed.
Lemma dist_le_refl a : dist_le a a.
Proof. destruct a; cbn; auto. lra. Qed.

Lemma argmin_from_ok l : forall done best bv,
  nth_error done best = Some bv -> (forall i u, nth_error done i = Some u -> dist_le bv u) ->
  (forall i u, i < best -> nth_error done i = Some u -> ~ dist_le u bv) ->
  first_least (done ++ l) (argmin_from best bv (length done) l).
Proof.
  induction l as [|v l IH]; intros done best bv H1 H2 H3; cbn [argmin_from].
  - rewrite app_nil_r. exists bv. auto.
  - assert (Lb : best < length done) by (apply nth_error_Some; congruence).
    replace (done ++ v :: l) with ((done ++ [v]) ++ l) by (rewrite <- app_assoc; reflexivity).
    replace (S (length done)) with (length (done ++ [v])) by (rewrite app_length; cbn; lia).
    destruct (dist_lt v bv) eqn:E.
    + apply dist_lt_iff in E. assert (V : dist_le v bv).
      { destruct (dist_lt bv v) eqn:F; [|now apply dist_lt_false]. exfalso.
        destruct v, bv; cbn in *; try discriminate; try tauto. apply qlt_iff in F. apply E. lra. }
      apply IH.
      * rewrite nth_error_app2, Nat.sub_diag; [reflexivity|lia].
      * intros i u K. destruct (lt_dec i (length done)) as [Li|Li].
        -- rewrite nth_error_app1 in K by exact Li. eapply dist_le_trans; [exact V|eauto].
        -- rewrite nth_error_app2 in K by lia. destruct (i - length done) as [|k]; cbn in K; [|destruct k; discriminate].
           inversion K; subst. apply dist_le_refl.
      * intros i u Li K D. rewrite nth_error_app1 in K by exact Li. apply E. eapply dist_le_trans; [|exact D]. eauto.
    + apply dist_lt_false in E. apply IH.
      * now rewrite nth_error_app1.
      * intros i u K. destruct (lt_dec i (length done)) as [Li|Li].
        -- rewrite nth_error_app1 in K by exact Li. eauto.
        -- rewrite nth_error_app2 in K by lia. destruct (i - length done) as [|k]; cbn in K; [|destruct k; discriminate].
           now inversion K; subst.
      * intros i u Li K. rewrite nth_error_app1 in K by lia. eauto.
Qed.
Lemma argmin_ok l : l <> [] -> exists k, argmin l = Ok k /\ first_least l k /\ k < length l.
Proof.
  intros H. destruct l as [|v l]; [congruence|]. unfold argmin. eexists; split; [reflexivity|].
  assert (K : first_least ([v] ++ l) (argmin_from 0 v (length [v]) l)).
  { apply argmin_from_ok; [reflexivity| |intros; lia]. intros [|i] u E; cbn in E; [|destruct i; discriminate].
    inversion E. apply dist_le_refl. }
  split; [exact K|]. destruct K as (x & K & _). apply nth_error_Some. cbn in K. cbn. congruence.
Qed.

(** blocks *)
Lemma blocks_concat ds : forall bs, Forall2 (fun d b => length b = d) ds bs -> blocks ds (concat bs) = bs.
Proof.
  induction ds as [|d ds IH]; intros bs H; inversion H as [|? b ? bs' Hb Hbs]; subst; [reflexivity|].
  cbn. f_equal.
  - rewrite firstn_app, Nat.sub_diag, firstn_all. cbn. apply app_nil_r.
  - rewrite skipn_app, skipn_all, Nat.sub_diag. cbn. apply IH. exact Hbs.
Qed.
Lemma blocks_sizes ds : forall x, length x = list_sum ds -> Forall2 (fun d b => length b = d) ds (blocks ds x).
Proof.
  induction ds as [|d ds IH]; intros x H; cbn; constructor.
  - change (list_sum (d :: ds)) with (d + list_sum ds) in H. rewrite firstn_length. lia.
  - apply IH. change (list_sum (d :: ds)) with (d + list_sum ds) in H. rewrite skipn_length. lia.
Qed.
Lemma concat_sizes ds bs : Forall2 (fun d b => length (A:=Q) b = d) ds bs -> length (concat bs) = list_sum ds.
Proof. induction 1 as [|d b ds bs H _ IH]; cbn; [reflexivity|]. rewrite app_length, IH, H. reflexivity. Qed.
Lemma forall2_length {A B} (P : A -> B -> Prop) l l' : Forall2 P l l' -> length l = length l'.
Proof. induction 1; cbn; auto. Qed.

Section Pbt.
  Variable dims : list nat.
  Variable func : nat -> list Q -> Q.
  Variable grad : nat -> list Q -> list Q.
  Variable qexp : Q -> Q.
  Variable norm : bool -> list Q -> list Q -> Q.
  Hypothesis Size : same_size grad.

  Lemma descend_length j d p z b : length (descend grad qexp j d p z b) = length b.
  Proof. unfold descend. rewrite map_length, combine_length, (Size j b). apply Nat.min_id. Qed.
  Lemma descend_all_sizes ds : forall j ps zs bs, length ps = length ds -> length zs = length ds ->
    Forall2 (fun d b => length b = d) ds bs ->
    Forall2 (fun d b => length b = d) ds (descend_all grad qexp j ds ps zs bs).
  Proof.
    induction ds as [|d ds IH]; intros j ps zs bs Hp Hz H; inversion H as [|? b ? bs' Hb Hbs]; subst; cbn; [constructor|].
    destruct ps as [|p ps], zs as [|z zs]; try discriminate. constructor.
    - rewrite descend_length. reflexivity.
    - apply IH; auto.
  Qed.
  Lemma descend_all_nth ds : forall j ps zs bs k b, length ps = length ds -> length zs = length ds -> length bs = length ds ->
    nth_error bs k = Some b -> exists d p z, nth_error ds k = Some d /\ nth_error ps k = Some p /\ nth_error zs k = Some z
      /\ nth_error (descend_all grad qexp j ds ps zs bs) k = Some (descend grad qexp (j + k) d p z b).
  Proof.
    induction ds as [|d ds IH]; intros j ps zs bs k b Hp Hz Hb H.
    - destruct bs; [destruct k|]; discriminate.
    - destruct ps as [|p ps], zs as [|z zs], bs as [|b0 bs]; try discriminate. destruct k as [|k]; cbn in H.
      + inversion H; subst. exists d, p, z. rewrite Nat.add_0_r. repeat split.
      + destruct (IH (S j) ps zs bs k b) as (d' & p' & z' & K1 & K2 & K3 & K4); auto.
        exists d', p', z'. cbn. rewrite Nat.add_succ_r. auto.
  Qed.
  Lemma evolve_ok x pp zs : length x = list_sum dims -> length pp = length dims -> length zs = length dims ->
    exists x', evolve dims grad qexp x pp zs = Ok x' /\ length x' = list_sum dims
      /\ unflatten dims x' = Ok (descend_all grad qexp 0 dims pp zs (blocks dims x)).
  Proof.
    intros Hx Hp Hz. unfold evolve, unflatten. rewrite Hp, Hx, !Nat.eqb_refl. cbn [bind].
    eexists; split; [reflexivity|].
    pose proof (descend_all_sizes dims 0 pp zs _ Hp Hz (blocks_sizes dims x Hx)) as F.
    split; [exact (concat_sizes _ _ F)|]. rewrite (concat_sizes _ _ F), Nat.eqb_refl. now rewrite blocks_concat.
  Qed.
  Lemma value_ok x : length x = list_sum dims -> exists v, value dims func x = Ok v.
  Proof. intros H. unfold value, unflatten. rewrite H, Nat.eqb_refl. cbn. eauto. Qed.

  (** states *)
  Definition shape (n : nat) (s : pbt) : Prop :=
    length (checkpoints s) = n /\ length (parameters s) = n /\ length (fitness s) = n
    /\ (forall a, In a (checkpoints s) -> a < length (heap s))
    /\ (forall c, In c (heap s) -> length c = list_sum dims).
  Lemma shape_init n : shape n (pbt_init dims n).
  Proof.
    unfold shape, pbt_init; cbn. rewrite !repeat_length. repeat split.
    - intros a H. apply repeat_spec in H. subst. lia.
    - intros c [<-|[]]. now rewrite repeat_length.
  Qed.

  Definition trained (s s' : pbt) (source idx : nat) (x zs : list Q) (v : Q) : Prop :=
    exists c c', checkpoint s source = Some c /\ evolve dims grad qexp c x zs = Ok c' /\ value dims func c' = Ok v
      /\ checkpoint s' idx = Some c' /\ nth_error (fitness s') idx = Some (Some v)
      /\ nth_error (parameters s') idx = Some x.
  (** the addresses after a call *)
  Definition moved (s s' : pbt) (source idx : nat) : Prop :=
    (forall w, w <> idx -> nth_error (checkpoints s') w = nth_error (checkpoints s) w)
    /\ (if idx =? source then nth_error (checkpoints s') idx = nth_error (checkpoints s) idx
        else nth_error (checkpoints s') idx = Some (length (heap s)))
    /\ (forall a, a < length (heap s) -> nth_error (checkpoints s') idx <> Some a ->
          nth_error (heap s') a = nth_error (heap s) a)
    /\ (forall w, w <> idx -> nth_error (parameters s') w = nth_error (parameters s) w)
    /\ (forall w, w <> idx -> nth_error (fitness s') w = nth_error (fitness s) w).

  Lemma train_ok n s d x : 0 < n -> shape n s -> proper n dims (d, x) ->
    exists v s' source, train dims func grad qexp norm d x s = Ok (v, s') /\ shape n s'
      /\ first_least (distances norm d x s) source /\ source < n
      /\ trained s s' source (target d) x (noises d) v /\ moved s s' source (target d).
  Proof.
    intros Hn (S1 & S2 & S3 & S4 & S5) (Pt & Pn & Px). cbn [fst snd] in *.
    unfold train. rewrite Px, Nat.eqb_refl. cbn [negb].
    assert (Ld : length (distances norm d x s) = n).
    { unfold distances. destruct (by_fitness d); [exact S3|]. now rewrite map_length. }
    destruct (argmin_ok (distances norm d x s)) as (source & E & FL & Ls).
    { intros K. rewrite K in Ld. cbn in Ld. lia. }
    rewrite E. cbn [bind]. cbv zeta. rewrite Ld in Ls.
    replace (target d <? length (fitness s)) with true by (symmetry; apply Nat.ltb_lt; lia). cbn [negb].
    destruct (get_ok (checkpoints s) source ltac:(lia)) as (sa & N1 & G1). rewrite G1. cbn [bind].
    destruct (get_ok (heap s) sa) as (c & N2 & G2). { apply S4. eapply nth_error_In; eauto. }
    rewrite G2. cbn [bind].
    destruct (get_ok (fitness s) source ltac:(lia)) as (sf & N3 & G3). rewrite G3. cbn [bind].
    assert (Lc : length c = list_sum dims) by (apply S5; eapply nth_error_In; eauto).
    destruct (evolve_ok c x (noises d) Lc Px Pn) as (c' & Ev & Lc' & _).
    destruct (value_ok c' Lc') as (v & Ve).
    destruct (Nat.eqb_spec (target d) source) as [Eq|Ne]; cbn [heap checkpoints parameters fitness].
    - rewrite Eq, G1. cbn [bind]. rewrite G2. cbn [bind]. rewrite Ev. cbn [bind]. rewrite Ve. cbn [bind].
      eexists v, _, source. split; [reflexivity|].
      assert (La : sa < length (heap s)) by (apply S4; eapply nth_error_In; eauto).
      split; [|split; [exact FL|split; [exact Ls|split]]].
      + unfold shape; cbn [heap checkpoints parameters fitness]. rewrite !set_length. repeat split; auto.
        intros y Hy. apply In_nth_error in Hy. destruct Hy as (k & Hk). apply set_nth_cases in Hk.
        destruct Hk as [[_ ->]|[_ Hk]]; [exact Lc'|]. apply S5. eapply nth_error_In; eauto.
      + exists c, c'. unfold checkpoint; cbn [heap checkpoints parameters fitness]. rewrite N1.
        split; [exact N2|]. split; [exact Ev|]. split; [exact Ve|].
        split; [now apply set_same|]. split; apply set_same; lia.
      + unfold moved; cbn [heap checkpoints parameters fitness]. rewrite Nat.eqb_refl. repeat split; auto.
        * intros a Ha Hna. apply set_other. intros <-. now apply Hna.
        * intros w Hw. apply set_other. congruence.
        * intros w Hw. apply set_other. congruence.
    - destruct (get_ok (set_nth (checkpoints s) (target d) (length (heap s))) (target d)) as (a & N4 & G4).
      { rewrite set_length; lia. }
      rewrite G4. cbn [bind]. rewrite set_same in N4 by lia. inversion N4; subst a.
      destruct (get_ok (heap s ++ [c]) (length (heap s))) as (c0 & N5 & G5). { rewrite app_length; cbn; lia. }
      rewrite nth_error_app2, Nat.sub_diag in N5 by lia. cbn in N5. inversion N5; subst c0.
      rewrite G5. cbn [bind]. rewrite Ev. cbn [bind]. rewrite Ve. cbn [bind].
      eexists v, _, source. split; [reflexivity|].
      split; [|split; [exact FL|split; [exact Ls|split]]].
      + unfold shape; cbn [heap checkpoints parameters fitness]. rewrite !set_length, app_length. repeat split; auto.
        * intros a Ha. apply In_nth_error in Ha. destruct Ha as (k & Hk). apply set_nth_cases in Hk. cbn.
          destruct Hk as [[_ ->]|[_ Hk]]; [lia|]. apply nth_error_In, S4 in Hk. lia.
        * intros y Hy. apply In_nth_error in Hy. destruct Hy as (k & Hk). apply set_nth_cases in Hk.
          destruct Hk as [[_ ->]|[_ Hk]]; [exact Lc'|]. apply nth_error_In, in_app_or in Hk.
          destruct Hk as [Hk|[<-|[]]]; auto.
      + exists c, c'. unfold checkpoint; cbn [heap checkpoints parameters fitness]. rewrite N1, set_same by lia.
        split; [exact N2|]. split; [exact Ev|]. split; [exact Ve|].
        split; [apply set_same; rewrite app_length; cbn; lia|].
        split; apply set_same; rewrite ?set_length; lia.
      + unfold moved; cbn [heap checkpoints parameters fitness].
        destruct (Nat.eqb_spec (target d) source) as [|_]; [contradiction|]. repeat split; auto.
        * intros w Hw. apply set_other. congruence.
        * apply set_same. lia.
        * intros a Ha _. rewrite set_other by lia. now apply nth_error_app1.
        * intros w Hw. apply set_other. congruence.
        * intros w Hw. rewrite !set_other by congruence. reflexivity.
  Qed.

  Lemma trains_shape n : 0 < n -> forall l s, shape n s -> Forall (proper n dims) l ->
    exists s', trains dims func grad qexp norm l s = Ok s' /\ shape n s'.
  Proof.
    intros Hn. induction l as [|[d x] l IH]; intros s Sh P; cbn [trains]; [eauto|]. inversion P; subst.
    destruct (train_ok n s d x Hn Sh ltac:(assumption)) as (v & s' & src & E & Sh' & _). rewrite E. cbn [bind snd]. auto.
  Qed.

  (** a worker which holds an array of its own and knows its value *)
  Definition own (s : pbt) (w : nat) : Prop :=
    exists a c v, nth_error (checkpoints s) w = Some a /\ (forall w', w' <> w -> nth_error (checkpoints s) w' <> Some a)
      /\ nth_error (heap s) a = Some c /\ value dims func c = Ok v /\ nth_error (fitness s) w = Some (Some v).
  Lemma own_train n s d x v s' w : 0 < n -> shape n s -> proper n dims (d, x) ->
    train dims func grad qexp norm d x s = Ok (v, s') -> own s w -> own s' w.
  Proof.
    intros Hn Sh P E (a & c & u & A1 & A2 & A3 & A4 & A5).
    destruct (train_ok n s d x Hn Sh P) as (v' & s'' & src & E' & Sh' & FL & Ls & T & M).
    rewrite E in E'. inversion E'; subst v' s''. destruct Sh as (S1 & S2 & S3 & S4 & S5).
    assert (La : a < length (heap s)) by (apply S4; eapply nth_error_In; eauto).
    destruct M as (M1 & M2 & M3 & M4 & M5). destruct T as (c0 & c1 & T1 & T2 & T3 & T4 & T5 & T6).
    destruct (Nat.eq_dec w (target d)) as [->|Ne].
    - unfold checkpoint in T4. destruct (nth_error (checkpoints s') (target d)) as [b|] eqn:Eb; [|discriminate].
      exists b, c1, v. split; [exact Eb|]. split; [|auto].
      intros w' Hw'. rewrite (M1 w' Hw'). destruct (target d =? src) eqn:Q0.
      + rewrite A1 in M2. inversion M2; subst. auto.
      + inversion M2; subst. intros K. apply nth_error_In, S4 in K. lia.
    - exists a, c, u. split; [rewrite M1; auto|]. split.
      + intros w' Hw'. destruct (Nat.eq_dec w' (target d)) as [->|Nt]; [|rewrite M1 by exact Nt; auto].
        destruct (target d =? src) eqn:Q0; rewrite M2; [auto|]. intros K; inversion K; lia.
      + rewrite (M5 w Ne). split; [|auto]. rewrite M3; auto.
        destruct (target d =? src) eqn:Q0; rewrite M2; [|intros K; inversion K; lia]. auto.
  Qed.
  Lemma own_trains n : 0 < n -> forall l s s' w, shape n s -> Forall (proper n dims) l ->
    trains dims func grad qexp norm l s = Ok s' -> own s w -> own s' w.
  Proof.
    intros Hn. induction l as [|[d x] l IH]; intros s s' w Sh P E O; cbn [trains] in E; [inversion E; now subst|].
    inversion P; subst. destruct (train_ok n s d x Hn Sh ltac:(assumption)) as (v & s1 & src & E1 & Sh1 & _).
    rewrite E1 in E. cbn [bind snd] in E. apply (IH s1 s' w); auto. eapply (own_train n s d x v s1 w); eassumption.
  Qed.
End Pbt.

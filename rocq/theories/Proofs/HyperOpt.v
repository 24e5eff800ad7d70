(** Lemmas for C92. *)
From Coq Require Import Arith ZArith QArith Bool DecimalString DecimalNat Lia Lqa String List.
From Verif.Model Require Import Prelude MultiValue Layers HyperOpt.
From Verif.Spec Require Import HyperOpt.
From Verif.Proofs Require Import MultiValue LayerValues CoreFuncs Tools.
Import ListNotations.
Open Scope nat_scope.

(** * Inductions *)
Section Induction.
Variable P : par -> Prop.
Hypothesis Hs : forall lo hi q, P (PScalar lo hi q).
Hypothesis Hn : forall lo hi q, P (PInt lo hi q).
Hypothesis Hl : forall lo hi q, P (PLog lo hi q).
Hypothesis Hc : forall i options, Forall P options -> P (PChoice i options).
Hypothesis Hk : forall v, P (PConst v).
Hypothesis Hi : forall args kwargs, Forall P args -> Forall (fun p => P (snd p)) kwargs -> P (PInstr args kwargs).
Hypothesis Ho : forall n, P (POther n).
Fixpoint par_induction (p : par) : P p :=
  match p with
  | PScalar lo hi q => Hs lo hi q
  | PInt lo hi q => Hn lo hi q
  | PLog lo hi q => Hl lo hi q
  | PChoice i options => Hc i options ((fix go l := match l return Forall P l with [] => Forall_nil _ | x :: l => Forall_cons x (par_induction x) (go l) end) options)
  | PConst v => Hk v
  | PInstr args kwargs =>
      Hi args kwargs ((fix go l := match l return Forall P l with [] => Forall_nil _ | x :: l => Forall_cons x (par_induction x) (go l) end) args)
        ((fix go l := match l return Forall (fun p => P (snd p)) l with [] => Forall_nil _ | x :: l => Forall_cons x (par_induction (snd x)) (go l) end) kwargs)
  | POther n => Ho n
  end.
End Induction.
Section ValInduction.
Variable P : val -> Prop.
Hypothesis Hn : forall q, P (VNum q).
Hypothesis Ho : forall n, P (VObj n).
Hypothesis Hc : forall args kwargs, Forall P args -> Forall (fun p => P (snd p)) kwargs -> P (VCall args kwargs).
Fixpoint val_induction (v : val) : P v :=
  match v with
  | VNum q => Hn q
  | VObj n => Ho n
  | VCall args kwargs =>
      Hc args kwargs ((fix go l := match l return Forall P l with [] => Forall_nil _ | x :: l => Forall_cons x (val_induction x) (go l) end) args)
        ((fix go l := match l return Forall (fun p => P (snd p)) l with [] => Forall_nil _ | x :: l => Forall_cons x (val_induction (snd x)) (go l) end) kwargs)
  end.
End ValInduction.

(** * Lists *)
Lemma each_pos_ok {A B} (f : nat -> A -> result B) l : forall i r, each_pos f i l = Ok r <->
  length r = length l /\ forall j a, nth_error l j = Some a -> exists b, nth_error r j = Some b /\ f (i + j) a = Ok b.
Proof.
  induction l as [|a l IH]; intros i r; cbn.
  - split; [intros [= <-]; split; [reflexivity|]; intros [|j] a; discriminate|]. intros (L & _). now destruct r.
  - split.
    + destruct (f i a) as [b|] eqn:Ea; [|discriminate]. cbn. fold (each_pos f). destruct (each_pos f (S i) l) as [bs|] eqn:El; [|discriminate]. intros [= <-].
      apply IH in El. destruct El as (L & K). split; [cbn; now rewrite L|]. intros [|j] x Hx; cbn in *; [injection Hx as <-; exists b; now rewrite Nat.add_0_r|].
      destruct (K j x Hx) as (y & Hy & E). exists y. split; [exact Hy|]. now replace (i + S j) with (S i + j) by lia.
    + intros (L & K). destruct r as [|b r]; [discriminate|]. destruct (K 0 a eq_refl) as (b' & [= <-] & E). rewrite Nat.add_0_r in E. rewrite E. cbn. fold (each_pos f).
      replace (each_pos f (S i) l) with (Ok r); [reflexivity|]. symmetry. apply IH. split; [cbn in L; lia|]. intros j x Hx. destruct (K (S j) x Hx) as (y & Hy & E'). exists y. split; [exact Hy|]. now replace (S i + j) with (i + S j) by lia.
Qed.
Lemma each_key_ok {A B} (f : string -> A -> result B) l : forall r, each_key f l = Ok r <->
  map fst r = map fst l /\ forall j k a, nth_error l j = Some (k, a) -> exists b, nth_error r j = Some (k, b) /\ f k a = Ok b.
Proof.
  induction l as [|[k a] l IH]; intros r; cbn.
  - split; [intros [= <-]; split; [reflexivity|]; intros [|j] ? a; discriminate|]. intros (L & _). now destruct r.
  - split.
    + destruct (f k a) as [b|] eqn:Ea; [|discriminate]. cbn. fold (each_key f). destruct (each_key f l) as [bs|] eqn:El; [|discriminate]. intros [= <-].
      destruct (proj1 (IH bs) eq_refl) as (L & K). split; [cbn; now rewrite L|]. intros [|j] k' x Hx; cbn in *; [injection Hx as <- <-; eauto|eauto].
    + intros (L & K). destruct r as [|[k' b] r]; [discriminate|]. cbn in L. injection L as L0 L. subst k'. destruct (K 0 k a eq_refl) as (b' & [= <-] & E). rewrite E. cbn. fold (each_key f).
      replace (each_key f l) with (Ok r); [reflexivity|]. symmetry. apply IH. split; [exact L|]. intros j k' x Hx. exact (K (S j) k' x Hx).
Qed.
Lemma each_pos_total {A B} (f : nat -> A -> result B) (Q : nat -> A -> B -> Prop) l : forall i,
  (forall j a, nth_error l j = Some a -> exists b, f (i + j) a = Ok b /\ Q (i + j) a b) ->
  exists r, each_pos f i l = Ok r /\ length r = length l /\ forall j a, nth_error l j = Some a -> exists b, nth_error r j = Some b /\ f (i + j) a = Ok b /\ Q (i + j) a b.
Proof.
  induction l as [|a l IH]; intros i H; cbn; [exists []; repeat split; intros [|j] a; discriminate|].
  destruct (H 0 a eq_refl) as (b & E & Hq). rewrite Nat.add_0_r in E, Hq. rewrite E. cbn. fold (each_pos f).
  destruct (IH (S i)) as (r & Er & L & K); [intros j x Hx; replace (S i + j) with (i + S j) by lia; now apply H|]. rewrite Er. exists (b :: r). split; [reflexivity|]. split; [cbn; now rewrite L|].
  intros [|j] x Hx; cbn in *; [injection Hx as <-; exists b; now rewrite Nat.add_0_r|]. replace (i + S j) with (S i + j) by lia. now apply K.
Qed.
Lemma each_key_total {A B} (f : string -> A -> result B) (Q : string -> A -> B -> Prop) l :
  (forall j k a, nth_error l j = Some (k, a) -> exists b, f k a = Ok b /\ Q k a b) ->
  exists r, each_key f l = Ok r /\ map fst r = map fst l /\ forall j k a, nth_error l j = Some (k, a) -> exists b, nth_error r j = Some (k, b) /\ f k a = Ok b /\ Q k a b.
Proof.
  induction l as [|[k a] l IH]; intros H; cbn; [exists []; repeat split; intros [|j] ? a; discriminate|].
  destruct (H 0 k a eq_refl) as (b & E & Hq). rewrite E. cbn. fold (each_key f).
  destruct IH as (r & Er & L & K); [intros j k' x Hx; exact (H (S j) k' x Hx)|]. rewrite Er. exists ((k, b) :: r). split; [reflexivity|]. split; [cbn; now rewrite L|].
  intros [|j] k' x Hx; cbn in *; [injection Hx as <- <-; eauto|eauto].
Qed.
Lemma each_as_pos {A B} (f : A -> result B) l i : each f l = each_pos (fun _ => f) i l.
Proof. revert i. induction l as [|a l IH]; intros i; [reflexivity|]. cbn. destruct (f a); [|reflexivity]. cbn. fold (each f). rewrite (IH (S i)). reflexivity. Qed.
Lemma pick_nth {A B} (f : A -> result B) l i : pick f l i = match nth_error l i with Some a => f a | None => Err IndexError end.
Proof. revert i. induction l as [|a l IH]; intros [|i]; cbn; auto. Qed.
Lemma assoc_nth {A} (l : list (string * A)) j k a : NoDup (map fst l) -> nth_error l j = Some (k, a) -> assoc k l = Some a.
Proof.
  revert j. induction l as [|[k' a'] l IH]; intros [|j] N E; try discriminate; cbn in *; inversion N as [|? ? N1 N2]; subst.
  - injection E as <- <-. now rewrite String.eqb_refl.
  - destruct (String.eqb_spec k k') as [->|]; [|eauto]. elim N1. apply nth_error_In in E. apply in_map_iff. now exists (k', a).
Qed.
Lemma assoc_in {A} (l : list (string * A)) k a : assoc k l = Some a -> exists j, nth_error l j = Some (k, a).
Proof.
  induction l as [|[k' a'] l IH]; cbn; [discriminate|]. destruct (String.eqb_spec k k') as [->|]; [intros [= <-]; now exists 0|]. intros E. destruct (IH E) as (j & Hj). now exists (S j).
Qed.
Lemma is_key_in {A} (l : list (string * A)) k : is_key k l = true <-> In k (map fst l).
Proof.
  unfold is_key. split.
  - destruct (assoc k l) as [a|] eqn:E; [|discriminate]. intros _. apply assoc_in in E. destruct E as (j & E). apply nth_error_In in E. apply in_map_iff. now exists (k, a).
  - induction l as [|[k' a'] l IH]; cbn; [easy|]. intros [->|H]; [now rewrite String.eqb_refl|]. destruct (String.eqb k k'); auto.
Qed.
Lemma assoc_none {A} (l : list (string * A)) k : assoc k l = None <-> ~ In k (map fst l).
Proof. rewrite <- is_key_in. unfold is_key. destruct (assoc k l); split; intros H; congruence || (elim H; reflexivity) || auto. Qed.
Lemma str_inj i j : str i = str j -> i = j.
Proof. unfold str. intros H. apply (f_equal NilZero.uint_of_string) in H. rewrite !NilZero.usu in H by apply to_uint_nonnil. inversion H. now apply Unsigned.to_uint_inj. Qed.
Lemma strs_nodup i n : NoDup (map str (seq i n)).
Proof. apply FinFun.Injective_map_NoDup; [intros a b; apply str_inj|apply seq_NoDup]. Qed.
Lemma by_position {A} (l : list (string * A)) i x : map fst l = map str (seq 0 (length l)) -> nth_error l i = Some x -> assoc (str i) l = Some (snd x).
Proof.
  intros E H. assert (K : fst x = str i).
  { assert (Hi : i < length l) by (apply nth_error_Some; congruence). apply (map_nth_error fst) in H. rewrite E in H.
    apply (nth_error_nth _ _ ""%string) in H. rewrite <- H. rewrite (nth_indep _ _ (str 0)) by (rewrite map_length, seq_length; exact Hi). rewrite map_nth, seq_nth by exact Hi. reflexivity. }
  apply (assoc_nth l i); [rewrite E; apply strs_nodup|]. rewrite H, <- K. now destruct x.
Qed.

(** * Equality *)
Lemma eqv_args l : forall l', length l' = length l -> (forall i a b, nth_error l i = Some a -> nth_error l' i = Some b -> eqv a b = true) ->
  (fix go l l' := match l, l' with [], [] => true | x :: l, y :: l' => eqv x y && go l l' | _, _ => false end) l l' = true.
Proof.
  induction l as [|a l IH]; intros [|b l'] L H; try discriminate; [reflexivity|]. rewrite (H 0 a b eq_refl eq_refl). cbn. apply IH; [cbn in L; lia|]. intros i x y Hx Hy. now apply (H (S i)).
Qed.
Lemma eqv_kwargs l l' : (forall i k a, nth_error l i = Some (k, a) -> exists b, assoc k l' = Some b /\ eqv a b = true) ->
  (fix go l := match l with [] => true | (k, x) :: l => match assoc k l' with Some y => eqv x y | None => false end && go l end) l = true.
Proof.
  induction l as [|[k a] l IH]; intros H; [reflexivity|]. destruct (H 0 k a eq_refl) as (b & -> & ->). cbn. apply IH. intros i k' x Hx. exact (H (S i) k' x Hx).
Qed.
Lemma eqv_call args args' kwargs kwargs' : length args' = length args -> length kwargs' = length kwargs ->
  (forall i a b, nth_error args i = Some a -> nth_error args' i = Some b -> eqv a b = true) ->
  (forall i k a, nth_error kwargs i = Some (k, a) -> exists b, assoc k kwargs' = Some b /\ eqv a b = true) ->
  eqv (VCall args kwargs) (VCall args' kwargs') = true.
Proof. intros L1 L2 H1 H2. cbn. rewrite eqv_args, eqv_kwargs by auto. now rewrite L2, Nat.eqb_refl. Qed.
Lemma eqv_refl v : dicts v -> eqv v v = true.
Proof.
  induction v as [q|n|args kwargs IHa IHk] using val_induction; intros H; [apply Qeq_bool_iff; reflexivity|apply Nat.eqb_refl|]. inversion H as [| |? ? Ha Hk Hn]; subst.
  rewrite Forall_forall in *. apply eqv_call; auto.
  - intros i a b Ea Eb. assert (a = b) as <- by congruence. apply IHa; [|apply Ha]; eapply nth_error_In, Ea.
  - intros i k a Ea. exists a. split; [eapply assoc_nth; eassumption|]. pose proof (nth_error_In _ _ Ea) as I. apply (IHk _ I), (Hk _ I).
Qed.

(** * Setting a value *)
Lemma nodup_same_length (l l' : list string) : NoDup l -> NoDup l' -> incl l l' -> incl l' l -> length l = length l'.
Proof. intros N N' I I'. pose proof (NoDup_incl_length N I). pose proof (NoDup_incl_length N' I'). lia. Qed.
Definition choose (v : val) := fix go i before (l : list par) := match l with
                            | [] => @Err par ValueError
                            | o :: l => match set_value o v with Ok o' => Ok (PChoice i (before ++ o' :: l)) | Err _ => go (S i) (before ++ [o]) l end end.
Lemma choose_ok v l : forall i before p', length before = i -> choose v i before l = Ok p' ->
  exists j o o', nth_error l j = Some o /\ set_value o v = Ok o' /\ value p' = value o'.
Proof.
  induction l as [|o l IH]; intros i before p' L E; cbn in E; [discriminate|]. destruct (set_value o v) as [o'|] eqn:Eo.
  - injection E as <-. exists 0, o, o'. split; [reflexivity|]. split; [exact Eo|]. cbn [value]. rewrite pick_nth, nth_error_app2 by lia. rewrite L, Nat.sub_diag. reflexivity.
  - apply IH in E; [|rewrite app_length; cbn; lia]. destruct E as (j & x & x' & A & B & C). exists (S j), x, x'. auto.
Qed.
Lemma choose_total v l : forall i before j o o', nth_error l j = Some o -> set_value o v = Ok o' -> exists p', choose v i before l = Ok p'.
Proof.
  induction l as [|x l IH]; intros i before j o o' Hj Ho; [destruct j; discriminate|]. cbn. destruct (set_value x v) as [x'|] eqn:Ex; [eauto|].
  destruct j as [|j]; cbn in Hj; [injection Hj as ->; congruence|]. eapply IH; eassumption.
Qed.
Lemma set_exact p : forall v p', no_integer p -> well_formed p -> dicts v -> set_value p v = Ok p' -> exists w, value p' = Ok w /\ eqv v w = true.
Proof.
  induction p as [lo hi q|lo hi q|lo hi q|i options IH|c|args kwargs IHa IHk|n] using par_induction; intros v p' Hn Hw Hd E.
  - cbn in E. destruct v as [x| |]; try discriminate. destruct (within qle lo hi x); [|discriminate]. injection E as <-. exists (VNum x). split; [reflexivity|]. now apply eqv_refl.
  - inversion Hn.
  - cbn in E. destruct v as [x| |]; try discriminate. destruct (within qle lo hi x); [|discriminate]. injection E as <-. exists (VNum x). split; [reflexivity|]. now apply eqv_refl.
  - change (choose v 0 [] options = Ok p') in E. apply choose_ok in E; [|reflexivity]. destruct E as (j & o & o' & Ej & Eo & ->). inversion Hn as [| |? ? Hn'| | |]; subst. inversion Hw as [| | |? ? Hw'| | |]; subst.
    apply nth_error_In in Ej. rewrite Forall_forall in *. eapply IH; eauto.
  - cbn in E. destruct (eqv v c) eqn:Ec; [|discriminate]. injection E as <-. cbn. eauto.
  - inversion Hn as [| | | |? ? Hn1 Hn2|]; subst. inversion Hw as [| | | | |? ? Hw1 Hw2 Hw3|]; subst. cbn [set_value] in E. destruct v as [| |vargs vkwargs]; try discriminate.
    inversion Hd as [| |? ? D1 D2 D3]; subst. rewrite Forall_forall in *.
    destruct (Nat.eqb_spec (length vargs) (length args)) as [L|]; [|discriminate]. cbn [negb] in E.
    destruct (forallb (fun p => is_key (fst p) kwargs) vkwargs && forallb (fun p => is_key (fst p) vkwargs) kwargs) eqn:Ek; [|discriminate]. cbn [negb] in E. apply andb_true_iff in Ek. destruct Ek as (K1 & K2).
    rewrite forallb_forall in K1, K2.
    destruct (each_pos _ 0 args) as [a|] eqn:Ea; [|discriminate]. cbn [bind] in E. destruct (each_key _ kwargs) as [k|] eqn:Ekw; [|discriminate]. cbn [bind] in E. injection E as <-.
    apply each_pos_ok in Ea. destruct Ea as (La & Ha). apply each_key_ok in Ekw. destruct Ekw as (Lk & Hk).
    destruct (each_pos_total (fun _ => value) (fun j _ w => forall x, nth_error vargs j = Some x -> eqv x w = true) a 0) as (wa & Ewa & Lwa & Hwa).
    { intros j a' Ej. assert (Hj : j < length args) by (rewrite <- La; apply nth_error_Some; congruence). destruct (nth_error args j) as [p0|] eqn:Ep; [|apply nth_error_None in Ep; lia].
      destruct (Ha j p0 Ep) as (b & Eb & Es). cbn in Es. destruct (nth_error vargs j) as [x|] eqn:Ex; [|discriminate]. assert (b = a') as -> by congruence.
      pose proof (nth_error_In _ _ Ep) as I. destruct (IHa p0 I x a') as (w & Ew & Hq); auto; [apply D1; eapply nth_error_In, Ex|]. exists w. split; [exact Ew|]. cbn. rewrite Ex. intros ? [= <-]. exact Hq. }
    destruct (each_key_total (fun _ => value) (fun k _ w => forall x, assoc k vkwargs = Some x -> eqv x w = true) k) as (wk & Ewk & Lwk & Hwk).
    { intros j key a' Ej. assert (Hj : exists p0, nth_error kwargs j = Some (key, p0)).
      { pose proof (map_nth_error fst _ _ Ej) as M. rewrite Lk in M. destruct (nth_error kwargs j) as [[k0 p0]|] eqn:Ep; [|apply nth_error_None in Ep; rewrite <- (map_length fst) in Ep; apply nth_error_None in Ep; congruence].
        apply (map_nth_error fst) in Ep. cbn in *. exists p0. congruence. }
      destruct Hj as (p0 & Ep). destruct (Hk j key p0 Ep) as (b & Eb & Es). cbn in Es. destruct (assoc key vkwargs) as [x|] eqn:Ex; [|discriminate]. assert (b = a') as -> by congruence.
      pose proof (nth_error_In _ _ Ep) as I. destruct (assoc_in _ _ _ Ex) as (jx & Ejx). destruct (IHk _ I x a' (Hn2 _ I) (Hw2 _ I) (D2 _ (nth_error_In _ _ Ejx)) Es) as (w & Ew & Hq). exists w. split; [exact Ew|]. intros ? [= <-]. exact Hq. }
    cbn [value]. rewrite (each_as_pos _ _ 0), Ewa. cbn [bind]. rewrite Ewk. cbn [bind]. eexists. split; [reflexivity|]. apply eqv_call.
    + congruence.
    + rewrite <- (map_length fst wk), Lwk, Lk, <- (map_length fst vkwargs). apply nodup_same_length; auto.
      * intros x Hx. apply in_map_iff in Hx. destruct Hx as (y & <- & Hy). apply is_key_in. now apply K2.
      * intros x Hx. apply in_map_iff in Hx. destruct Hx as (y & <- & Hy). apply is_key_in. now apply K1.
    + intros i x w Ex Ewx. assert (Hi : i < length a) by (rewrite <- Lwa; apply nth_error_Some; congruence). destruct (nth_error a i) as [a'|] eqn:Ei; [|apply nth_error_None in Ei; lia].
      destruct (Hwa i a' Ei) as (w' & Ew' & _ & Hq). assert (w' = w) as -> by congruence. now apply Hq.
    + intros i key x Ex. pose proof (nth_error_In _ _ Ex) as I. pose proof (K1 _ I) as K. apply is_key_in in K. cbn in K. rewrite <- Lk in K. apply in_map_iff in K. destruct K as ([k0 a'] & Ek0 & Hin). cbn in Ek0. subst k0.
      apply In_nth_error in Hin. destruct Hin as (j & Ej). destruct (Hwk j key a' Ej) as (w & Ew & _ & Hq). exists w. split; [apply (assoc_nth wk j); [rewrite Lwk, Lk; exact Hw3|exact Ew]|]. apply Hq. eapply assoc_nth; eassumption.
  - discriminate.
Qed.

Lemma apart p : no_integer p -> integers_apart p.
Proof.
  induction p as [lo hi q|lo hi q|lo hi q|i options IH|c|args kwargs IHa IHk|n] using par_induction; intros H; inversion H; subst; constructor; auto; rewrite Forall_forall in *; auto.
Qed.

(** * From the draws to the candidate *)
Lemma as_index_nat i : as_index (VNum (inject_Z (Z.of_nat i))) = Ok i.
Proof.
  unfold as_index. cbn [inject_Z Qnum Qden]. rewrite Z.div_1_r. replace (Qeq_bool _ _) with true by (symmetry; apply Qeq_bool_iff; reflexivity).
  replace (0 <=? Z.of_nat i)%Z with true by (symmetry; apply Z.leb_le; lia). cbn. now rewrite Nat2Z.id.
Qed.
Lemma each_total {A B} (f : A -> result B) (Q : A -> B -> Prop) l : (forall j a, nth_error l j = Some a -> exists b, f a = Ok b /\ Q a b) ->
  exists r, each f l = Ok r /\ length r = length l /\ forall j a, nth_error l j = Some a -> exists b, nth_error r j = Some b /\ f a = Ok b /\ Q a b.
Proof. intros H. rewrite (each_as_pos _ _ 0). now apply (each_pos_total (fun _ => f) (fun _ => Q)). Qed.
Lemma each_seq {B} (f : nat -> result B) (l : list B) n i : length l = n -> (forall j b, nth_error l j = Some b -> f (i + j) = Ok b) -> each f (seq i n) = Ok l.
Proof.
  revert l i. induction n as [|n IH]; intros [|b l] i L H; try discriminate; [reflexivity|]. cbn. rewrite <- (Nat.add_0_r i) at 1. rewrite (H 0 b eq_refl). cbn. fold (each f).
  rewrite (IH l (S i)); [reflexivity|cbn in L; lia|]. intros j x Hx. replace (S i + j) with (i + S j) by lia. now apply H.
Qed.
Lemma same_keys {A B} (l : list (string * A)) (r : list (string * B)) j k b : map fst r = map fst l -> nth_error r j = Some (k, b) -> exists a, nth_error l j = Some (k, a).
Proof.
  intros L E. pose proof (map_nth_error fst _ _ E) as M. rewrite L in M. destruct (nth_error l j) as [[k0 a]|] eqn:Ep.
  - apply (map_nth_error fst) in Ep. cbn in *. exists a. congruence.
  - apply nth_error_None in Ep. rewrite <- (map_length fst) in Ep. apply nth_error_None in Ep. congruence.
Qed.
(** the keys of the positional arguments *)
Lemma positions {A B} (f : nat -> A -> result B) l : forall i r, each_pos (fun i a => bind (f i a) (fun b => Ok (str i, b))) i l = Ok r ->
  map fst r = map str (seq i (length r)) /\ length r = length l /\ forall j a, nth_error l j = Some a -> exists b, nth_error r j = Some (str (i + j), b) /\ f (i + j) a = Ok b.
Proof.
  induction l as [|a l IH]; intros i r; cbn; [intros [= <-]; repeat split; intros [|j] a; discriminate|].
  destruct (f i a) as [b|] eqn:E; [|discriminate]. cbn. fold (each_pos (fun i a => bind (f i a) (fun b => Ok (str i, b)))). destruct (each_pos _ (S i) l) as [bs|] eqn:El; [|discriminate]. intros [= <-]. apply IH in El. destruct El as (M & L & K).
  split; [cbn; now rewrite M|]. split; [cbn; now rewrite L|]. intros [|j] x Hx; cbn in *; [injection Hx as <-; rewrite Nat.add_0_r; eauto|]. replace (i + S j) with (S i + j) by lia. now apply K.
Qed.
(** reading a dict *)
Lemma from_dict args kwargs conv k a : map fst args = map str (seq 0 (length args)) -> each_key (fun _ => from_config) args = Ok conv ->
  a = map snd conv -> each_key (fun _ => from_config) kwargs = Ok k -> from_config (CDict args kwargs) = Ok (VCall a k).
Proof.
  intros Ka Ec -> Ek. cbn [from_config]. rewrite Ec. cbn [bind]. apply each_key_ok in Ec. destruct Ec as (Lc & _). assert (L : length conv = length args) by (rewrite <- (map_length fst), Lc; apply map_length).
  rewrite (each_seq _ (map snd conv)); [cbn [bind]; now rewrite Ek|rewrite map_length; exact L|]. intros j b Hb. cbn [Nat.add].
  rewrite nth_error_map in Hb. destruct (nth_error conv j) as [x|] eqn:Ex; [|discriminate]. injection Hb as <-. rewrite (by_position conv j x); [reflexivity|congruence|exact Ex].
Qed.
Lemma legal_args (l : list (string * space)) vs : (fix go l := match l with [] => True | (_, s) :: l => legal s vs /\ go l end) l <-> forall j k s, nth_error l j = Some (k, s) -> legal s vs.
Proof.
  induction l as [|[k s] l IH]; [split; [intros _ [|j]; discriminate|easy]|]. rewrite IH. split.
  - intros (A & B) [|j] k' s' E; cbn in E; [now injection E as <- <-|eauto].
  - intros H. split; [now apply (H 0 k s)|]. intros j k' s' E. now apply (H (S j) k').
Qed.
Lemma legal_choice (l : list space) vs i : forall j, (fix go j l := match l with
                             | [] => True
                             | s :: l => (if j =? i then legal s vs else Forall (fun l => assoc l vs = Some []) (labels s)) /\ go (S j) l
                             end) j l <-> forall n s, nth_error l n = Some s -> if j + n =? i then legal s vs else Forall (fun l => assoc l vs = Some []) (labels s).
Proof.
  induction l as [|s l IH]; intros j; [split; [intros _ [|n]; discriminate|easy]|]. rewrite IH. split.
  - intros (A & B) [|n] s' E; cbn in E; [injection E as <-; now rewrite Nat.add_0_r|]. replace (j + S n) with (S j + n) by lia. now apply B.
  - intros H. split; [specialize (H 0 s eq_refl); now rewrite Nat.add_0_r in H|]. intros n s' E. replace (S j + n) with (j + S n) by lia. now apply H.
Qed.
Definition hands_out (p : par) (s : space) (vs : vals) : Prop :=
  exists c v p' w, space_eval s vs = Ok c /\ from_config c = Ok v /\ dicts v /\ set_value p v = Ok p' /\ value p' = Ok w /\ eqv v w = true.
Lemma drawn_one vs l v : assoc l vs = Some [v] -> drawn vs l = Ok v.
Proof. unfold drawn. now intros ->. Qed.
Lemma round_integer z : round_half_even (inject_Z z) = z.
Proof.
  destruct (round_bounds (inject_Z z)) as (A & B). set (r := round_half_even (inject_Z z)) in *.
  assert (A' : (inject_Z z < inject_Z (r + 1))%Q) by (rewrite inject_Z_plus; change (inject_Z 1) with 1%Q; lra).
  assert (B' : (inject_Z r < inject_Z (z + 1))%Q) by (rewrite inject_Z_plus; change (inject_Z 1) with 1%Q; lra).
  rewrite <- Zlt_Qlt in A', B'. lia.
Qed.
Lemma asked p : forall name s vs, search_space name p = Ok s -> integers_apart p -> well_formed p -> legal s vs -> hands_out p s vs.
Proof.
  induction p as [lo hi q|lo hi q|lo hi q|i0 options IH|c|args kwargs IHa IHk|n] using par_induction; intros name s vs E Hi Hw Hl.
  - cbn in E. destruct lo as [lo|]; [|discriminate]. destruct hi as [hi|]; [|discriminate]. injection E as <-. destruct Hl as (x & Ex & B1 & B2).
    exists (CVal (VNum x)), (VNum x), (PScalar (Some lo) (Some hi) x), (VNum x). cbn [space_eval]. rewrite (drawn_one _ _ _ Ex). cbn [bind from_config set_value value]. unfold within; cbn [option_map].
    rewrite (proj2 (qle_iff _ _) B1), (proj2 (qle_iff _ _) B2). repeat split; try constructor. apply eqv_refl. constructor.
  - cbn in E. destruct lo as [lo|]; [|discriminate]. destruct hi as [hi|]; [|discriminate]. injection E as <-. destruct Hl as (x & Ex & B1 & B2).
    exists (CVal (VNum (inject_Z x))), (VNum (inject_Z x)), (PInt (Some lo) (Some hi) (inject_Z x)), (VNum (inject_Z x)). cbn [space_eval]. rewrite (drawn_one _ _ _ Ex). cbn [bind from_config set_value value]. unfold within; cbn [option_map].
    rewrite (proj2 (qle_iff (inject_Z lo) _)) by (rewrite <- Zle_Qle; exact B1). rewrite (proj2 (qle_iff _ (inject_Z hi))) by (rewrite <- Zle_Qle; lia). rewrite round_integer. repeat split; try constructor. apply eqv_refl. constructor.
  - cbn in E. destruct lo as [lo|]; [|discriminate]. destruct hi as [hi|]; [|discriminate]. injection E as <-. destruct Hl as (x & Ex & B1 & B2).
    exists (CVal (VNum x)), (VNum x), (PLog (Some lo) (Some hi) x), (VNum x). cbn [space_eval]. rewrite (drawn_one _ _ _ Ex). cbn [bind from_config set_value value]. unfold within; cbn [option_map].
    rewrite (proj2 (qle_iff _ _) B1), (proj2 (qle_iff _ _) B2). repeat split; try constructor. apply eqv_refl. constructor.
  - cbn [search_space] in E. destruct (no_repeat (types options)); [|discriminate]. cbn [negb] in E. destruct (each_pos _ 0 options) as [r|] eqn:Er; [|discriminate]. injection E as <-.
    apply each_pos_ok in Er. destruct Er as (L & K). inversion Hi as [| | |? ? Hn| | |]; subst. inversion Hw as [| | |? ? Hw'| | |]; subst. cbn [legal] in Hl. destruct Hl as (i & Ei & Hlt & Hgo).
    pose proof (proj1 (legal_choice _ _ _ _) Hgo) as Hgo'. clear Hgo. cbn [Nat.add] in Hgo'. rewrite Forall_forall in *. destruct (nth_error options i) as [o|] eqn:Eo; [|apply nth_error_None in Eo; lia].
    destruct (K i o Eo) as (so & Eso & Es). cbn [Nat.add] in Es. specialize (Hgo' i so Eso). rewrite Nat.eqb_refl in Hgo'. pose proof (nth_error_In _ _ Eo) as I.
    destruct (IH o I _ so vs Es (apart _ (Hn o I)) (Hw' o I) Hgo') as (c & v & o' & w & E1 & E2 & E3 & E4 & E5 & E6).
    destruct (choose_total v options 0 [] i o o' Eo E4) as (p' & Ep). destruct (choose_ok v options 0 [] p' eq_refl Ep) as (j & oj & oj' & Ej & Ej' & Ev).
    destruct (set_exact oj v oj' (Hn oj (nth_error_In _ _ Ej)) (Hw' oj (nth_error_In _ _ Ej)) E3 Ej') as (w' & Ew' & Eq). rewrite <- Ev in Ew'.
    exists c, v, p', w'. split; [|auto]. cbn [space_eval]. rewrite (drawn_one _ _ _ Ei). cbn [bind]. rewrite as_index_nat. cbn [bind]. rewrite pick_nth, Eso. exact E1.
  - cbn in E. injection E as <-. inversion Hw; subst. exists (CVal c), c, (PConst c), c. cbn. rewrite eqv_refl by assumption. repeat split; auto.
  - cbn [search_space] in E. destruct (each_pos _ 0 args) as [a|] eqn:Ea; [|discriminate]. cbn [bind] in E. destruct (each_key _ kwargs) as [k|] eqn:Ek; [|discriminate]. injection E as <-.
    apply (positions (fun i => search_space (str i))) in Ea. destruct Ea as (Ma & La & Ka). apply each_key_ok in Ek. destruct Ek as (Mk & Kk). inversion Hi as [| | | | |? ? Hi1 Hi2|]; subst. inversion Hw as [| | | | |? ? Hw1 Hw2 Hw3|]; subst.
    destruct Hl as (Hl1 & Hl2). rewrite legal_args in Hl1, Hl2. rewrite Forall_forall in *.
    assert (A : forall j p0, nth_error args j = Some p0 -> exists s0, nth_error a j = Some (str j, s0) /\ hands_out p0 s0 vs).
    { intros j p0 Ej. destruct (Ka j p0 Ej) as (s0 & Es & E). exists s0. split; [exact Es|]. pose proof (nth_error_In _ _ Ej) as I. eapply IHa; eauto. }
    assert (B : forall j key p0, nth_error kwargs j = Some (key, p0) -> exists s0, nth_error k j = Some (key, s0) /\ hands_out p0 s0 vs).
    { intros j key p0 Ej. destruct (Kk j key p0 Ej) as (s0 & Es & E). exists s0. split; [exact Es|]. pose proof (nth_error_In _ _ Ej) as I. exact (IHk _ I _ _ _ E (Hi2 _ I) (Hw2 _ I) (Hl2 _ _ _ Es)). }
    (* the configuration *)
    destruct (each_key_total (fun _ s => space_eval s vs) (fun _ s c => forall p0, hands_out p0 s vs -> exists v p' w, from_config c = Ok v /\ dicts v /\ set_value p0 v = Ok p' /\ value p' = Ok w /\ eqv v w = true) a) as (ca & Eca & Mca & Kca).
    { intros j key s0 Ej. assert (Hj : j < length args) by (rewrite <- La; apply nth_error_Some; congruence). destruct (nth_error args j) as [p0|] eqn:Ep; [|apply nth_error_None in Ep; lia].
      destruct (A j p0 Ep) as (s1 & Es1 & (c & v & p' & w & E1 & _)). assert (s1 = s0) as -> by congruence. exists c. split; [exact E1|]. intros p1 (c1 & v1 & p1' & w1 & F1 & F2). assert (c1 = c) as -> by congruence. eauto. }
    destruct (each_key_total (fun _ s => space_eval s vs) (fun _ s c => forall p0, hands_out p0 s vs -> exists v p' w, from_config c = Ok v /\ dicts v /\ set_value p0 v = Ok p' /\ value p' = Ok w /\ eqv v w = true) k) as (ck & Eck & Mck & Kck).
    { intros j key s0 Ej. destruct (same_keys kwargs k j key s0 Mk Ej) as (p0 & Ep).
      destruct (B j key p0 Ep) as (s1 & Es1 & (c & v & p' & w & E1 & _)). assert (s1 = s0) as -> by congruence. exists c. split; [exact E1|]. intros p1 (c1 & v1 & p1' & w1 & F1 & F2). assert (c1 = c) as -> by congruence. eauto. }
    (* the values *)
    destruct (each_key_total (fun _ => from_config) (fun _ c v => dicts v) ca) as (va & Eva & Mva & Kva).
    { intros j key c Ej. destruct (same_keys a ca j key c Mca Ej) as (s0 & Es0). destruct (Kca j key s0 Es0) as (c' & Ec' & _ & Kc). assert (c' = c) as -> by congruence.
      assert (Hj : j < length args) by (rewrite <- La; apply nth_error_Some; congruence). destruct (nth_error args j) as [p0|] eqn:Ep; [|apply nth_error_None in Ep; lia].
      destruct (A j p0 Ep) as (s1 & Es1 & Ho). assert (s1 = s0) as -> by congruence. destruct (Kc p0 Ho) as (v & p' & w & F1 & F2 & _). eauto. }
    destruct (each_key_total (fun _ => from_config) (fun _ c v => dicts v) ck) as (vk & Evk & Mvk & Kvk).
    { intros j key c Ej. destruct (same_keys k ck j key c Mck Ej) as (s0 & Es0). destruct (Kck j key s0 Es0) as (c' & Ec' & _ & Kc). assert (c' = c) as -> by congruence.
      destruct (same_keys kwargs k j key s0 Mk Es0) as (p0 & Ep). destruct (B j key p0 Ep) as (s1 & Es1 & Ho). assert (s1 = s0) as -> by congruence. destruct (Kc p0 Ho) as (v & p' & w & F1 & F2 & _). eauto. }
    assert (Lva : length va = length args) by (rewrite <- La, <- (map_length fst va), Mva, Mca; apply map_length).
    assert (Mvk' : map fst vk = map fst kwargs) by congruence.
    assert (Va : forall j p0, nth_error args j = Some p0 -> exists v p' w, nth_error (map snd va) j = Some v /\ dicts v /\ set_value p0 v = Ok p' /\ value p' = Ok w /\ eqv v w = true).
    { intros j p0 Ep. destruct (A j p0 Ep) as (s0 & Es0 & Ho). destruct (Kca j _ s0 Es0) as (c & Ec & _ & Kc). destruct (Kva j _ c Ec) as (v & Ev & Ef & _).
      destruct (Kc p0 Ho) as (v' & p' & w & F1 & F2 & F3). assert (v' = v) as -> by congruence. exists v, p', w. split; [now rewrite nth_error_map, Ev|auto]. }
    assert (Vk : forall j key p0, nth_error kwargs j = Some (key, p0) -> exists v p' w, nth_error vk j = Some (key, v) /\ dicts v /\ set_value p0 v = Ok p' /\ value p' = Ok w /\ eqv v w = true).
    { intros j key p0 Ep. destruct (B j key p0 Ep) as (s0 & Es0 & Ho). destruct (Kck j _ s0 Es0) as (c & Ec & _ & Kc). destruct (Kvk j _ c Ec) as (v & Ev & Ef & _).
      destruct (Kc p0 Ho) as (v' & p' & w & F1 & F2 & F3). assert (v' = v) as -> by congruence. exists v, p', w. auto. }
    (* the new parameter and its value *)
    destruct (each_pos_total (fun i p => match nth_error (map snd va) i with Some v => set_value p v | None => Err IndexError end)
                (fun j _ p' => exists v w, nth_error (map snd va) j = Some v /\ value p' = Ok w /\ eqv v w = true) args 0) as (pa & Epa & Lpa & Kpa).
    { intros j p0 Ep. cbn [Nat.add]. destruct (Va j p0 Ep) as (v & p' & w & F1 & F2 & F3 & F4 & F5). rewrite F1. exists p'. split; [exact F3|eauto]. }
    destruct (each_key_total (fun key p => match assoc key vk with Some v => set_value p v | None => Err KeyError end)
                (fun key _ p' => exists v w, assoc key vk = Some v /\ value p' = Ok w /\ eqv v w = true) kwargs) as (pk & Epk & Mpk & Kpk).
    { intros j key p0 Ep. destruct (Vk j key p0 Ep) as (v & p' & w & F1 & F2 & F3 & F4 & F5). assert (G : assoc key vk = Some v) by (apply (assoc_nth vk j); [rewrite Mvk'; exact Hw3|exact F1]). rewrite G. exists p'. split; [exact F3|eauto]. }
    destruct (each_total value (fun p' w => True) pa) as (wa & Ewa & Lwa & Kwa).
    { intros j p' Ej. destruct (nth_error args j) as [p0|] eqn:Ep; [|apply nth_error_None in Ep; assert (j < length pa) by (apply nth_error_Some; congruence); lia].
      destruct (Kpa j p0 Ep) as (p1 & E1 & _ & v & w & _ & F & _). assert (p1 = p') as -> by congruence. eauto. }
    destruct (each_key_total (fun _ => value) (fun _ p' w => True) pk) as (wk & Ewk & Mwk & Kwk).
    { intros j key p' Ej. destruct (same_keys kwargs pk j key p' Mpk Ej) as (p0 & Ep). destruct (Kpk j key p0 Ep) as (p1 & E1 & _ & v & w & _ & F & _). assert (p1 = p') as -> by congruence. eauto. }
    exists (CDict ca ck), (VCall (map snd va) vk), (PInstr pa pk), (VCall wa wk).
    split; [cbn [space_eval]; rewrite Eca; cbn [bind]; rewrite Eck; reflexivity|].
    split; [apply (from_dict ca ck va vk); auto; rewrite Mca, Ma; f_equal; f_equal; rewrite <- (map_length fst), <- Mca; apply map_length|].
    split.
    { constructor; [| |rewrite Mvk'; exact Hw3]; rewrite Forall_forall.
      - intros v Hv. apply In_nth_error in Hv. destruct Hv as (j & Ej). assert (Hj : j < length args) by (rewrite <- Lva, <- (map_length snd va); apply nth_error_Some; congruence).
        destruct (nth_error args j) as [p0|] eqn:Ep; [|apply nth_error_None in Ep; lia]. destruct (Va j p0 Ep) as (v' & p' & w & F1 & F2 & _). assert (v' = v) as -> by congruence. exact F2.
      - intros [key v] Hv. apply In_nth_error in Hv. destruct Hv as (j & Ej). destruct (same_keys kwargs vk j key v Mvk' Ej) as (p0 & Ep). destruct (Vk j key p0 Ep) as (v' & p' & w & F1 & F2 & _). cbn. assert (v' = v) as -> by congruence. exact F2. }
    split.
    { cbn [set_value]. rewrite map_length, Lva, Nat.eqb_refl. cbn [negb].
      replace (forallb (fun p => is_key (fst p) kwargs) vk && forallb (fun p => is_key (fst p) vk) kwargs) with true.
      - cbn [negb]. rewrite Epa. cbn [bind]. rewrite Epk. reflexivity.
      - symmetry. apply andb_true_iff. rewrite !forallb_forall. split; intros x Hx; apply is_key_in; [rewrite <- Mvk'|rewrite Mvk']; now apply in_map. }
    split; [cbn [value]; rewrite Ewa; cbn [bind]; rewrite Ewk; reflexivity|]. apply eqv_call.
    + rewrite map_length. congruence.
    + rewrite <- (map_length fst wk), <- (map_length fst vk). congruence.
    + intros j v w Ev Ew. assert (Hj : j < length args) by (rewrite <- Lva, <- (map_length snd va); apply nth_error_Some; congruence). destruct (nth_error args j) as [p0|] eqn:Ep; [|apply nth_error_None in Ep; lia].
      destruct (Kpa j p0 Ep) as (p1 & E1 & _ & v' & w' & G1 & G2 & G3). cbn in G1. destruct (Kwa j p1 E1) as (w1 & E2 & E3 & _). replace v with v' by congruence. replace w with w' by congruence. exact G3.
    + intros j key v Ev. destruct (same_keys kwargs vk j key v Mvk' Ev) as (p0 & Ep). destruct (Kpk j key p0 Ep) as (p1 & E1 & _ & v' & w' & G1 & G2 & G3). destruct (Kwk j key p1 E1) as (w1 & E2 & E3 & _).
      assert (G : assoc key vk = Some v) by (apply (assoc_nth vk j); [rewrite Mvk'; exact Hw3|exact Ev]). exists w1. split; [apply (assoc_nth wk j); [rewrite Mwk, Mpk; exact Hw3|exact E2]|]. replace v with v' by congruence. replace w1 with w' by congruence. exact G3.
  - discriminate.
Qed.

(** * Recording a candidate *)
Lemma distinct_nodup l : distinct l = true -> NoDup l.
Proof.
  induction l as [|a l IH]; cbn; [constructor|]. rewrite andb_true_iff, negb_true_iff. intros (A & B). constructor; [|now apply IH]. intros H.
  rewrite <- not_true_iff_false in A. apply A. apply existsb_exists. exists a. split; [exact H|apply String.eqb_refl].
Qed.
Lemma assoc_upsert l k v d : assoc l (upsert k v d) = if String.eqb l k then Some v else assoc l d.
Proof.
  induction d as [|[k' v'] d IH]; cbn; [reflexivity|]. destruct (String.eqb_spec k k') as [<-|N]; cbn.
  - destruct (String.eqb l k); reflexivity.
  - rewrite IH. destruct (String.eqb_spec l k'), (String.eqb_spec l k); congruence.
Qed.
Lemma upsert_keys k v d : forall x, In x (map fst (upsert k v d)) <-> x = k \/ In x (map fst d).
Proof.
  intros x. induction d as [|[k' v'] d IH]; cbn; [intuition|]. destruct (String.eqb_spec k k') as [<-|N]; cbn; [intuition|]. rewrite IH. intuition.
Qed.
Lemma upsert_nodup k v d : NoDup (map fst d) -> NoDup (map fst (upsert k v d)).
Proof.
  induction d as [|[k' v'] d IH]; cbn; intros N; [constructor; [intros []|constructor]|]. inversion N as [|? ? N1 N2]; subst. destruct (String.eqb_spec k k') as [<-|N']; cbn; [now constructor|].
  constructor; [|now apply IH]. rewrite upsert_keys. intros [E|E]; congruence || easy.
Qed.
Lemma update_nodup e : forall d, NoDup (map fst d) -> NoDup (map fst (update d e)).
Proof. induction e as [|[k v] e IH]; intros d N; [exact N|]. cbn. apply IH. now apply upsert_nodup. Qed.
Lemma update_keys e x : forall d, In x (map fst (update d e)) <-> In x (map fst e) \/ In x (map fst d).
Proof. induction e as [|[k v] e IH]; intros d; cbn; [intuition|]. unfold update in IH. rewrite IH, upsert_keys. intuition. Qed.
Lemma assoc_update0 l e : forall d, assoc l (update d e) = match assoc l (update [] e) with Some x => Some x | None => assoc l d end.
Proof.
  induction e as [|[k v] e IH]; intros d; [reflexivity|]. unfold update in *. cbn [fold_left fst snd]. rewrite (IH (upsert k v d)), (IH (upsert k v [])), !assoc_upsert. cbn [assoc].
  match goal with |- context [assoc l (fold_left ?f e [])] => destruct (assoc l (fold_left f e [])) end; [reflexivity|]. destruct (String.eqb l k); reflexivity.
Qed.
Lemma assoc_update l e : forall d, NoDup (map fst e) -> assoc l (update d e) = match assoc l e with Some x => Some x | None => assoc l d end.
Proof.
  induction e as [|[k v] e IH]; intros d N; [reflexivity|]. inversion N as [|? ? N1 N2]; subst. unfold update in *. cbn [fold_left fst snd]. rewrite IH by exact N2. rewrite assoc_upsert. cbn [assoc].
  destruct (String.eqb_spec l k) as [->|]; [|reflexivity]. rewrite (proj2 (assoc_none e k) N1). reflexivity.
Qed.
Lemma fold_start l es : forall d, assoc l (fold_left update es d) = match assoc l (fold_left update es []) with Some x => Some x | None => assoc l d end.
Proof.
  induction es as [|e es IH]; intros d; [reflexivity|]. cbn [fold_left]. rewrite (IH (update d e)), (IH (update [] e)), (assoc_update0 l e d). destruct (assoc l (fold_left update es [])); [reflexivity|]. destruct (assoc l (update [] e)); reflexivity.
Qed.
Lemma fold_pos_update {A} (g : nat -> A -> result vals) l : forall i d, fold_pos (fun i d p => bind (g i p) (fun e => Ok (update d e))) i d l = bind (each_pos g i l) (fun es => Ok (fold_left update es d)).
Proof.
  induction l as [|a l IH]; intros i d; [reflexivity|]. unfold fold_pos, each_pos. fold (fold_pos (fun i d p => bind (g i p) (fun e => Ok (update d e)))). fold (each_pos g). destruct (g i a) as [e|]; [|reflexivity]. cbn [bind]. rewrite (IH (S i) (update d e)). destruct (each_pos g (S i) l); reflexivity.
Qed.
Lemma fold_key_update {A} (g : string -> A -> result vals) l : forall d, fold_key (fun k d p => bind (g k p) (fun e => Ok (update d e))) d l = bind (each_key g l) (fun es => Ok (fold_left update (map snd es) d)).
Proof.
  induction l as [|[k a] l IH]; intros d; [reflexivity|]. unfold fold_key, each_key. fold (fold_key (fun k d p => bind (g k p) (fun e => Ok (update d e)))). fold (each_key g). destruct (g k a) as [e|]; [|reflexivity]. cbn [bind]. rewrite (IH (update d e)). destruct (each_key g l); reflexivity.
Qed.
Lemma fold_one {A D} (f : nat -> D -> A -> result D) l : forall i d t o d', nth_error l t = Some o ->
  (forall j o' d, j <> t -> nth_error l j = Some o' -> f (i + j) d o' = Ok d) -> f (i + t) d o = Ok d' -> fold_pos f i d l = Ok d'.
Proof.
  assert (None_ : forall l i d, (forall j o' d, nth_error l j = Some o' -> f (i + j) d o' = Ok d) -> fold_pos f i d l = Ok d).
  { clear. induction l as [|a l IH]; intros i d H; [reflexivity|]. cbn. pose proof (H 0 a d eq_refl) as E. rewrite Nat.add_0_r in E. rewrite E. cbn. apply IH. intros j o' d' Hj. replace (S i + j) with (i + S j) by lia. now apply H. }
  induction l as [|a l IH]; intros i d t o d' Ht Ho Hf; [destruct t; discriminate|]. cbn. destruct t as [|t].
  - injection Ht as ->. rewrite Nat.add_0_r in Hf. rewrite Hf. cbn. apply None_. intros j o' d0 Hj. replace (S i + j) with (i + S j) by lia. apply Ho; [lia|exact Hj].
  - pose proof (Ho 0 a d ltac:(lia) eq_refl) as E. rewrite Nat.add_0_r in E. rewrite E. cbn. apply (IH (S i) d t o d'); [exact Ht| |now replace (S i + t) with (i + S t) by lia].
    intros j o' d0 Hj Hn. replace (S i + j) with (i + S j) by lia. apply Ho; [lia|exact Hn].
Qed.
Lemma value_dicts p : forall v, well_formed p -> value p = Ok v -> dicts v.
Proof.
  induction p as [lo hi q|lo hi q|lo hi q|i options IH|c|args kwargs IHa IHk|n] using par_induction; intros v Hw E; cbn [value] in E; try (injection E as <-; constructor; fail).
  - rewrite pick_nth in E. destruct (nth_error options i) as [o|] eqn:Eo; [|discriminate]. apply nth_error_In in Eo. inversion Hw; subst. rewrite Forall_forall in *. eapply IH; eauto.
  - injection E as <-. now inversion Hw.
  - rewrite (each_as_pos _ _ 0) in E. destruct (each_pos _ 0 args) as [a|] eqn:Ea; [|discriminate]. cbn [bind] in E. destruct (each_key _ kwargs) as [k|] eqn:Ek; [|discriminate]. injection E as <-.
    apply each_pos_ok in Ea. destruct Ea as (La & Ka). apply each_key_ok in Ek. destruct Ek as (Mk & Kk). inversion Hw as [| | | | |? ? Hw1 Hw2 Hw3|]; subst. rewrite Forall_forall in *.
    constructor; [| |rewrite Mk; exact Hw3]; rewrite Forall_forall.
    + intros x Hx. apply In_nth_error in Hx. destruct Hx as (j & Ej). assert (Hj : j < length args) by (rewrite <- La; apply nth_error_Some; congruence). destruct (nth_error args j) as [p0|] eqn:Ep; [|apply nth_error_None in Ep; lia].
      destruct (Ka j p0 Ep) as (b & Eb & Ev). pose proof (nth_error_In _ _ Ep) as I. apply (IHa p0 I); [now apply Hw1|]. congruence.
    + intros [key x] Hx. apply In_nth_error in Hx. destruct Hx as (j & Ej). destruct (same_keys kwargs k j key x Mk Ej) as (p0 & Ep). destruct (Kk j key p0 Ep) as (b & Eb & Ev). pose proof (nth_error_In _ _ Ep) as I. apply (IHk _ I); [apply (Hw2 _ I)|]. cbn. congruence.
Qed.
Lemma NoDup_app_parts {A} (l l' : list A) : NoDup (l ++ l') -> NoDup l /\ NoDup l'.
Proof.
  induction l as [|a l IH]; cbn; intros N; [split; [constructor|exact N]|]. inversion N as [|? ? N1 N2]; subst. destruct (IH N2) as (A1 & A2). split; [|exact A2]. constructor; [|exact A1]. intros H. apply N1. apply in_or_app. now left.
Qed.
Lemma disjoint_parts (ss : list space) : NoDup (flat_map labels ss) -> forall i j s s' l, nth_error ss i = Some s -> nth_error ss j = Some s' -> In l (labels s) -> In l (labels s') -> i = j.
Proof.
  induction ss as [|x ss IH]; intros N i j s s' l Hi Hj Il Il'; [destruct i; discriminate|]. cbn in N.
  assert (K : forall n s, nth_error ss n = Some s -> In l (labels s) -> In l (flat_map labels ss)) by (intros n y Hy Hl; apply in_flat_map; exists y; split; [eapply nth_error_In, Hy|exact Hl]).
  assert (X : In l (labels x) -> In l (flat_map labels ss) -> False).
  { clear - N. induction (labels x) as [|a t IHt]; cbn in *; [easy|]. inversion N; subst. intros [->|H] H'; [apply H1; apply in_or_app; now right|now apply IHt]. }
  destruct i as [|i], j as [|j]; cbn in Hi, Hj; [reflexivity| | |f_equal; apply (IH (proj2 (NoDup_app_parts _ _ N)) i j s s' l Hi Hj Il Il')].
  - injection Hi as <-. elim (X Il). eapply K; eassumption.
  - injection Hj as <-. elim (X Il'). eapply K; eassumption.
Qed.
Lemma nodup_part (ss : list space) : NoDup (flat_map labels ss) -> forall i s, nth_error ss i = Some s -> NoDup (labels s).
Proof.
  induction ss as [|x ss IH]; intros N [|i] s E; try discriminate; cbn in *; apply NoDup_app_parts in N; destruct N as (N1 & N2); [now injection E as <-|eauto].
Qed.
Lemma look_out l (es : list vals) : forall d, (forall e, In e es -> ~ In l (map fst e)) -> assoc l (fold_left update es d) = assoc l d.
Proof.
  induction es as [|e es IH]; intros d H; [reflexivity|]. cbn [fold_left]. rewrite IH by (intros x Hx; apply H; now right). rewrite assoc_update0.
  replace (assoc l (update [] e)) with (@None (list val)); [reflexivity|]. symmetry. apply assoc_none. rewrite update_keys. cbn. intros [A|[]]. apply (H e); [now left|exact A].
Qed.
Lemma look l (es : list vals) : forall d j e, nth_error es j = Some e -> NoDup (map fst e) -> (forall j' e', nth_error es j' = Some e' -> j' <> j -> ~ In l (map fst e')) ->
  assoc l (fold_left update es d) = match assoc l e with Some x => Some x | None => assoc l d end.
Proof.
  induction es as [|x es IH]; intros d j e Ej N H; [destruct j; discriminate|]. cbn [fold_left]. destruct j as [|j].
  - injection Ej as ->. rewrite look_out; [now apply assoc_update|]. intros e' He'. apply In_nth_error in He'. destruct He' as (j' & Hj'). apply (H (S j') e' Hj'). discriminate.
  - rewrite (IH (update d x) j e Ej N); [|intros j' e' Hj' Hn; apply (H (S j') e' Hj'); lia]. destruct (assoc l e); [reflexivity|]. rewrite assoc_update0.
    replace (assoc l (update [] x)) with (@None (list val)); [reflexivity|]. symmetry. apply assoc_none. rewrite update_keys. cbn. intros [A|[]]. apply (H 0 x eq_refl); [lia|exact A].
Qed.
Lemma fold_keys (es : list vals) : forall d, (NoDup (map fst d) -> NoDup (map fst (fold_left update es d))) /\ forall x, In x (map fst (fold_left update es d)) -> In x (map fst d) \/ exists e, In e es /\ In x (map fst e).
Proof.
  induction es as [|e es IH]; intros d; cbn [fold_left]; [auto|]. destruct (IH (update d e)) as (A & B). split; [intros N; apply A, update_nodup, N|].
  intros x Hx. destruct (B x Hx) as [H|(e' & I & H)]; [apply update_keys in H; destruct H as [H|H]; [right; exists e; split; [now left|exact H]|now left]|right; exists e'; split; [now right|exact H]].
Qed.
Definition good (p : par) (s : space) (e : vals) : Prop :=
  NoDup (map fst e) /\ incl (map fst e) (labels s) /\
  exists v, value p = Ok v /\ forall vs, (forall l, In l (labels s) -> assoc l vs = Some (match assoc l e with Some x => x | None => [] end)) ->
    legal s vs /\ exists c, space_eval s vs = Ok c /\ from_config c = Ok v.
Lemma flat_map_snd (l : list (string * space)) : flat_map (fun p => labels (snd p)) l = flat_map labels (map snd l).
Proof. induction l as [|[k s] l IH]; [reflexivity|]. cbn. now rewrite IH. Qed.
Lemma one_label v s p name : labels s = [name] -> value p = Ok v -> (forall vs, assoc name vs = Some [v] -> legal s vs /\ space_eval s vs = Ok (CVal v)) -> good p s [(name, [v])].
Proof.
  intros L E H. split; [constructor; [intros []|constructor]|]. split; [rewrite L; apply incl_refl|]. exists v. split; [exact E|]. intros vs Hvs. rewrite L in Hvs. specialize (Hvs name (or_introl eq_refl)). cbn in Hvs. rewrite String.eqb_refl in Hvs.
  destruct (H vs Hvs) as (A & B). split; [exact A|]. exists (CVal v). auto.
Qed.
Lemma nth_error_ext' {A} (l l' : list A) : (forall j, nth_error l j = nth_error l' j) -> l = l'.
Proof.
  revert l'. induction l as [|a l IH]; intros [|b l'] H; [reflexivity|specialize (H 0); discriminate|specialize (H 0); discriminate|].
  pose proof (H 0) as E. cbn in E. injection E as ->. f_equal. apply IH. intros j. exact (H (S j)).
Qed.
Lemma told p : forall name s, recordable p -> well_formed p -> search_space name p = Ok s -> NoDup (labels s) -> exists e, to_dict [] name p = Ok e /\ good p s e.
Proof.
  induction p as [lo hi q|lo hi q|lo hi q|i0 options IH|c|args kwargs IHa IHk|n] using par_induction; intros name s Hr Hw E N.
  - inversion Hr; subst. cbn in E. injection E as <-. eexists. split; [reflexivity|]. apply one_label; [reflexivity..|]. intros vs Ev. cbn [legal space_eval]. rewrite (drawn_one _ _ _ Ev). split; [eauto|reflexivity].
  - inversion Hr; subst. cbn in E. injection E as <-. eexists. split; [reflexivity|]. apply one_label; [reflexivity..|]. intros vs Ev. cbn [legal space_eval]. rewrite (drawn_one _ _ _ Ev). split; [eauto|reflexivity].
  - inversion Hr; subst. cbn in E. injection E as <-. eexists. split; [reflexivity|]. apply one_label; [reflexivity..|]. intros vs Ev. cbn [legal space_eval]. rewrite (drawn_one _ _ _ Ev). split; [eauto|reflexivity].
  - inversion Hr as [| | |? ? o v Eo Ev Hothers Hkind Hnot|]; subst. cbn [search_space] in E. destruct (no_repeat (types options)); [|discriminate]. cbn [negb] in E. destruct (each_pos _ 0 options) as [r|] eqn:Er; [|discriminate]. injection E as <-.
    apply each_pos_ok in Er. destruct Er as (L & K). inversion Hw as [| | |? ? Hw'| | |]; subst. rewrite Forall_forall in *. pose proof (nth_error_In _ _ Eo) as I. destruct (K i0 o Eo) as (so & Eso & Es). cbn [Nat.add] in Es.
    cbn [labels] in N. inversion N as [|? ? Nn Nf]; subst. pose proof (nodup_part _ Nf _ _ Eso) as Nso.
    assert (Hsub : exists e, good o so e /\ forall d, (let d := upsert name [VNum (inject_Z (Z.of_nat i0))] d in
              match o with
              | PScalar _ _ _ | PInt _ _ _ | PLog _ _ _ | PChoice _ _ => Ok (upsert (option_label name i0) [v] d)
              | PInstr _ _ => bind (to_dict [] name o) (fun e => Ok (update d e))
              | _ => Ok d
              end) = Ok (update (upsert name [VNum (inject_Z (Z.of_nat i0))] d) e)).
    { destruct Hkind as [Hrec|(c & ->)].
      - destruct (IH o I _ so Hrec (Hw' o I) Es Nso) as (e & Ee & Hg). exists e. split; [exact Hg|]. intros d. destruct o as [lo hi q|lo hi q|lo hi q|j os|c|args kwargs|n].
        + cbn in Ee, Ev. injection Ee as <-. injection Ev as <-. reflexivity.
        + cbn in Ee, Ev. injection Ee as <-. injection Ev as <-. reflexivity.
        + cbn in Ee, Ev. injection Ee as <-. injection Ev as <-. reflexivity.
        + now elim (Hnot j os).
        + inversion Hrec.
        + change (to_dict [] (option_label name i0) (PInstr args kwargs)) with (to_dict [] name (PInstr args kwargs)) in Ee. rewrite Ee. reflexivity.
        + inversion Hrec.
      - exists []. split; [|reflexivity]. cbn in Es. injection Es as <-. split; [constructor|]. split; [intros x []|]. exists v. split; [exact Ev|]. cbn in Ev. injection Ev as ->. intros vs _. split; [exact Logic.I|]. now exists (CVal v). }
    destruct Hsub as (e & (G1 & G2 & v' & G3 & G4) & Hd). assert (v' = v) as -> by congruence.
    exists (update [(name, [VNum (inject_Z (Z.of_nat i0))])] e). split.
    { cbn [to_dict value]. rewrite pick_nth, Eo, Ev. cbn [bind]. eapply (fold_one _ options 0 [] i0 o); [exact Eo| |].
      - intros j o' d Hj Ej. destruct (Hothers j o' Ej Hj) as (w & Ew & En). rewrite Ew. cbn [bind]. rewrite En. reflexivity.
      - cbn [Nat.add]. rewrite Ev. cbn [bind]. rewrite eqv_refl by (apply (value_dicts o); auto). exact (Hd []). }
    split; [apply update_nodup; constructor; [intros []|constructor]|]. split.
    { intros x Hx. apply update_keys in Hx. cbn [labels]. destruct Hx as [Hx|[<-|[]]]; [right|now left]. apply in_flat_map. exists so. split; [eapply nth_error_In, Eso|now apply G2]. }
    exists v. split; [cbn [value]; rewrite pick_nth, Eo; exact Ev|]. intros vs Hvs.
    assert (Look : forall l, assoc l (update [(name, [VNum (inject_Z (Z.of_nat i0))])] e) = match assoc l e with Some x => Some x | None => if String.eqb l name then Some [VNum (inject_Z (Z.of_nat i0))] else None end).
    { intros l. rewrite assoc_update by exact G1. cbn [assoc]. reflexivity. }
    assert (Hname : assoc name vs = Some [VNum (inject_Z (Z.of_nat i0))]).
    { rewrite Hvs by (now left). rewrite Look, String.eqb_refl. replace (assoc name e) with (@None (list val)); [reflexivity|]. symmetry. apply assoc_none. intros Hn. apply Nn. apply in_flat_map. exists so. split; [eapply nth_error_In, Eso|now apply G2]. }
    destruct (G4 vs) as (Hl & c & Ec & Ef).
    { intros l Il. assert (If : In l (flat_map labels r)) by (apply in_flat_map; exists so; split; [eapply nth_error_In, Eso|exact Il]). rewrite Hvs by (right; exact If). rewrite Look. destruct (assoc l e); [reflexivity|]. destruct (String.eqb_spec l name) as [->|]; [contradiction|reflexivity]. }
    split.
    + cbn [legal]. exists i0. split; [exact Hname|]. split; [apply nth_error_Some; congruence|]. apply (proj2 (legal_choice _ _ _ _)). intros n sn En. cbn [Nat.add]. destruct (Nat.eqb_spec n i0) as [->|Hn]; [assert (sn = so) as -> by congruence; exact Hl|].
      rewrite Forall_forall. intros l Il. assert (If : In l (flat_map labels r)) by (apply in_flat_map; exists sn; split; [eapply nth_error_In, En|exact Il]). rewrite Hvs by (right; exact If). rewrite Look.
      replace (assoc l e) with (@None (list val)); [destruct (String.eqb_spec l name) as [->|]; [contradiction|reflexivity]|]. symmetry. apply assoc_none. intros Hin. apply Hn. apply (disjoint_parts r Nf n i0 sn so l En Eso Il). now apply G2.
    + exists c. split; [|exact Ef]. cbn [space_eval]. rewrite (drawn_one _ _ _ Hname). cbn [bind]. rewrite as_index_nat. cbn [bind]. rewrite pick_nth, Eso. exact Ec.
  - inversion Hr.
  - cbn [search_space] in E. destruct (each_pos _ 0 args) as [a|] eqn:Ea; [|discriminate]. cbn [bind] in E. destruct (each_key _ kwargs) as [k|] eqn:Ek; [|discriminate]. injection E as <-.
    apply (positions (fun i => search_space (str i))) in Ea. destruct Ea as (Ma & La & Ka). apply each_key_ok in Ek. destruct Ek as (Mk & Kk). inversion Hr as [| | | |? ? Hr1 Hr2]; subst. inversion Hw as [| | | | |? ? Hw1 Hw2 Hw3|]; subst. rewrite Forall_forall in *.
    cbn [labels] in N |- *. set (ss := map snd a ++ map snd k). assert (Hss : flat_map (fun p => labels (snd p)) a ++ flat_map (fun p => labels (snd p)) k = flat_map labels ss) by (unfold ss; rewrite flat_map_app, !flat_map_snd; reflexivity). rewrite Hss in N.
    assert (Sa : forall j key s0, nth_error a j = Some (key, s0) -> nth_error ss j = Some s0).
    { intros j key s0 Ej. unfold ss. rewrite nth_error_app1 by (rewrite map_length; apply nth_error_Some; congruence). now rewrite nth_error_map, Ej. }
    assert (Sk : forall j key s0, nth_error k j = Some (key, s0) -> nth_error ss (length a + j) = Some s0).
    { intros j key s0 Ej. unfold ss. rewrite nth_error_app2 by (rewrite map_length; lia). rewrite map_length. replace (length a + j - length a) with j by lia. now rewrite nth_error_map, Ej. }
    destruct (each_pos_total (fun i => to_dict [] (str i)) (fun j p0 e => exists s0, nth_error a j = Some (str j, s0) /\ good p0 s0 e) args 0) as (ea & Eea & Lea & Kea).
    { intros j p0 Ej. cbn [Nat.add]. destruct (Ka j p0 Ej) as (s0 & Es0 & E). cbn [Nat.add] in *. pose proof (nth_error_In _ _ Ej) as I. destruct (IHa p0 I _ s0 (Hr1 _ I) (Hw1 _ I) E (nodup_part _ N _ _ (Sa _ _ _ Es0))) as (e & Ee & Hg). eauto. }
    destruct (each_key_total (fun key => to_dict [] key) (fun key p0 e => forall j, nth_error kwargs j = Some (key, p0) -> exists s0, nth_error k j = Some (key, s0) /\ good p0 s0 e) kwargs) as (ek & Eek & Mek & Kek).
    { intros j key p0 Ej. destruct (Kk j key p0 Ej) as (s0 & Es0 & E). pose proof (nth_error_In _ _ Ej) as I. destruct (IHk _ I _ s0 (Hr2 _ I) (Hw2 _ I) E (nodup_part _ N _ _ (Sk _ _ _ Es0))) as (e & Ee & Hg). cbn in Ee, Hg. exists e. split; [exact Ee|].
      intros j' Ej'. destruct (Kk j' key p0 Ej') as (s1 & Es1 & E1). assert (s1 = s0) as -> by congruence. eauto. }
    set (es := ea ++ map snd ek).
    assert (Hes : forall j e, nth_error es j = Some e -> exists s0 p0, nth_error ss j = Some s0 /\ good p0 s0 e).
    { intros j e Ej. unfold es in Ej. destruct (Nat.lt_ge_cases j (length ea)) as [Hj|Hj].
      - rewrite nth_error_app1 in Ej by exact Hj. destruct (nth_error args j) as [p0|] eqn:Ep; [|apply nth_error_None in Ep; lia]. destruct (Kea j p0 Ep) as (e' & Ee' & _ & s0 & Es0 & Hg). assert (e' = e) as -> by congruence. exists s0, p0. split; [eapply Sa, Es0|exact Hg].
      - rewrite nth_error_app2 in Ej by exact Hj. rewrite nth_error_map in Ej. destruct (nth_error ek (j - length ea)) as [[key e0]|] eqn:Ee; [|discriminate]. cbn in Ej. injection Ej as ->.
        destruct (same_keys kwargs ek _ _ _ Mek Ee) as (p0 & Ep). destruct (Kek _ _ _ Ep) as (e' & Ee' & _ & Hg). assert (e' = e) as -> by congruence. destruct (Hg _ Ep) as (s0 & Es0 & Hg'). exists s0, p0. split; [|exact Hg'].
        replace j with (length a + (j - length ea)) by lia. eapply Sk, Es0. }
    assert (Look : forall j e s0 p0 l, nth_error es j = Some e -> nth_error ss j = Some s0 -> good p0 s0 e -> In l (labels s0) -> assoc l (fold_left update es []) = assoc l e).
    { intros j e s0 p0 l Ej Es0 (G1 & G2 & _) Il. rewrite (look l es [] j e Ej G1); [destruct (assoc l e); reflexivity|]. intros j' e' Ej' Hn Hin. destruct (Hes j' e' Ej') as (s1 & p1 & Es1 & (_ & F2 & _)). apply Hn. apply (disjoint_parts ss N j' j s1 s0 l Es1 Es0); [now apply F2|exact Il]. }
    exists (fold_left update es []). split.
    { cbn [to_dict]. rewrite (fold_pos_update (fun i => to_dict [] (str i))), Eea. cbn [bind]. rewrite (fold_key_update (fun key => to_dict [] key)), Eek. cbn [bind]. unfold es. now rewrite fold_left_app. }
    split; [apply fold_keys; constructor|]. split.
    { cbn [labels]. rewrite Hss. intros x Hx. apply fold_keys in Hx. destruct Hx as [[]|(e & Ie & Hx)]. apply In_nth_error in Ie. destruct Ie as (j & Ej). destruct (Hes j e Ej) as (s0 & p0 & Es0 & (_ & G2 & _)). apply in_flat_map. exists s0. split; [eapply nth_error_In, Es0|now apply G2]. }
    destruct (each_total value (fun _ _ => True) args) as (va & Eva & Lva & Kva).
    { intros j p0 Ep. destruct (Kea j p0 Ep) as (e & _ & _ & s0 & _ & (_ & _ & v & Ev & _)). eauto. }
    destruct (each_key_total (fun _ => value) (fun _ _ _ => True) kwargs) as (vk & Evk & Mvk & Kvk).
    { intros j key p0 Ep. destruct (Kek j key p0 Ep) as (e & _ & _ & Hg). destruct (Hg j Ep) as (s0 & _ & (_ & _ & v & Ev & _)). eauto. }
    exists (VCall va vk). split; [cbn [value]; rewrite Eva; cbn [bind]; rewrite Evk; reflexivity|]. intros vs Hvs. cbn [labels] in Hvs. rewrite Hss in Hvs.
    assert (Fa : forall j p0, nth_error args j = Some p0 -> exists s0 c v, nth_error a j = Some (str j, s0) /\ legal s0 vs /\ space_eval s0 vs = Ok c /\ from_config c = Ok v /\ nth_error va j = Some v).
    { intros j p0 Ep. destruct (Kea j p0 Ep) as (e & Ee & _ & s0 & Es0 & Hg). cbn in Es0. assert (Ee' : nth_error es j = Some e) by (unfold es; rewrite nth_error_app1 by (apply nth_error_Some; congruence); exact Ee).
      pose proof Hg as (G1 & G2 & v & G3 & G4). destruct (G4 vs) as (Hl & c & Ec & Ef).
      { intros l Il. rewrite Hvs by (apply in_flat_map; exists s0; split; [eapply nth_error_In, Sa, Es0|exact Il]). now rewrite (Look j e s0 p0 l Ee' (Sa _ _ _ Es0) Hg Il). }
      destruct (Kva j p0 Ep) as (v' & Ev' & E' & _). exists s0, c, v. repeat split; auto. congruence. }
    assert (Fk : forall j key p0, nth_error kwargs j = Some (key, p0) -> exists s0 c v, nth_error k j = Some (key, s0) /\ legal s0 vs /\ space_eval s0 vs = Ok c /\ from_config c = Ok v /\ nth_error vk j = Some (key, v)).
    { intros j key p0 Ep. destruct (Kek j key p0 Ep) as (e & Ee & _ & Hg'). destruct (Hg' j Ep) as (s0 & Es0 & Hg). assert (Ee' : nth_error es (length a + j) = Some e).
      { unfold es. rewrite nth_error_app2 by lia. replace (length a + j - length ea) with j by lia. now rewrite nth_error_map, Ee. }
      pose proof Hg as (G1 & G2 & v & G3 & G4). destruct (G4 vs) as (Hl & c & Ec & Ef).
      { intros l Il. rewrite Hvs by (apply in_flat_map; exists s0; split; [eapply nth_error_In, Sk, Es0|exact Il]). now rewrite (Look _ e s0 p0 l Ee' (Sk _ _ _ Es0) Hg Il). }
      destruct (Kvk j key p0 Ep) as (v' & Ev' & E' & _). exists s0, c, v. repeat split; auto. congruence. }
    split.
    { cbn [legal]. split; apply (proj2 (legal_args _ _)); intros j key s0 Ej.
      - destruct (nth_error args j) as [p0|] eqn:Ep; [|apply nth_error_None in Ep; assert (j < length a) by (apply nth_error_Some; congruence); lia]. destruct (Fa j p0 Ep) as (s1 & c & v & E1 & E2 & _). replace s0 with s1 by congruence. exact E2.
      - destruct (same_keys kwargs k j key s0 Mk Ej) as (p0 & Ep). destruct (Fk j key p0 Ep) as (s1 & c & v & E1 & E2 & _). replace s0 with s1 by congruence. exact E2. }
    destruct (each_key_total (fun _ s => space_eval s vs) (fun _ _ c => exists v, from_config c = Ok v) a) as (ca & Eca & Mca & Kca).
    { intros j key s0 Ej. destruct (nth_error args j) as [p0|] eqn:Ep; [|apply nth_error_None in Ep; assert (j < length a) by (apply nth_error_Some; congruence); lia]. destruct (Fa j p0 Ep) as (s1 & c & v & E1 & E2 & E3 & E4 & _). exists c. replace s0 with s1 by congruence. eauto. }
    destruct (each_key_total (fun _ s => space_eval s vs) (fun _ _ c => exists v, from_config c = Ok v) k) as (ck & Eck & Mck & Kck).
    { intros j key s0 Ej. destruct (same_keys kwargs k j key s0 Mk Ej) as (p0 & Ep). destruct (Fk j key p0 Ep) as (s1 & c & v & E1 & E2 & E3 & E4 & _). exists c. replace s0 with s1 by congruence. eauto. }
    exists (CDict ca ck). split; [cbn [space_eval]; rewrite Eca; cbn [bind]; rewrite Eck; reflexivity|].
    destruct (each_key_total (fun _ => from_config) (fun _ _ _ => True) ca) as (conv & Econv & Mconv & Kconv).
    { intros j key c Ej. destruct (same_keys a ca j key c Mca Ej) as (s0 & Es0). destruct (Kca j key s0 Es0) as (c' & Ec' & _ & v & Ev). replace c with c' by congruence. eauto. }
    assert (Lconv : length conv = length args) by (rewrite <- La, <- (map_length fst conv), Mconv, Mca; apply map_length).
    apply (from_dict ca ck conv vk).
    + rewrite Mca, Ma. f_equal. f_equal. rewrite <- (map_length fst), <- Mca. apply map_length.
    + exact Econv.
    + apply nth_error_ext'. intros j. destruct (nth_error args j) as [p0|] eqn:Ep.
      * destruct (Fa j p0 Ep) as (s0 & c & v & E1 & E2 & E3 & E4 & E5). destruct (Kca j _ s0 E1) as (c' & Ec' & Es' & _). assert (c' = c) as -> by congruence. destruct (Kconv j _ c Ec') as (v' & Ev' & Ef' & _). rewrite E5, nth_error_map, Ev'. cbn. congruence.
      * apply nth_error_None in Ep. rewrite (proj2 (nth_error_None va j)) by lia. symmetry. apply nth_error_None. rewrite map_length. lia.
    + apply each_key_ok. split; [congruence|]. intros j key c Ej. destruct (same_keys k ck j key c Mck Ej) as (s0 & Es0). destruct (same_keys kwargs k j key s0 Mk Es0) as (p0 & Ep). destruct (Fk j key p0 Ep) as (s1 & c1 & v & E1 & E2 & E3 & E4 & E5).
      destruct (Kck j key s0 Es0) as (c2 & Ec2 & Es2 & _). exists v. split; [exact E5|]. replace c with c1 by congruence. exact E4.
  - inversion Hr.
Qed.
Lemma recorded p root s : recordable p -> well_formed p -> create root p = Ok (Some s) -> exists vs v, record s p = Ok vs /\ value p = Ok v /\ legal s vs /\ exists c, space_eval s vs = Ok c /\ from_config c = Ok v.
Proof.
  intros Hr Hw E. unfold create in E. destruct p as [| | | | |args kwargs|]; try discriminate. destruct (search_space root (PInstr args kwargs)) as [s'|err] eqn:Es; [|destruct err; discriminate].
  destruct (distinct (labels s')) eqn:Ed; [|discriminate]. injection E as ->. apply distinct_nodup in Ed. destruct (told _ _ _ Hr Hw Es Ed) as (e & Ee & G1 & G2 & v & G3 & G4).
  unfold record. cbn [to_dict] in Ee |- *. rewrite (fold_pos_update (fun i => to_dict [] (str i))) in Ee |- *. destruct (each_pos _ 0 args) as [ea|]; [|discriminate]. cbn [bind] in Ee |- *.
  rewrite (fold_key_update (fun key => to_dict [] key)) in Ee |- *. destruct (each_key _ kwargs) as [ek|]; [|discriminate]. cbn [bind] in Ee |- *. injection Ee as Ee. rewrite <- fold_left_app in Ee |- *.
  eexists. exists v. split; [reflexivity|]. split; [exact G3|]. apply G4. intros l Il. rewrite fold_start, Ee. destruct (assoc l e); [reflexivity|].
  clear - Il. induction (labels s) as [|x t IH]; cbn in *; [easy|]. destruct (String.eqb_spec l x) as [->|Hn]; [reflexivity|]. destruct Il as [->|Il]; [easy|auto].
Qed.

From Coq Require Import List Arith Bool Lia Sorted.
From Verif.Model Require Import Prelude UidQueue.
From Verif.Spec Require Import UidQueue.
From Verif.Proofs Require Import Prelude.
Import ListNotations.

(** ** OrderedSet *)

Definition os_wf (s : oset) : Prop := NoDup (os_iter s).

Lemma os_add_iter k s : os_wf s ->
  os_iter (os_add k s) = spec_remove k (os_iter s) ++ [k].
Proof.
  intros H. unfold os_add, os_iter, dkeys. cbn. rewrite map_app. cbn.
  fold (dkeys (ddel k (os_data s))). now rewrite ddel_keys.
Qed.

Lemma spec_remove_nodup k l : NoDup l -> NoDup (spec_remove k l).
Proof. apply NoDup_filter. Qed.

Lemma in_spec_remove x k l : In x (spec_remove k l) <-> In x l /\ x <> k.
Proof.
  unfold spec_remove. rewrite filter_In, negb_true_iff, Nat.eqb_neq. tauto.
Qed.

Lemma spec_remove_notin k l : ~ In k l -> spec_remove k l = l.
Proof.
  induction l as [|b m IH]; cbn; [easy|]. intros E.
  destruct (Nat.eqb_spec b k) as [->|]; cbn.
  - exfalso. apply E. now left.
  - f_equal. apply IH. intros ?. apply E. now right.
Qed.

Lemma os_add_wf k s : os_wf s -> os_wf (os_add k s).
Proof.
  intros H. unfold os_wf. rewrite os_add_iter by assumption.
  apply NoDup_app_snoc; [now apply spec_remove_nodup|].
  rewrite in_spec_remove. tauto.
Qed.

Lemma existsb_eqb_dmem k s : existsb (Nat.eqb k) (os_iter s) = os_mem k s.
Proof.
  unfold os_mem. destruct (dmem k (os_data s)) eqn:E.
  - apply dmem_in in E. apply existsb_exists. exists k.
    split; [exact E|apply Nat.eqb_refl].
  - apply dmem_false in E. destruct (existsb (Nat.eqb k) (os_iter s)) eqn:E2; [|easy].
    apply existsb_exists in E2 as (x & Hx & ->%Nat.eqb_eq). easy.
Qed.

Lemma os_discard_spec k s : os_wf s ->
  match os_discard k s with
  | Ok s' => In k (os_iter s) /\ os_iter s' = spec_remove k (os_iter s)
  | Err e => ~ In k (os_iter s) /\ e = KeyError
  end.
Proof.
  intros H. unfold os_discard. destruct (dmem k (os_data s)) eqn:E.
  - split; [now apply dmem_in|]. exact (ddel_keys k _ H).
  - split; [now apply dmem_false|reflexivity].
Qed.

Lemma spec_remove_last l k : NoDup (l ++ [k]) -> spec_remove k (l ++ [k]) = l.
Proof.
  intros H. unfold spec_remove. rewrite filter_app. cbn. rewrite Nat.eqb_refl. cbn.
  rewrite app_nil_r. apply NoDup_remove_2 in H. rewrite app_nil_r in H.
  induction l as [|a l IH]; cbn; [easy|].
  destruct (Nat.eqb_spec a k) as [->|]; cbn.
  - exfalso. apply H. now left.
  - f_equal. apply IH. intros Hin. apply H. now right.
Qed.

Lemma os_step_refines s o : os_wf s ->
  let (s', r) := os_step s o in
  os_wf s' /\ spec_os_step (os_iter s) o = (os_iter s', r).
Proof.
  intros H. destruct o as [k|k| |]; cbn [os_step spec_os_step].
  - split; [now apply os_add_wf|]. now rewrite os_add_iter.
  - rewrite existsb_eqb_dmem. unfold os_mem.
    pose proof (os_discard_spec k s H) as Hd. unfold os_discard in *.
    destruct (dmem k (os_data s)) eqn:E; [|easy].
    destruct Hd as [_ Hd]. rewrite <- Hd. split; [|easy].
    unfold os_wf. rewrite Hd. now apply spec_remove_nodup.
  - unfold os_popright, os_iter, dkeys. rewrite <- map_rev.
    destruct (rev (os_data s)) as [|[k v] l] eqn:E; cbn; [easy|].
    pose proof (os_discard_spec k s H) as Hd. unfold os_discard in *.
    assert (Hdat : os_data s = rev l ++ [(k, v)]).
    { rewrite <- (rev_involutive (os_data s)), E. reflexivity. }
    assert (Hk : In k (os_iter s)).
    { unfold os_iter, dkeys. rewrite Hdat, map_app, in_app_iff. cbn. tauto. }
    assert (Hm : dmem k (os_data s) = true) by now apply dmem_in.
    rewrite Hm in *. destruct Hd as [_ Hd]. cbn.
    split.
    + unfold os_wf, os_iter in *. cbn in *. rewrite Hd. now apply spec_remove_nodup.
    + f_equal. unfold os_iter in Hd. cbn in Hd. fold (dkeys (ddel k (os_data s))).
      unfold dkeys in *. rewrite Hd.
      unfold os_wf, os_iter, dkeys in H. rewrite Hdat, map_app in *. cbn [map fst app] in *.
      rewrite removelast_last. symmetry. now apply spec_remove_last.
  - split; [constructor|reflexivity].
Qed.

Lemma os_run_refines ops s : os_wf s ->
  let (s', rs) := run os_step s ops in
  os_wf s' /\ run spec_os_step (os_iter s) ops = (os_iter s', rs).
Proof.
  revert s; induction ops as [|o ops IH]; intros s H; cbn; [easy|].
  pose proof (os_step_refines s o H) as Hs.
  destruct (os_step s o) as [s1 r]. destruct Hs as [Hwf Hs]. rewrite Hs.
  specialize (IH s1 Hwf). destruct (run os_step s1 ops) as [s2 rs].
  destruct IH as [Hwf2 IH]. rewrite IH. easy.
Qed.

Lemma os_len_iter s : os_len s = length (os_iter s).
Proof. unfold os_len, os_iter, dkeys. now rewrite map_length. Qed.

Lemma os_run_ok ops :
  let (s, rs) := run os_step os_empty ops in
  let (l, rs') := run spec_os_step [] ops in
  rs = rs' /\ os_iter s = l /\ NoDup l /\ os_len s = length l /\
  (forall k, os_mem k s = true <-> In k l).
Proof.
  assert (H0 : os_wf os_empty) by constructor.
  pose proof (os_run_refines ops _ H0) as H.
  destruct (run os_step os_empty ops) as [s rs]. destruct H as [Hwf H].
  cbn [os_iter os_empty os_data dkeys map] in H. rewrite H.
  repeat split; auto.
  - apply os_len_iter.
  - unfold os_mem. intros Hk. now apply dmem_in.
  - intros Hk. now apply dmem_in.
Qed.

(** ** UidQueue *)

Definition since (tr : list event) (u : nat) : nat :=
  match status tr u with Absent => 0 | Waiting t => t | Evaluating t => t end.

Record inv (q : uq) (tr : list event) : Prop := {
  inv_told : forall u, In u (uq_told q) <-> exists t, status tr u = Waiting t;
  inv_asked : forall u, In u (os_iter (uq_asked q)) <-> exists t, status tr u = Evaluating t;
  inv_told_sorted : StronglySorted (fun u v => since tr u < since tr v) (uq_told q);
  inv_asked_sorted : StronglySorted (fun u v => since tr u < since tr v) (os_iter (uq_asked q));
}.

Lemma since_lt tr u : status tr u <> Absent -> since tr u < length tr.
Proof.
  unfold since. induction tr as [|e tr IH]; cbn; [congruence|].
  destruct e as [v|v|v|]; try congruence;
    destruct (u =? v); cbn; try lia; try congruence;
    intros H; specialize (IH H); lia.
Qed.

Lemma sorted_nodup tr l :
  StronglySorted (fun u v => since tr u < since tr v) l -> NoDup l.
Proof.
  induction 1 as [|a l Hs IH Hf]; constructor; [|easy].
  intros Hin. rewrite Forall_forall in Hf. specialize (Hf _ Hin). lia.
Qed.

Lemma sorted_filter {A} (R : A -> A -> Prop) f l :
  StronglySorted R l -> StronglySorted R (filter f l).
Proof.
  induction 1 as [|a l Hs IH Hf]; cbn; [constructor|].
  destruct (f a); [|easy]. constructor; [easy|].
  rewrite Forall_forall in *. intros x Hx. apply filter_In in Hx. apply Hf. tauto.
Qed.

Lemma sorted_snoc {A} (R : A -> A -> Prop) l x :
  StronglySorted R l -> Forall (fun y => R y x) l -> StronglySorted R (l ++ [x]).
Proof.
  induction 1 as [|a l Hs IH Hf]; intros H; cbn.
  - repeat constructor.
  - inversion H; subst. constructor; [auto|].
    apply Forall_app. split; [easy|]. repeat constructor. easy.
Qed.

Lemma sorted_ext {A} (R R' : A -> A -> Prop) l :
  (forall x y, In x l -> In y l -> R x y -> R' x y) ->
  StronglySorted R l -> StronglySorted R' l.
Proof.
  intros H Hs. induction Hs as [|a l Hs IH Hf]; constructor.
  - apply IH. intros x y Hx Hy. apply H; now right.
  - rewrite Forall_forall in *. intros x Hx. apply H; [now left|now right|auto].
Qed.

Lemma list_remove1_spec u l : NoDup l ->
  match list_remove1 u l with
  | Some l' => In u l /\ l' = spec_remove u l
  | None => ~ In u l
  end.
Proof.
  induction l as [|a l IH]; cbn; [easy|]. intros H. inversion H as [|? ? Hni Hnd]; subst.
  destruct (Nat.eqb_spec u a) as [->|Hne].
  - split; [now left|]. rewrite Nat.eqb_refl. cbn.
    symmetry. unfold spec_remove. clear -Hni.
    induction l as [|b l IH]; cbn; [easy|].
    destruct (Nat.eqb_spec b a) as [->|]; cbn.
    + exfalso. apply Hni. now left.
    + f_equal. apply IH. intros ?. apply Hni. now right.
  - destruct (Nat.eqb_spec a u) as [->|_]; [congruence|]. cbn.
    specialize (IH Hnd). destruct (list_remove1 u l).
    + destruct IH as [Hin ->]. split; [now right|reflexivity].
    + intros [->|]; [congruence|easy].
Qed.

Section Step.
  Variables (q : uq) (tr : list event).
  Hypothesis I : inv q tr.

  Lemma asked_wf : os_wf (uq_asked q).
  Proof. eapply sorted_nodup, (inv_asked_sorted _ _ I). Qed.

  Lemma told_asked_disj u : In u (uq_told q) -> ~ In u (os_iter (uq_asked q)).
  Proof.
    intros H1 H2. apply (inv_told _ _ I) in H1 as [t H1].
    apply (inv_asked _ _ I) in H2 as [t' H2]. congruence.
  Qed.

  Lemma told_lt u : In u (uq_told q) -> since tr u < length tr.
  Proof. intros H. apply (inv_told _ _ I) in H as [t H]. apply since_lt. congruence. Qed.
  Lemma asked_lt u : In u (os_iter (uq_asked q)) -> since tr u < length tr.
  Proof. intros H. apply (inv_asked _ _ I) in H as [t H]. apply since_lt. congruence. Qed.

  (** Moving [u] to the end of asked, told becoming [l]. *)
  Lemma inv_ask u l :
    (forall v, In v l <-> In v (uq_told q) /\ v <> u) ->
    StronglySorted (fun u v => since tr u < since tr v) l ->
    inv (UQ l (os_add u (uq_asked q))) (EvAsk u :: tr).
  Proof.
    intros Hl Hs. pose proof asked_wf as Hwf.
    constructor; cbn [uq_told uq_asked].
    - intros v. rewrite Hl, (inv_told _ _ I). cbn.
      destruct (Nat.eqb_spec v u) as [->|]; [|tauto].
      split; [tauto|]. intros [t [=]].
    - intros v. rewrite os_add_iter, in_app_iff, in_spec_remove, (inv_asked _ _ I) by easy.
      cbn. destruct (Nat.eqb_spec v u) as [->|].
      + split; eauto.
      + split; [intros [?|[->|[]]]; tauto|tauto].
    - eapply sorted_ext; [|exact Hs]. intros x y Hx Hy. unfold since; cbn.
      apply Hl in Hx, Hy. destruct Hx as [_ Hx], Hy as [_ Hy].
      apply Nat.eqb_neq in Hx, Hy. now rewrite Hx, Hy.
    - rewrite os_add_iter by easy. apply sorted_snoc.
      + eapply sorted_ext; [|apply sorted_filter, (inv_asked_sorted _ _ I)].
        intros x y Hx Hy. unfold since; cbn.
        apply in_spec_remove in Hx, Hy. destruct Hx as [_ Hx], Hy as [_ Hy].
        apply Nat.eqb_neq in Hx, Hy. now rewrite Hx, Hy.
      + apply Forall_forall. intros x Hx. apply in_spec_remove in Hx as [Hx Hne].
        apply asked_lt in Hx. unfold since in *; cbn.
        apply Nat.eqb_neq in Hne. rewrite Hne, Nat.eqb_refl. exact Hx.
  Qed.

  Lemma uq_ask_cases :
    match uq_ask q with
    | Ok (u, q') =>
        inv q' (EvAsk u :: tr) /\ (oldest_waiting tr u \/ oldest_evaluating tr u) /\
        exists rest, uq_contents q = u :: rest /\ uq_contents q' = rest ++ [u]
    | Err e => e = RuntimeError /\ uq_told q = [] /\ os_iter (uq_asked q) = []
    end.
  Proof.
    unfold uq_ask. pose proof asked_wf as Hwf.
    destruct (uq_told q) as [|u l] eqn:E.
    - destruct (os_iter (uq_asked q)) as [|u l] eqn:Ea; [easy|].
      split; [|split].
      + apply inv_ask; [|constructor]. rewrite E. cbn. tauto.
      + right. split.
        * intros v t Hv. assert (Hin : In v (uq_told q)) by (apply (inv_told _ _ I); eauto).
          now rewrite E in Hin.
        * pose proof (inv_asked_sorted _ _ I) as Hs. rewrite Ea in Hs.
          assert (Hu : In u (os_iter (uq_asked q))) by (rewrite Ea; now left).
          apply (inv_asked _ _ I) in Hu as [t Hu]. exists t. split; [easy|].
          intros v t' Hv Hne.
          assert (Hin : In v (os_iter (uq_asked q))) by (apply (inv_asked _ _ I); eauto).
          rewrite Ea in Hin. destruct Hin as [->|Hin]; [congruence|].
          inversion Hs as [|? ? _ Hf]; subst. rewrite Forall_forall in Hf.
          specialize (Hf _ Hin). unfold since in Hf. now rewrite Hu, Hv in Hf.
      + exists l. unfold uq_contents. rewrite E. cbn [uq_told uq_asked app].
        rewrite Ea, os_add_iter, Ea by easy. split; [easy|].
        unfold os_wf in Hwf. rewrite Ea in Hwf. inversion Hwf as [|? ? Hni _]; subst.
        cbn. rewrite Nat.eqb_refl. cbn. f_equal.
        clear -Hni. induction l as [|b l IH]; cbn; [easy|].
        destruct (Nat.eqb_spec b u) as [->|]; cbn.
        * exfalso. apply Hni. now left.
        * f_equal. apply IH. intros ?. apply Hni. now right.
    - pose proof (inv_told_sorted _ _ I) as Hs. rewrite E in Hs.
      inversion Hs as [|? ? Hs' Hf]; subst.
      assert (Hu : In u (uq_told q)) by (rewrite E; now left).
      assert (Hni : ~ In u l) by (apply sorted_nodup in Hs; now inversion Hs).
      split; [|split].
      + apply inv_ask; [|easy]. intros v. rewrite E. cbn. split.
        * intros Hv. split; [tauto|]. intros ->. easy.
        * intros [[->|?] ?]; congruence.
      + left. apply (inv_told _ _ I) in Hu as [t Hu]. exists t. split; [easy|].
        intros v t' Hv Hne.
        assert (Hin : In v (uq_told q)) by (apply (inv_told _ _ I); eauto).
        rewrite E in Hin. destruct Hin as [->|Hin]; [congruence|].
        rewrite Forall_forall in Hf. specialize (Hf _ Hin). unfold since in Hf.
        now rewrite Hu, Hv in Hf.
      + exists (l ++ os_iter (uq_asked q)). unfold uq_contents. rewrite E. cbn [uq_told uq_asked].
        split; [easy|]. rewrite os_add_iter by easy.
        rewrite <- app_assoc. f_equal. f_equal.
        assert (Hna : ~ In u (os_iter (uq_asked q))).
        { apply told_asked_disj. exact Hu. }
        clear -Hna. induction (os_iter (uq_asked q)) as [|b m IH]; cbn; [easy|].
        destruct (Nat.eqb_spec b u) as [->|]; cbn.
        * exfalso. apply Hna. now left.
        * f_equal. apply IH. intros ?. apply Hna. now right.
  Qed.

  Lemma inv_tell u : (forall t, status tr u <> Waiting t) ->
    inv (uq_tell u q) (EvTell u :: tr).
  Proof.
    intros Hp. pose proof asked_wf as Hwf.
    assert (Ha : os_iter (uq_asked (uq_tell u q)) = spec_remove u (os_iter (uq_asked q))).
    { unfold uq_tell. cbn [uq_asked]. pose proof (os_discard_spec u (uq_asked q) Hwf) as Hd.
      destruct (os_mem u (uq_asked q)) eqn:E.
      - destruct (os_discard u (uq_asked q)); [tauto|].
        destruct Hd as [Hd _]. exfalso. apply Hd. now apply dmem_in.
      - apply dmem_false in E. fold (os_iter (uq_asked q)) in E.
        symmetry. now apply spec_remove_notin. }
    assert (Hnt : ~ In u (uq_told q)).
    { rewrite (inv_told _ _ I). intros [t Ht]. now apply Hp in Ht. }
    constructor; rewrite ?Ha.
    - intros v. cbn [uq_tell uq_told]. rewrite in_app_iff, (inv_told _ _ I). cbn.
      destruct (Nat.eqb_spec v u) as [->|]; [split; eauto|].
      split; [intros [?|[->|[]]]; tauto|tauto].
    - intros v. rewrite in_spec_remove, (inv_asked _ _ I). cbn.
      destruct (Nat.eqb_spec v u) as [->|]; [|tauto].
      split; [tauto|]. intros [t [=]].
    - cbn [uq_tell uq_told]. apply sorted_snoc.
      + eapply sorted_ext; [|apply (inv_told_sorted _ _ I)].
        intros x y Hx Hy. unfold since; cbn.
        destruct (Nat.eqb_spec x u) as [->|]; [easy|].
        destruct (Nat.eqb_spec y u) as [->|]; [easy|]. easy.
      + apply Forall_forall. intros x Hx. apply told_lt in Hx as Hlt.
        unfold since in *; cbn. rewrite Nat.eqb_refl.
        destruct (Nat.eqb_spec x u) as [->|]; [easy|]. exact Hlt.
    - eapply sorted_ext; [|apply sorted_filter, (inv_asked_sorted _ _ I)].
      intros x y Hx Hy. unfold since; cbn.
      apply in_spec_remove in Hx, Hy. destruct Hx as [_ Hx], Hy as [_ Hy].
      apply Nat.eqb_neq in Hx, Hy. now rewrite Hx, Hy.
  Qed.

  Lemma uq_discard_cases u :
    match uq_discard u q with
    | Ok q' => inv q' (EvDiscard u :: tr) /\ status tr u <> Absent
    | Err e => status tr u = Absent /\ e = ValueError
    end.
  Proof.
    unfold uq_discard. pose proof asked_wf as Hwf.
    pose proof (os_discard_spec u (uq_asked q) Hwf) as Hd.
    destruct (os_mem u (uq_asked q)) eqn:E.
    - assert (Hin : In u (os_iter (uq_asked q))) by now apply dmem_in.
      destruct (os_discard u (uq_asked q)) as [s|e]; [|tauto]. cbn.
      destruct Hd as [_ Hd]. apply (inv_asked _ _ I) in Hin as Hst.
      destruct Hst as [t Hst].
      split; [|congruence].
      constructor; cbn [uq_told uq_asked]; rewrite ?Hd.
      + intros v. rewrite (inv_told _ _ I). cbn.
        destruct (Nat.eqb_spec v u) as [->|]; [|tauto].
        split; intros [t' Ht]; congruence.
      + intros v. rewrite in_spec_remove, (inv_asked _ _ I). cbn.
        destruct (Nat.eqb_spec v u) as [->|]; [|tauto].
        split; [tauto|]. intros [t' Ht]; congruence.
      + eapply sorted_ext; [|apply (inv_told_sorted _ _ I)].
        intros x y Hx Hy. unfold since; cbn.
        destruct (Nat.eqb_spec x u) as [->|]; [now apply told_asked_disj in Hx|].
        destruct (Nat.eqb_spec y u) as [->|]; [now apply told_asked_disj in Hy|]. easy.
      + eapply sorted_ext; [|apply sorted_filter, (inv_asked_sorted _ _ I)].
        intros x y Hx Hy. unfold since; cbn.
        apply in_spec_remove in Hx, Hy. destruct Hx as [_ Hx], Hy as [_ Hy].
        apply Nat.eqb_neq in Hx, Hy. now rewrite Hx, Hy.
    - apply dmem_false in E. fold (os_iter (uq_asked q)) in E.
      pose proof (list_remove1_spec u (uq_told q)
                    (sorted_nodup _ _ (inv_told_sorted _ _ I))) as Hr.
      destruct (list_remove1 u (uq_told q)) as [l|].
      + destruct Hr as [Hin ->]. apply (inv_told _ _ I) in Hin as Hst.
        destruct Hst as [t Hst]. split; [|congruence].
        constructor; cbn [uq_told uq_asked].
        * intros v. rewrite in_spec_remove, (inv_told _ _ I). cbn.
          destruct (Nat.eqb_spec v u) as [->|]; [|tauto].
          split; [tauto|]. intros [t' Ht]; congruence.
        * intros v. rewrite (inv_asked _ _ I). cbn.
          destruct (Nat.eqb_spec v u) as [->|]; [|tauto].
          split; intros [t' Ht]; congruence.
        * eapply sorted_ext; [|apply sorted_filter, (inv_told_sorted _ _ I)].
          intros x y Hx Hy. unfold since; cbn.
          apply in_spec_remove in Hx, Hy. destruct Hx as [_ Hx], Hy as [_ Hy].
          apply Nat.eqb_neq in Hx, Hy. now rewrite Hx, Hy.
        * eapply sorted_ext; [|apply (inv_asked_sorted _ _ I)].
          intros x y Hx Hy. unfold since; cbn.
          destruct (Nat.eqb_spec x u) as [->|]; [easy|].
          destruct (Nat.eqb_spec y u) as [->|]; [easy|]. easy.
      + split; [|easy]. destruct (status tr u) as [|t|t] eqn:Es; [easy| |]; exfalso.
        * apply Hr. apply (inv_told _ _ I). eauto.
        * apply E. apply (inv_asked _ _ I). eauto.
  Qed.

  Lemma inv_clear : inv (uq_clear q) (EvClear :: tr).
  Proof.
    constructor; cbn; try (now constructor); intros u; (split; [easy|intros [t [=]]]).
  Qed.
End Step.

Lemma inv_init : inv uq_empty [].
Proof. constructor; cbn; try (now constructor); intros u; (split; [easy|intros [t [=]]]). Qed.

Lemma reach_inv q tr : uq_reach q tr -> inv q tr.
Proof.
  induction 1 as [|q tr o q' out Hr IH Hp Hs]; [apply inv_init|].
  destruct o as [|u|u|]; cbn [uq_step] in Hs.
  - pose proof (uq_ask_cases _ _ IH) as Ha.
    destruct (uq_ask q) as [[u q1]|e]; injection Hs as <- <-; cbn; [tauto|easy].
  - injection Hs as <- <-. cbn. apply inv_tell; [easy|]. intros t. now apply Hp.
  - pose proof (uq_discard_cases _ _ IH u) as Hd.
    destruct (uq_discard u q) as [q1|e]; injection Hs as <- <-; cbn; [tauto|easy].
  - injection Hs as <- <-. cbn. now apply inv_clear.
Qed.

Lemma reach_ask q tr : uq_reach q tr ->
  (exists u q', uq_step q QAsk = (q', OUid u) /\ (oldest_waiting tr u \/ oldest_evaluating tr u))
  \/ (uq_step q QAsk = (q, OErr RuntimeError) /\ forall u, status tr u = Absent).
Proof.
  intros H%reach_inv. cbn. pose proof (uq_ask_cases _ _ H) as Ha.
  destruct (uq_ask q) as [[u q1]|e].
  - left. exists u, q1. tauto.
  - right. destruct Ha as (-> & Ht & Hk). split; [easy|]. intros u.
    destruct (status tr u) as [|t|t] eqn:Es; [easy| |]; exfalso.
    + assert (Hin : In u (uq_told q)) by (apply (inv_told _ _ H); eauto). now rewrite Ht in Hin.
    + assert (Hin : In u (os_iter (uq_asked q))) by (apply (inv_asked _ _ H); eauto).
      now rewrite Hk in Hin.
Qed.

Lemma reach_contents q tr : uq_reach q tr ->
  NoDup (uq_contents q) /\
  (forall u, In u (uq_told q) <-> exists t, status tr u = Waiting t) /\
  (forall u, In u (os_iter (uq_asked q)) <-> exists t, status tr u = Evaluating t).
Proof.
  intros H%reach_inv. split; [|split; [apply (inv_told _ _ H)|apply (inv_asked _ _ H)]].
  apply NoDup_app_intro.
  - eapply sorted_nodup, (inv_told_sorted _ _ H).
  - eapply sorted_nodup, (inv_asked_sorted _ _ H).
  - intros u Hu. now apply (told_asked_disj _ _ H).
Qed.

Lemma reach_discard q tr u : uq_reach q tr ->
  (status tr u <> Absent /\ exists q', uq_step q (QDiscard u) = (q', ONone)) \/
  (status tr u = Absent /\ uq_step q (QDiscard u) = (q, OErr ValueError)).
Proof.
  intros H%reach_inv. cbn. pose proof (uq_discard_cases _ _ H u) as Hd.
  destruct (uq_discard u q) as [q1|e].
  - left. split; [tauto|eauto].
  - right. destruct Hd as [Hd ->]. easy.
Qed.

(** [n] asks rotate the contents. *)
Lemma asks_rotate n q tr l r : uq_reach q tr ->
  uq_contents q = l ++ r -> length l = n -> asks n q = map OUid l.
Proof.
  revert q tr l r. induction n as [|n IH]; intros q tr l r Hr Hc Hl.
  - destruct l; [easy|cbn in Hl; lia].
  - destruct l as [|u l]; cbn in Hl; [lia|].
    pose proof (uq_ask_cases _ _ (reach_inv _ _ Hr)) as Ha. cbn [asks uq_step].
    destruct (uq_ask q) as [[u' q1]|e] eqn:E.
    + destruct Ha as (_ & _ & rest & Hc1 & Hc2).
      rewrite Hc in Hc1. cbn in Hc1. injection Hc1 as <- <-. cbn. f_equal.
      apply (IH q1 (event_of QAsk (OUid u) ++ tr) l (r ++ [u])).
      * apply (uq_reach_step q tr QAsk q1 (OUid u) Hr); [discriminate|].
        cbn. now rewrite E.
      * rewrite Hc2. now rewrite <- app_assoc.
      * lia.
    + destruct Ha as (_ & Ht & Hk). unfold uq_contents in Hc. rewrite Ht, Hk in Hc. easy.
Qed.

Lemma reach_cycle q tr : uq_reach q tr ->
  asks (length (uq_contents q)) q = map OUid (uq_contents q).
Proof.
  intros H. apply (asks_rotate _ q tr _ []); [easy|now rewrite app_nil_r|easy].
Qed.

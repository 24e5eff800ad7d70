(** Generic lemmas on association lists and lists. *)
From Coq Require Import List Arith Bool Lia.
From Verif.Model Require Import Prelude.
Import ListNotations.

Section Dict.
  Context {V : Type}.
  Implicit Types d : list (nat * V).

  Lemma dget_some_in k v d : dget k d = Some v -> In (k, v) d.
  Proof.
    induction d as [|[k' v'] d IH]; cbn [dget]; [discriminate|].
    destruct (Nat.eqb_spec k k') as [->|].
    - intros [= ->]. now left.
    - intros H. right. auto.
  Qed.

  Lemma dget_none k d : dget k d = None <-> ~ In k (dkeys d).
  Proof.
    induction d as [|[k' v'] d IH]; cbn; [tauto|].
    destruct (Nat.eqb_spec k k') as [->|]; split; intros H; try discriminate.
    - exfalso. apply H. now left.
    - intros [->|Hin]; [congruence|]. now apply IH in H.
    - apply IH. tauto.
  Qed.

  Lemma dmem_in k d : dmem k d = true <-> In k (dkeys d).
  Proof.
    unfold dmem. destruct (dget k d) as [v|] eqn:E; split; intros H; try easy.
    - apply dget_some_in in E. apply (in_map fst) in E. exact E.
    - now apply dget_none in E.
  Qed.

  Lemma dmem_false k d : dmem k d = false <-> ~ In k (dkeys d).
  Proof. rewrite <- dmem_in. destruct (dmem k d); split; congruence. Qed.

  Lemma dget_in_nodup k v d : NoDup (dkeys d) -> In (k, v) d -> dget k d = Some v.
  Proof.
    induction d as [|[k' v'] d IH]; cbn; [easy|].
    intros Hnd [[= -> ->]|Hin].
    - now rewrite Nat.eqb_refl.
    - inversion Hnd as [|? ? Hni Hnd']; subst.
      destruct (Nat.eqb_spec k k') as [->|]; [|auto].
      exfalso. apply Hni. now apply (in_map fst) in Hin.
  Qed.

  Lemma dset_keys_old k v d : In k (dkeys d) -> dkeys (dset k v d) = dkeys d.
  Proof.
    induction d as [|[k' v'] d IH]; cbn; [easy|].
    destruct (Nat.eqb_spec k k') as [->|]; [easy|].
    intros [->|H]; [congruence|]. cbn. f_equal. now apply IH.
  Qed.

  Lemma dset_new k v d : ~ In k (dkeys d) -> dset k v d = d ++ [(k, v)].
  Proof.
    induction d as [|[k' v'] d IH]; cbn; [easy|].
    intros H. destruct (Nat.eqb_spec k k') as [->|]; [tauto|].
    f_equal. apply IH. tauto.
  Qed.

  Lemma dget_dset k k' v d :
    dget k (dset k' v d) = if Nat.eqb k k' then Some v else dget k d.
  Proof.
    induction d as [|[k2 v2] d IH]; cbn.
    - destruct (Nat.eqb_spec k k'); reflexivity.
    - destruct (Nat.eqb_spec k' k2) as [->|Hne]; cbn.
      + destruct (Nat.eqb_spec k k2); reflexivity.
      + rewrite IH. destruct (Nat.eqb_spec k k2) as [->|]; [|reflexivity].
        destruct (Nat.eqb_spec k2 k') as [->|]; [congruence|reflexivity].
  Qed.

  Lemma ddel_notin k d : ~ In k (dkeys d) -> ddel k d = d.
  Proof.
    induction d as [|[k' v'] d IH]; cbn; [easy|]. intros H.
    destruct (Nat.eqb_spec k k') as [->|]; [tauto|]. f_equal. apply IH. tauto.
  Qed.

  Lemma ddel_filter k d : NoDup (dkeys d) ->
    ddel k d = filter (fun kv => negb (Nat.eqb (fst kv) k)) d.
  Proof.
    induction d as [|[k' v'] d IH]; cbn; [easy|]. intros Hnd.
    inversion Hnd as [|? ? Hni Hnd']; subst.
    rewrite (Nat.eqb_sym k' k).
    destruct (Nat.eqb_spec k k') as [->|]; cbn.
    - rewrite <- IH by assumption. symmetry. now apply ddel_notin.
    - f_equal. auto.
  Qed.

  Lemma ddel_keys k d : NoDup (dkeys d) ->
    dkeys (ddel k d) = filter (fun x => negb (Nat.eqb x k)) (dkeys d).
  Proof.
    intros H. rewrite ddel_filter by assumption.
    induction d as [|[k' v'] d IH]; cbn; [easy|].
    inversion H; subst.
    destruct (negb (k' =? k)); cbn; [f_equal|]; auto.
  Qed.

  Lemma ddel_keys_nodup k d : NoDup (dkeys d) -> NoDup (dkeys (ddel k d)).
  Proof. intros H. rewrite ddel_keys by assumption. now apply NoDup_filter. Qed.

  Lemma dset_keys_nodup k v d : NoDup (dkeys d) -> NoDup (dkeys (dset k v d)).
  Proof.
    intros H. destruct (in_dec Nat.eq_dec k (dkeys d)) as [Hin|Hni].
    - now rewrite dset_keys_old.
    - rewrite dset_new by assumption. unfold dkeys. rewrite map_app. cbn.
      apply NoDup_rev in H. rewrite <- (rev_involutive (map fst d ++ [k])).
      apply NoDup_rev. rewrite rev_app_distr. cbn. constructor; [|exact H].
      now rewrite <- in_rev.
  Qed.

  Lemma dget_ddel k k' d : NoDup (dkeys d) ->
    dget k (ddel k' d) = if Nat.eqb k k' then None else dget k d.
  Proof.
    induction d as [|[k2 v2] d IH]; cbn; intros H.
    - now destruct (k =? k').
    - inversion H as [|? ? Hni Hnd]; subst.
      destruct (Nat.eqb_spec k' k2) as [->|Hne]; cbn.
      + destruct (Nat.eqb_spec k k2) as [->|]; [|reflexivity].
        now apply dget_none.
      + rewrite IH by assumption.
        destruct (Nat.eqb_spec k k2) as [->|]; [|reflexivity].
        destruct (Nat.eqb_spec k2 k') as [->|]; [congruence|reflexivity].
  Qed.
End Dict.

Lemma NoDup_app_intro {A} (l1 l2 : list A) :
  NoDup l1 -> NoDup l2 -> (forall x, In x l1 -> ~ In x l2) -> NoDup (l1 ++ l2).
Proof.
  induction l1 as [|a l1 IH]; cbn; [easy|].
  intros H1 H2 H. inversion H1; subst. constructor.
  - rewrite in_app_iff. intros [?|?]; [easy|]. eapply H; eauto.
  - apply IH; auto.
Qed.

Lemma NoDup_app_snoc {A} (l : list A) x : NoDup l -> ~ In x l -> NoDup (l ++ [x]).
Proof.
  intros. apply NoDup_app_intro; [easy|repeat constructor; easy|].
  intros y Hy [->|[]]. easy.
Qed.

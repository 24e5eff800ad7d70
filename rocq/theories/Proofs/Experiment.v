(** Proofs about experiments *)
From Coq Require Import Arith ZArith QArith Bool List Lia.
From Verif.Model Require Import Prelude Experiment.
From Verif.Spec Require Import Experiment.
From Verif.Proofs Require Import Prelude.
Import ListNotations.
Open Scope nat_scope.

Lemma value_eqb_eq a b : value_eqb a b = true <-> a = b.
Proof.
  destruct a as [u|], b as [v|]; cbn; split; intros H; try discriminate; try reflexivity.
  - apply Nat.eqb_eq in H. now subst.
  - injection H as ->. apply Nat.eqb_refl.
Qed.
Lemma dict_eqb_eq d e : dict_eqb d e = true <-> same_items d e.
Proof.
  unfold dict_eqb, same_items. rewrite andb_true_iff, !forallb_forall. split.
  - intros (H1 & H2) k. destruct (in_dec Nat.eq_dec k (dkeys d)) as [I|I]; [now apply value_eqb_eq, H1|].
    destruct (in_dec Nat.eq_dec k (dkeys e)) as [J|J]; [now apply value_eqb_eq, H2|].
    apply dget_none in I, J. congruence.
  - intros H. split; intros k _; now apply value_eqb_eq.
Qed.
Lemma equivalent_alike f g : equivalent_to f g = true <-> alike f g.
Proof.
  unfold equivalent_to, alike. destruct (Nat.eqb_spec (f_class g) (f_class f)) as [E|E]; cbn [negb].
  - rewrite andb_true_iff, dict_eqb_eq, Nat.eqb_eq. intuition.
  - split; [discriminate|]. intros (H & _). congruence.
Qed.
(** the last value given to a key *)
Lemma dget_update d e k : dget k (update d e) = match dget k (rev e) with Some v => Some v | None => dget k d end.
Proof.
  unfold update. revert d. induction e as [|(k' & v) e IH]; intros d; cbn [fold_left rev fst snd]; [reflexivity|].
  rewrite IH, dget_dset. assert (A : forall l, dget k (l ++ [(k', v)]) = match dget k l with Some u => Some u | None => if k =? k' then Some v else None end).
  { induction l as [|(a & b) l IHl]; cbn [app dget]; [reflexivity|]. destruct (k =? a); [reflexivity|exact IHl]. }
  rewrite A. destruct (dget k (rev e)); [reflexivity|]. now destruct (k =? k').
Qed.
Lemma dget_rev_nodup (d : ndict) k : NoDup (dkeys d) -> dget k (rev d) = dget k d.
Proof.
  intros N. assert (N' : NoDup (dkeys (rev d))) by (unfold dkeys; rewrite map_rev; now apply NoDup_rev).
  destruct (dget k d) as [v|] eqn:E.
  - apply dget_some_in in E. apply dget_in_nodup; [exact N'|]. now apply -> in_rev.
  - apply dget_none. apply dget_none in E. unfold dkeys in *. rewrite map_rev. intros H. apply E. now apply in_rev.
Qed.
Lemma update_nodup d e : NoDup (dkeys d) -> NoDup (dkeys (update d e)).
Proof.
  unfold update. revert d. induction e as [|(k & v) e IH]; intros d H; cbn [fold_left]; [exact H|]. apply IH. cbn. now apply dset_keys_nodup.
Qed.
Lemma dget_filter (d : ndict) p k : NoDup (dkeys d) -> dget k (filter (fun kv => p (fst kv)) d) = if p k then dget k d else None.
Proof.
  intros N. induction d as [|(k' & v) d IH]; [now destruct (p k)|]. inversion_clear N as [|? ? N1 N2]. specialize (IH N2). cbn [filter fst].
  destruct (p k') eqn:P; cbn [dget].
  - destruct (Nat.eqb_spec k k') as [->|]; [now rewrite P|exact IH].
  - rewrite IH. destruct (Nat.eqb_spec k k') as [->|]; [|reflexivity]. now rewrite P.
Qed.
Lemma filter_nodup (d : ndict) p : NoDup (dkeys d) -> NoDup (dkeys (filter p d)).
Proof.
  intros N. induction d as [|kv d IH]; [constructor|]. inversion_clear N as [|? ? N1 N2]. cbn [filter]. destruct (p kv); [|auto].
  constructor; [|auto]. intros H. apply N1. unfold dkeys in *. apply in_map_iff in H as (x & E & I). apply filter_In in I as (I & _). apply in_map_iff. eauto.
Qed.
Lemma dget_descriptors f k : dget k (descriptors f) =
  if k =? k_dimension then Some (p_dim (f_param f)) else if k =? k_parametrization then Some (p_name (f_param f)) else dget k (f_desc f).
Proof.
  unfold descriptors. rewrite dget_update. cbn [rev app dget]. destruct (k =? k_dimension); [reflexivity|]. now destruct (k =? k_parametrization).
Qed.
Definition wf (f : efunction) : Prop := NoDup (dkeys (f_desc f)).

Section Copy.
  Variable construct : nat -> ndict -> result efunction.
  Lemma added out f k : wf f ->
    dget k (f_desc (add_descriptors out (filter (fun kv => negb (existsb (Nat.eqb (fst kv)) (dkeys (descriptors out)))) (descriptors f)))) =
    match dget k (descriptors out) with Some _ => dget k (f_desc out) | None => dget k (descriptors f) end.
  Proof.
    intros W. unfold add_descriptors. cbn [f_desc with_desc]. rewrite dget_update.
    set (p := fun k => negb (existsb (Nat.eqb k) (dkeys (descriptors out)))).
    change (fun kv : nat * nat => negb (existsb (Nat.eqb (fst kv)) (dkeys (descriptors out)))) with (fun kv : nat * nat => p (fst kv)).
    assert (N : NoDup (dkeys (descriptors f))) by (unfold descriptors; now apply update_nodup).
    rewrite dget_rev_nodup by now apply filter_nodup. rewrite dget_filter by exact N.
    assert (P : p k = match dget k (descriptors out) with Some _ => false | None => true end).
    { unfold p. destruct (dget k (descriptors out)) as [v|] eqn:E.
      - apply negb_false_iff, existsb_exists. exists k. split; [|apply Nat.eqb_refl]. apply dget_some_in in E. apply (in_map fst) in E. exact E.
      - apply negb_true_iff. destruct (existsb _ _) eqn:X; [|reflexivity]. apply existsb_exists in X as (k' & I & Ek). apply Nat.eqb_eq in Ek. subst k'.
        apply dget_none in E. now apply E in I. }
    rewrite P. destruct (dget k (descriptors out)) as [v|] eqn:E; [reflexivity|].
    rewrite dget_descriptors in E. destruct (k =? k_dimension); [discriminate|]. destruct (k =? k_parametrization); [discriminate|].
    rewrite E. destruct (dget k (descriptors f)); reflexivity.
  Qed.
  Lemma copy_spec f : records construct -> wf f ->
    match copy construct f with
    | Ok g => alike g f /\ wf g /\ p_flags (f_param g) = p_flags (f_param f) /\ p_checkers (f_param g) = p_checkers (f_param f) /\ f_upper g = f_upper f /\
              exists out, construct (f_class f) (f_init f) = Ok out /\ consistent out f /\ f_init g = f_init f /\
                p_dim (f_param g) = if p_name (f_param out) =? p_name (f_param f) then p_dim (f_param out) else p_dim (f_param f)
    | Err e => construct (f_class f) (f_init f) = Err e \/
               (e = CopyError /\ exists out, construct (f_class f) (f_init f) = Ok out /\ ~ consistent out f)
    end.
  Proof.
    intros Hrec W. unfold copy, internal_copy. destruct (construct (f_class f) (f_init f)) as [out|e] eqn:E; [|cbn; now left]. cbn [bind].
    destruct (Hrec _ _ _ E) as (Ec & Ei & Eu).
    set (o1 := add_descriptors out _).
    assert (D : forall k, dget k (f_desc o1) = match dget k (descriptors out) with Some _ => dget k (f_desc out) | None => dget k (descriptors f) end) by (intros k; now apply added).
    set (o2 := if p_name (f_param o1) =? p_name (f_param f) then o1 else with_param o1 (f_param f)).
    set (o3 := with_param o2 _).
    assert (C3 : f_class o3 = f_class f) by (unfold o3, o2; destruct (_ =? _); cbn; exact Ec).
    assert (D3 : f_desc o3 = f_desc o1) by (unfold o3, o2; destruct (_ =? _); reflexivity).
    assert (N3 : p_name (f_param o3) = p_name (f_param f)) by (unfold o3, o2; destruct (Nat.eqb_spec (p_name (f_param o1)) (p_name (f_param f))) as [e0|e0]; [exact e0|reflexivity]).
    assert (Co : same_items (f_desc o3) (f_desc f) <-> consistent out f).
    { unfold same_items, consistent. rewrite D3. split; intros H.
      - intros k. specialize (H k). rewrite D, dget_descriptors in H. destruct (dget k (f_desc out)) as [v|] eqn:Eo.
        + destruct (k =? k_dimension); [now symmetry|]. destruct (k =? k_parametrization); now symmetry.
        + intros [->| ->]; cbn in H; now symmetry.
      - intros k. specialize (H k). rewrite D, dget_descriptors. destruct (dget k (f_desc out)) as [v|] eqn:Eo.
        + destruct (k =? k_dimension); [now symmetry|]. destruct (k =? k_parametrization); now symmetry.
        + destruct (Nat.eqb_spec k k_dimension) as [->|n1]; [symmetry; apply H; now right|].
          destruct (Nat.eqb_spec k k_parametrization) as [->|n2]; [symmetry; apply H; now left|].
          rewrite dget_descriptors. apply Nat.eqb_neq in n1, n2. now rewrite n1, n2. }
    destruct (equivalent_to o3 f) eqn:Eq; cbn [negb].
    - apply equivalent_alike in Eq. split; [|split; [|split; [|split; [|split]]]].
      + destruct Eq as (A1 & A2 & A3). unfold alike. cbn. auto.
      + change (NoDup (dkeys (f_desc o3))). rewrite D3. unfold o1, add_descriptors. cbn [f_desc with_desc]. now apply update_nodup.
      + cbn. reflexivity.
      + cbn. reflexivity.
      + reflexivity.
      + exists out. split; [reflexivity|]. split; [apply Co; apply Eq|]. split.
        * cbn. unfold o3, o2. destruct (_ =? _); cbn; exact Ei.
        * cbn. unfold o3, o2. cbn [f_param with_param p_name o1 add_descriptors with_desc]. destruct (p_name (f_param out) =? p_name (f_param f)); reflexivity.
    - right. split; [reflexivity|]. exists out. split; [reflexivity|]. intros H. apply Co in H.
      assert (T : equivalent_to o3 f = true) by (apply equivalent_alike; unfold alike; auto). congruence.
  Qed.
End Copy.

Lemma log_spec ev x : let '(x', raised) := log_results ev x in
  x_budget x' = x_budget x /\ x_checkers x' = x_checkers x /\ x_started x' = x_started x /\ r_error (x_result x') = r_error (x_result x) /\
  match e_loss ev with
  | Err e => raised = Some e /\ r_loss (x_result x') = r_loss (x_result x) /\ r_budget (x_result x') = r_budget (x_result x)
  | Ok l => forall b, violates ev x b ->
      r_loss (x_result x') = Some (if b && x_penalize x then l + 1000000000 else l)%Q /\ r_budget (x_result x') = Some (e_num_ask ev) /\
      raised = if x_budget x <? e_num_ask ev then Some RuntimeError else None
  end.
Proof.
  unfold log_results. destruct (e_loss ev) as [l|e]; [|cbn; auto 10]. unfold violates.
  destruct (e_violation ev) as [[|]|e].
  - cbn. destruct (x_penalize x); cbn; (do 4 (split; [reflexivity|])); intros b [(_ & ->)|[(H & _)|(H & _)]]; try discriminate; auto.
  - destruct (Nat.ltb_spec 0 (x_checkers x)) as [H|H].
    + destruct (e_unsatisfied ev) as [b'|e].
      * destruct b'; cbn; destruct (x_penalize x); cbn; (do 4 (split; [reflexivity|]));
          intros b [(H1 & _)|[(_ & H1 & _)|(_ & _ & H1)]]; try discriminate; try lia; injection H1 as <-; auto.
      * cbn. do 4 (split; [reflexivity|]). intros b [(H1 & _)|[(_ & H1 & _)|(_ & _ & H1)]]; try discriminate; lia.
    + cbn. do 4 (split; [reflexivity|]). intros b [(H1 & _)|[(_ & _ & H1)|(_ & H1 & _)]]; try discriminate; [subst b; cbn; auto|lia].
  - cbn. do 4 (split; [reflexivity|]). intros b [(H1 & _)|[(H1 & _)|(H1 & _)]]; discriminate.
Qed.

(** Lemmas on the wrapper of Pyomo models. *)
From Coq Require Import String Ascii List Arith ZArith QArith Bool Lqa Lia.
From Verif.Model Require Import Prelude MultiValue PyomoModel.
From Verif.Spec Require Import PyomoModel.
From Verif.Proofs Require Import Prelude MultiValue.
Import ListNotations.
Open Scope nat_scope.

Section Near.
  Variable repr : Q -> Prop.
  Variable up down : Q -> Q.
  Hypothesis N : neighbours repr up down.
  Open Scope Q_scope.
  Lemma next_above x t : x < t -> nextafter up down x t = up x.
  Proof. intros H. unfold nextafter. apply qlt_iff in H. now rewrite H. Qed.
  Lemma next_below x t : t < x -> nextafter up down x t = down x.
  Proof.
    intros H. unfold nextafter. assert (K : qlt x t = false) by (apply qlt_false; lra).
    apply qlt_iff in H. now rewrite K, H.
  Qed.
  Lemma next_le x t : t <= x -> nextafter up down x t <= x.
  Proof.
    intros H. unfold nextafter. assert (K : qlt x t = false) by (apply qlt_false; lra).
    rewrite K. destruct (qlt t x) eqn:E; [|lra]. destruct (N x) as (_ & K2 & _). lra.
  Qed.
  Lemma next_ge x t : x <= t -> x <= nextafter up down x t.
  Proof.
    intros H. unfold nextafter. destruct (qlt x t) eqn:E.
    - destruct (N x) as (K & _). lra.
    - apply qlt_false in E. destruct (qlt t x) eqn:E2; [apply qlt_iff in E2; lra|lra].
  Qed.
End Near.

Lemma scalar_of up down r : (0 <= r_step r)%Z -> (r_step r <= 1)%Z ->
  range_to_scalar up down [r] = Ok (mkScalar (shrink up down (r_start r) (fst (r_closed r)) 1)
    (shrink up down (r_end r) (snd (r_closed r)) (-1)) (Z.eqb (r_step r) 1)).
Proof.
  intros H1 H2. unfold range_to_scalar. assert (E : r_step r = 0%Z \/ r_step r = 1%Z) by lia.
  destruct E as [E|E]; rewrite E; reflexivity.
Qed.

(** Assignments. *)
Lemma assign_ok args keys : forall values, (forall k, In k keys -> In k (map fst args)) ->
  exists v, assign keys args values = Ok v
    /\ (forall k, In k keys -> dget k v = dget k args) /\ (forall k, ~ In k keys -> dget k v = dget k values).
Proof.
  induction keys as [|a keys IH]; intros values H; cbn [assign].
  - exists values. split; [reflexivity|]. split; [intros k []|auto].
  - destruct (dget a args) as [x|] eqn:E.
    + destruct (IH (dset a x values) (fun k K => H k (or_intror K))) as (v & E2 & A & B).
      exists v. split; [exact E2|]. split.
      * intros k [<-|K]; [|auto]. destruct (in_dec Nat.eq_dec a keys) as [K|K]; [auto|].
        rewrite (B a K), dget_dset, Nat.eqb_refl. congruence.
      * intros k K. rewrite B; [|intros J; apply K; now right]. rewrite dget_dset.
        destruct (Nat.eqb_spec k a) as [->|]; [|reflexivity]. destruct K; now left.
    + apply dget_none in E. destruct E. apply (H a). now left.
Qed.

Section Calls.
  Variable name : nat -> string.
  Variable objective : (nat -> option Q) -> Q.
  Variable direction : sense.
  Variable constraints : list constr.
  Variable vars : list nat.
  Hypothesis Names : forall k, In k vars -> has_char squote (name k) = false.

  Definition sound (m : instance) : Prop :=
    match i_code m with None => True | Some c => forall k, In k c <-> In k vars end.

  Lemma value_assignment_ok args m : full vars args -> sound m ->
    exists m', value_assignment name args m = Ok m' /\ sound m' /\ i_code m' <> None
      /\ (forall k, In k vars -> dget k (i_values m') = dget k args).
  Proof.
    intros [ND F] S. unfold value_assignment. cbv zeta.
    set (keys := match i_code m with Some c => c | None => dkeys args end).
    assert (K : forall k, In k keys <-> In k vars).
    { unfold keys, sound in *. destruct (i_code m); [exact S|]. intros k. unfold dkeys. symmetry. apply F. }
    replace (match i_code m with Some _ => true | None => compiles name keys end) with true.
    - destruct (assign_ok args keys (i_values m)) as (v & E & A & _).
      + intros k H. apply F, K, H.
      + rewrite E. cbn. eexists; split; [reflexivity|]. cbn. split; [exact K|]. split; [discriminate|].
        intros k H. apply A, K, H.
    - destruct (i_code m); [reflexivity|]. symmetry. unfold compiles. apply forallb_forall.
      intros k H. apply K in H. now rewrite (Names k H).
  Qed.
  Lemma all_hold_forallb l env : all_hold l env = forallb (fun c => c env) l.
  Proof. induction l as [|c l IH]; cbn; [reflexivity|]. destruct (c env); [exact IH|reflexivity]. Qed.

  Lemma objective_ok args m : full vars args -> sound m -> reads vars objective ->
    exists m', call_objective name objective direction args m
      = Ok ((match direction with Minimize => objective (value_of args) * 1
             | Maximize => objective (value_of args) * -1 end)%Q, m') /\ sound m'.
  Proof.
    intros F S R0. destruct (value_assignment_ok args m F S) as (m' & E & S' & _ & A).
    unfold call_objective. rewrite E. cbn. exists m'. split; [|exact S'].
    rewrite (R0 (fun k => dget k (i_values m')) (value_of args)); [reflexivity|]. exact A.
  Qed.
  Lemma constraint_ok i args m : full vars args -> sound m -> i < length constraints ->
    exists b m', call_constraint name constraints i args m = Ok (b, m') /\ sound m'
      /\ (forall c, nth_error constraints i = Some (Simple c) -> reads vars c -> b = c (value_of args))
      /\ (forall l, nth_error constraints i = Some (Indexed l) -> Forall (reads vars) l ->
            (b = true <-> Forall (fun c => c (value_of args) = true) l)).
  Proof.
    intros F S L. destruct (value_assignment_ok args m F S) as (m' & E & S' & _ & A).
    unfold call_constraint. rewrite E. cbn.
    destruct (nth_error constraints i) as [[c|l]|] eqn:N; [| |apply nth_error_None in N; exfalso; apply (Nat.lt_irrefl i); now apply Nat.lt_le_trans with (length constraints)].
    - eexists _, m'. split; [reflexivity|]. split; [exact S'|]. split.
      + intros c' H R0. inversion H; subst. apply R0. exact A.
      + intros l H. discriminate.
    - eexists _, m'. split; [reflexivity|]. split; [exact S'|]. split; [intros c H; discriminate|].
      intros l' H R0. inversion H; subst. rewrite all_hold_forallb, forallb_forall.
      rewrite Forall_forall in *. split; intros K c J; rewrite <- (K c J); [symmetry|]; apply (R0 c J); exact A.
  Qed.

  Lemma history_ok l : forall m, sound m -> reads vars objective ->
    Forall (fun r => full vars (request_args r) /\ match r with RConstraint i _ => i < length constraints | _ => True end) l ->
    exists m', history name objective direction constraints l m = Ok m' /\ sound m'.
  Proof.
    induction l as [|r l IH]; intros m S R0 H; cbn; [exists m; auto|]. inversion H as [|? ? [F L] H']; subst.
    destruct r as [args|i args]; cbn in F.
    - destruct (objective_ok args m F S R0) as (m' & E & S'). unfold perform. rewrite E. cbn. apply IH; auto.
    - destruct (constraint_ok i args m F S L) as (b & m' & E & S' & _). unfold perform. rewrite E. cbn. apply IH; auto.
  Qed.
End Calls.

(** Names. *)
Open Scope string_scope.
Lemma has_char_app c a b : has_char c (a ++ b) = (has_char c a || has_char c b)%bool.
Proof. induction a as [|x a IH]; cbn; [reflexivity|]. now rewrite IH, orb_assoc. Qed.
Lemma repr_str_quote s : has_char squote (repr_str s) = true.
Proof.
  unfold repr_str. destruct (has_char squote s) eqn:E; cbn [andb].
  - destruct (negb (has_char dquote s)); cbn -[squote]; rewrite ?has_char_app, E; cbn; reflexivity.
  - reflexivity.
Qed.
Lemma concat_quote str_int l s : In (KStr s) l ->
  has_char squote (String.concat ", " (map (repr_key str_int) l)) = true.
Proof.
  induction l as [|k l IH]; intros H; [destruct H|]. cbn [map].
  destruct l as [|k' l]; cbn [map String.concat] in *.
  - destruct H as [->|[]]. apply repr_str_quote.
  - rewrite has_char_app. destruct H as [->|H]; [cbn [repr_key]; now rewrite repr_str_quote|].
    rewrite has_char_app, IH; [now rewrite !orb_true_r|exact H].
Qed.
Lemma tuple_quote str_int var l s : In (KStr s) l -> has_char squote (param_name str_int var (KTuple l)) = true.
Proof.
  intros H. unfold param_name, ng_name. cbn [repr_key]. rewrite !has_char_app, (concat_quote str_int l s H).
  now rewrite ?orb_true_l, ?orb_true_r.
Qed.
Lemma append_inj_l (a b c : string) : a ++ b = a ++ c -> b = c.
Proof. induction a as [|x a IH]; cbn; intros H; [exact H|]. inversion H; auto. Qed.
Lemma append_inj_r (c a b : string) : String.length c = 1%nat -> a ++ c = b ++ c -> a = b.
Proof.
  intros L. revert b. induction a as [|x a IH]; intros b H; destruct b as [|y b]; cbn in H; [reflexivity| | |].
  - exfalso. apply (f_equal String.length) in H. cbn in H. rewrite L in H.
    revert H. clear - L. assert (K : forall u, String.length (u ++ c) = (String.length u + 1)%nat).
    { induction u as [|z u IH]; cbn; [exact L|]. now rewrite IH. } rewrite K. rewrite Nat.add_1_r. discriminate.
  - exfalso. apply (f_equal String.length) in H. cbn in H. rewrite L in H.
    revert H. clear - L. assert (K : forall u, String.length (u ++ c) = (String.length u + 1)%nat).
    { induction u as [|z u IH]; cbn; [exact L|]. now rewrite IH. } rewrite K. rewrite Nat.add_1_r. discriminate.
  - inversion H; subst. f_equal. auto.
Qed.

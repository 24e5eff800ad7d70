From Coq Require Import Bool Arith List String ZArith Lia Sorting.Permutation.
From Verif Require Import Model.Prelude Model.OptGroups Spec.OptGroups.
Import ListNotations.
Open Scope nat_scope.
Open Scope list_scope.

Lemma NoDup_app_snoc {A} (l : list A) a : NoDup l -> ~ In a l -> NoDup (l ++ [a]).
Proof. intros N NI. apply (Permutation_NoDup (Permutation_cons_append l a)). now constructor. Qed.

Section G.
Variable O : Type.
Variable eqb : O -> O -> bool.
Hypothesis eqb_ok : forall a b, eqb a b = true <-> a = b.
Notation add := (add O eqb).

Lemma exists_in o l : existsb (eqb o) l = true <-> In o l.
Proof.
  rewrite existsb_exists. split; [intros (x & I & E); apply eqb_ok in E; now subst|]. intros I. exists o. split; [assumption|now apply eqb_ok].
Qed.
Lemma add_in l o : In o l -> add l o = l.
Proof. intros I. unfold OptGroups.add. apply exists_in in I. now rewrite I. Qed.
Lemma add_new l o : ~ In o l -> add l o = l ++ [o].
Proof. intros N. unfold OptGroups.add. destruct (existsb (eqb o) l) eqn:E; [|reflexivity]. exfalso. now apply N, exists_in. Qed.
Lemma dec (o : O) l : In o l \/ ~ In o l.
Proof. destruct (existsb (eqb o) l) eqn:E; [left; now apply exists_in|right; intros I; apply exists_in in I; congruence]. Qed.

Lemma fold_add g : forall l, NoDup l ->
  NoDup (fold_left add g l) /\ (forall o, In o (fold_left add g l) <-> In o l \/ In o g) /\ exists r, fold_left add g l = l ++ r.
Proof.
  induction g as [|o g IH]; intros l N; cbn [fold_left].
  - split; [assumption|]. split; [intros o; cbn; tauto|]. exists []. now rewrite app_nil_r.
  - destruct (dec o l) as [I|NI].
    + rewrite add_in by assumption. destruct (IH l N) as (A & B & C). split; [assumption|]. split; [|assumption].
      intros x. rewrite B. cbn [In]. split; [tauto|]. intros [X|[<-|X]]; tauto.
    + rewrite add_new by assumption.
      assert (N' : NoDup (l ++ [o])). { apply NoDup_app_snoc; assumption. }
      destruct (IH _ N') as (A & B & r & C). split; [assumption|]. split.
      * intros x. rewrite B, in_app_iff. cbn [In]. tauto.
      * exists (o :: r). rewrite C, <- app_assoc. reflexivity.
Qed.
End G.

Lemma gather_ok O eqb registry names groups : Forall2 (fun n g => lookup O n registry = Some g) names groups ->
  forall l, gather O eqb registry names l = Ok (fold_left (add O eqb) (List.concat groups) l).
Proof.
  induction 1 as [|n g names groups E _ IH]; intros l; [reflexivity|]. cbn [gather List.concat]. rewrite E, fold_left_app. apply IH.
Qed.
Lemma gather_groups O eqb registry names : forall l r, gather O eqb registry names l = Ok r ->
  exists groups, Forall2 (fun n g => lookup O n registry = Some g) names groups.
Proof.
  induction names as [|n names IH]; intros l r H; [exists []; constructor|]. cbn [gather] in H.
  destruct (lookup O n registry) as [g|] eqn:E; [|discriminate]. destruct (IH _ _ H) as [gs F]. exists (g :: gs). now constructor.
Qed.
Lemma gather_err O eqb registry names : forall l, (exists n, In n names /\ lookup O n registry = None) ->
  gather O eqb registry names l = Err KeyError.
Proof.
  induction names as [|n names IH]; intros l (x & I & E); [easy|]. cbn [gather].
  destruct (lookup O n registry) as [g|] eqn:En; [|reflexivity]. apply IH. destruct I as [->|I]; [congruence|]. now exists x.
Qed.
Lemma fold_before O eqb (eqb_ok : forall a b, eqb a b = true <-> a = b) l (a b : O) :
  before l a b -> before (fold_left (add O eqb) l []) a b.
Proof.
  intros (p & q & -> & Ib & Nb & Ne).
  replace (p ++ a :: q) with ((p ++ [a]) ++ q) by now rewrite <- app_assoc.
  rewrite fold_left_app.
  destruct (fold_add O eqb eqb_ok (p ++ [a]) [] (NoDup_nil _)) as (N1 & M1 & _).
  set (l1 := fold_left (add O eqb) (p ++ [a]) []) in *.
  destruct (fold_add O eqb eqb_ok q l1 N1) as (N2 & M2 & r & E). rewrite E.
  assert (Ia : In a l1). { apply M1. right. apply in_app_iff. right. now left. }
  assert (Nb1 : ~ In b l1). { intros I. apply M1 in I. rewrite in_app_iff in I. cbn in I. destruct I as [[]|[I|[I|[]]]]; [tauto|congruence]. }
  assert (Ib2 : In b r). { assert (I : In b (fold_left (add O eqb) q l1)) by (apply M2; now right). rewrite E, in_app_iff in I. tauto. }
  apply in_split in Ia. destruct Ia as (p1 & q1 & ->). exists p1, (q1 ++ r). rewrite <- app_assoc. split; [reflexivity|].
  split; [apply in_app_iff; now right|]. split; [|assumption]. intros I. apply Nb1, in_app_iff. now left.
Qed.
Lemma fold_absorb O eqb (eqb_ok : forall a b, eqb a b = true <-> a = b) g : forall l, (forall o, In o g -> In o l) -> fold_left (add O eqb) g l = l.
Proof.
  induction g as [|o g IH]; intros l H; [reflexivity|]. cbn [fold_left]. rewrite add_in by (try assumption; apply H; now left).
  apply IH. intros x I. apply H. now right.
Qed.
Lemma take_some G (draw : G -> G * Z) n : forall g k, k < n -> nth_error (take_seeds G draw n (Some g)) k = Some (Some (nth_draw draw g k)).
Proof.
  induction n as [|n IH]; intros g k H; [lia|]. cbn [take_seeds next_seed]. destruct (draw g) as [g' z] eqn:E.
  destruct k as [|k]; cbn [nth_error nth_draw]; rewrite E; [reflexivity|]. cbn [fst]. apply IH. lia.
Qed.

(** Lemmas on choices. *)
From Coq Require Import Reals ZArith Bool Lra Lia List.
From Verif.Model Require Import Prelude Discretization RTransforms Choice.
From Verif.Proofs Require Import RTransforms Discretization.
From Verif.Props Require Discretization.
Import ListNotations.
Open Scope R_scope.

(** Rounding *)
Lemma Int_part_bounds x : IZR (Int_part x) <= x < IZR (Int_part x) + 1.
Proof. destruct (base_Int_part x). split; lra. Qed.
Lemma rne_spec x k : IZR k - 1 / 2 < x < IZR k + 1 / 2 -> rne x = k.
Proof.
  intros H. unfold rne. pose proof (Int_part_bounds x) as Hb. set (f := Int_part x) in *. clearbody f.
  destruct (Rlt_dec (x - IZR f) (1 / 2)).
  - assert (H1 : IZR f < IZR k + 1 / 2) by lra. assert (H2 : IZR k - 1 < IZR f) by lra.
    assert (f < k + 1)%Z by (apply lt_IZR; rewrite plus_IZR; lra). assert (k - 1 < f)%Z by (apply lt_IZR; rewrite minus_IZR; lra). lia.
  - assert (IZR f < IZR k) by lra. assert (IZR k - 2 < IZR f) by lra.
    assert (f < k)%Z by now apply lt_IZR. assert (k - 2 < f)%Z by (apply lt_IZR; rewrite minus_IZR; lra).
    assert (f = k - 1)%Z as -> by lia. rewrite minus_IZR in *. destruct (Rlt_dec _ _); [lia|]. lra.
Qed.
Lemma rne_near x : IZR (rne x) - 1 / 2 <= x <= IZR (rne x) + 1 / 2.
Proof.
  unfold rne. pose proof (Int_part_bounds x) as Hb. set (f := Int_part x) in *. clearbody f.
  destruct (Rlt_dec (x - IZR f) (1 / 2)); [lra|]. destruct (Rlt_dec (1 / 2) (x - IZR f)); [rewrite plus_IZR; lra|].
  destruct (Z.even f); rewrite ?plus_IZR; lra.
Qed.
Lemma eps12_small : 0 < eps12 < 1 / 2.
Proof. unfold eps12. split; [apply Rinv_0_lt_compat; lra|]. assert (/ 10 ^ 12 < / 2); [|lra]. apply Rinv_lt_contravar; lra. Qed.
Lemma eps9_small : 0 < eps9 < 1 / 2.
Proof. unfold eps9. split; [apply Rinv_0_lt_compat; lra|]. assert (/ 10 ^ 9 < / 2); [|lra]. apply Rinv_lt_contravar; lra. Qed.

(** Placing values *)
Section Place.
Context {S V : Type}.
Variable nopts : nat.
Variable try_set : nat -> V -> S -> S * bool.
Lemma place_some ks v s s' k : place try_set ks v s = (s', Some k) -> In k ks /\ exists s0, try_set k v s0 = (s', true).
Proof.
  revert s. induction ks as [|a ks IH]; cbn; intros s E; [discriminate|]. destruct (try_set a v s) as [s1 ok] eqn:Ea. destruct ok.
  - injection E as <- <-. split; [now left|eauto].
  - apply IH in E as (H1 & H2). auto.
Qed.
Lemma place_all_some vs s s' ks : place_all nopts try_set vs s = (s', Some ks) -> length ks = length vs /\ Forall (fun k => (k < nopts)%nat) ks.
Proof.
  revert s s' ks. induction vs as [|v vs IH]; intros s s' ks E; cbn in E.
  - injection E as <- <-. split; [reflexivity|constructor].
  - destruct (place try_set (seq 0 nopts) v s) as [s1 [k|]] eqn:Ek; [|discriminate]. destruct (place_all nopts try_set vs s1) as [s2 [ks'|]] eqn:Es; cbn in E; [|discriminate].
    injection E as <- <-. apply IH in Es as (H1 & H2). apply place_some in Ek as (Hk & _). apply in_seq in Hk. split; [cbn; lia|]. constructor; [lia|assumption].
Qed.
End Place.

(** Constants *)
Section Constants.
Context {V : Type}.
Variables (same : V -> V -> bool) (opts : list V).
Lemma place_const_none v ks : Forall (fun k => (k < length opts)%nat) ks ->
  (place (const_set same opts) ks v tt = (tt, None) <-> forall k w, In k ks -> nth_error opts k = Some w -> same v w = false).
Proof.
  induction 1 as [|k ks Hk H IH]; cbn; [split; [intros _ k w []|reflexivity]|]. destruct (nth_error opts k) as [w|] eqn:Ew; [|apply nth_error_None in Ew; lia].
  destruct (same v w) eqn:E.
  - split; [discriminate|]. intros Hn. specialize (Hn k w (or_introl eq_refl) Ew). congruence.
  - rewrite IH. split.
    + intros Hn j u [<-|Hj] Hu; [congruence|eauto].
    + intros Hn j u Hj Hu. eauto.
Qed.
Lemma place_const_some v n m k : place (const_set same opts) (seq m n) v tt = (tt, Some k) ->
  (m <= k < m + n)%nat /\ (exists w, nth_error opts k = Some w /\ same v w = true) /\ forall j u, (m <= j < k)%nat -> nth_error opts j = Some u -> same v u = false.
Proof.
  revert m. induction n as [|n IH]; intros m E; cbn in E; [discriminate|]. destruct (nth_error opts m) as [w|] eqn:Ew.
  - destruct (same v w) eqn:Es.
    + injection E as <-. split; [lia|]. split; [eauto|]. intros. lia.
    + apply IH in E as (H1 & H2 & H3). split; [lia|]. split; [assumption|]. intros j u Hj Hu. destruct (Nat.eq_dec j m) as [->|]; [congruence|]. apply (H3 j u); [lia|assumption].
  - apply IH in E as (H1 & H2 & H3). split; [lia|]. split; [assumption|]. intros j u Hj Hu. destruct (Nat.eq_dec j m) as [->|]; [congruence|]. apply (H3 j u); [lia|assumption].
Qed.
End Constants.

(** Softmax rows *)
Lemma encode_rows_ok rows det rands : Forall (fun r => r <> []) rows ->
  exists ks, encode_rows rows det rands = Ok ks /\ Forall2 (fun r k => (k < length r)%nat) rows ks.
Proof.
  revert rands. induction rows as [|r rows IH]; intros rands H; [exists []; split; [reflexivity|constructor]|].
  inversion H as [|? ? Hr Hrs]; subst. destruct (Discretization.C39_valid r det (match rands with x :: _ => x | [] => 0 end) Hr) as (i & Ei & Hi).
  destruct (IH (tl rands) Hrs) as (ks & Ek & Hk). exists (i :: ks). cbn [encode_rows]. rewrite Ei. cbn [bind]. rewrite Ek. cbn. split; [reflexivity|now constructor].
Qed.

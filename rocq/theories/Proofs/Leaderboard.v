(** Proofs for the leaderboard. *)
From Coq Require Import List Arith ZArith QArith Bool String Permutation Sorted Lia Lqa.
From Verif.Model Require Import Prelude MultiValue Float Layers Configured Leaderboard.
From Verif.Spec Require Import Leaderboard.
From Verif.Proofs Require Import MultiValue Configured.
Import ListNotations.
Open Scope list_scope.

Definition one (cur : fl * string) (s : fl * string) : fl * string :=
  if fl_lt (fst cur) (round12 (fst s)) then cur else (round12 (fst s), snd s).
Definition entry (file : option board) (k : string) : option (fl * string) :=
  match file with Some b => sget k b | None => None end.
Definition wfb (file : option board) : Prop :=
  match file with Some b => NoDup (map fst b) /\ Sorted (fun a b => String.leb (fst a) (fst b) = true) b | None => True end.

Lemma sget_ssort {V} k (d : list (string * V)) : NoDup (map fst d) -> sget k (ssort d) = sget k d.
Proof.
  intros N. assert (P := ssort_perm d). assert (N' : NoDup (map fst (ssort d))) by (eapply Permutation_NoDup; [apply Permutation_map; exact P|auto]).
  destruct (sget k d) as [v|] eqn:E.
  - apply sget_iff in E; [|auto]. apply sget_iff; [auto|]. eapply Permutation_in; eauto.
  - apply sget_none. rewrite sget_none in E. intros H. apply E. eapply Permutation_in; [apply Permutation_map, Permutation_sym; exact P|auto].
Qed.
Lemma fl_lt_posinf x : fl_lt PosInf x = false.
Proof. destruct x; reflexivity. Qed.
Lemma sget_app_none {V} k j (d : list (string * V)) v : sget k d = None -> sget j (d ++ [(k, v)]) = if String.eqb j k then Some v else sget j d.
Proof.
  induction d as [|[a w] d IH]; cbn; [destruct (String.eqb j k); auto|]. destruct (String.eqb_spec k a) as [->|N]; [discriminate|]. intros H.
  destruct (String.eqb_spec j a) as [->|M]; [|auto]. destruct (String.eqb_spec a k); [congruence|reflexivity].
Qed.
Lemma submit_spec file s : wfb file -> wfb (submit file s) /\
  (forall k, k <> fst (fst s) -> entry (submit file s) k = entry file k) /\
  entry (submit file s) (fst (fst s)) =
    Some (one (match entry file (fst (fst s)) with Some e => e | None => (PosInf, ""%string) end) (snd (fst s), snd s)).
Proof.
  destruct s as [[i loss] text]. unfold submit, update_leaderboard. cbn [fst snd]. intros W.
  set (b0 := match file with Some b => b | None => [] end). assert (E0 : forall k, entry file k = sget k b0) by (destruct file; reflexivity).
  assert (N0 : NoDup (map fst b0)) by (unfold b0; destruct file as [b|]; [apply W|constructor]).
  set (b1 := if smem i b0 then b0 else b0 ++ [(i, (PosInf, ""%string))]).
  assert (E1 : sget i b1 = Some (match entry file i with Some e => e | None => (PosInf, ""%string) end)).
  { unfold b1, smem. rewrite E0. destruct (sget i b0) eqn:E; [exact E|]. rewrite (sget_app_none i i b0 _ E), String.eqb_refl. reflexivity. }
  assert (E2 : forall k, k <> i -> sget k b1 = entry file k).
  { intros k Hk. unfold b1, smem. rewrite E0. destruct (sget i b0) eqn:E; [reflexivity|]. rewrite (sget_app_none i k b0 _ E). destruct (String.eqb_spec k i); [contradiction|reflexivity]. }
  assert (N1 : NoDup (map fst b1)).
  { unfold b1, smem. destruct (sget i b0) eqn:E; [auto|]. rewrite map_app. cbn. apply (Permutation_NoDup (l := i :: map fst b0)); [apply Permutation_cons_append|].
    constructor; [now apply sget_none|auto]. }
  rewrite E1. set (cur := match entry file i with Some e => e | None => (PosInf, ""%string) end) in *. destruct cur as [best t] eqn:Ec.
  unfold one. cbn [fst snd]. destruct (fl_lt best (round12 loss)) eqn:L; cbn [negb].
  - split; [auto|]. split; [auto|]. unfold cur in Ec. destruct (entry file i) as [e|] eqn:Ee; [congruence|].
    exfalso. injection Ec as <- _. now rewrite fl_lt_posinf in L.
  - assert (N2 : NoDup (map fst (sset i (round12 loss, text) b1))) by now apply sset_nodup.
    split; [|split].
    + split; [|apply ssort_sorted]. eapply Permutation_NoDup; [apply Permutation_map, ssort_perm|auto].
    + intros k Hk. cbn [entry]. rewrite sget_ssort by auto. rewrite sget_sset. destruct (String.eqb_spec k i); [contradiction|auto].
    + cbn [entry]. rewrite sget_ssort by auto. rewrite sget_sset, String.eqb_refl. reflexivity.
Qed.
Lemma run_spec l : forall file, wfb file -> wfb (fold_left submit l file) /\
  forall k, entry (fold_left submit l file) k =
    match for_id l k with
    | [] => entry file k
    | ls => Some (fold_left one ls (match entry file k with Some e => e | None => (PosInf, ""%string) end))
    end.
Proof.
  induction l as [|s l IH]; intros file W; cbn [fold_left]; [split; auto|].
  destruct (submit_spec file s W) as [W1 [A B]]. destruct (IH _ W1) as [W2 C]. split; [auto|]. intros k. rewrite C.
  unfold for_id. cbn [filter]. destruct (String.eqb_spec (fst (fst s)) k) as [<-|N].
  - rewrite B. cbn [map fold_left]. fold (for_id l (fst (fst s))). destruct (for_id l (fst (fst s))) as [|x ls]; reflexivity.
  - rewrite (A k) by congruence. reflexivity.
Qed.

(** order on the values which are not NaN *)
Definition num (x : fl) : Prop := x <> NaN.
Lemma fl_lt_false x y : num x -> num y -> (fl_lt x y = false <-> fl_le y x = true).
Proof.
  intros Hx Hy. unfold num in *. destruct x as [| |p|], y as [| |q|]; cbn; try congruence; try tauto; try (split; auto; discriminate).
  rewrite qlt_false, qle_iff. reflexivity.
Qed.
Lemma fl_lt_le_trans x y z : fl_lt x y = true -> fl_le y z = true -> fl_lt x z = true.
Proof.
  destruct x as [| |p|], y as [| |q|], z as [| |r|]; cbn; auto; try discriminate; intros A B.
  apply qlt_iff in A. apply qle_iff in B. apply qlt_iff. lra.
Qed.
Lemma fl_le_lt_trans x y z : fl_le x y = true -> fl_lt y z = true -> fl_lt x z = true.
Proof.
  destruct x as [| |p|], y as [| |q|], z as [| |r|]; cbn; auto; try discriminate; intros A B.
  apply qle_iff in A. apply qlt_iff in B. apply qlt_iff. lra.
Qed.
Lemma fl_le_trans x y z : fl_le x y = true -> fl_le y z = true -> fl_le x z = true.
Proof.
  destruct x as [| |p|], y as [| |q|], z as [| |r|]; cbn; auto; try discriminate; intros A B.
  apply qle_iff in A, B. apply qle_iff. lra.
Qed.
Lemma fl_lt_le x y : fl_lt x y = true -> fl_le x y = true.
Proof. destruct x as [| |p|], y as [| |q|]; cbn; auto; try discriminate. intros H. apply qlt_iff in H. apply qle_iff. lra. Qed.
Lemma fl_le_refl x : num x -> fl_le x x = true.
Proof. destruct x as [| |p|]; unfold num; cbn; try congruence. intros _. apply qle_iff. apply Qle_refl. Qed.
Lemma round_num x : num (round12 x) <-> num x.
Proof. unfold num, round12. destruct x; split; congruence. Qed.

Lemma fold_one ls : Forall (fun s => num (fst s)) ls -> forall cur, num (fst cur) ->
  (fold_left one ls cur = cur /\ Forall (fun s => fl_lt (fst cur) (round12 (fst s)) = true) ls) \/
  (last_smallest round12 ls (fst (fold_left one ls cur)) (snd (fold_left one ls cur)) /\ fl_le (fst (fold_left one ls cur)) (fst cur) = true /\ num (fst (fold_left one ls cur))).
Proof.
  induction 1 as [|[x t] ls Hx H IH]; intros cur Hc; cbn [fold_left]; [left; auto|]. cbn [fst] in Hx.
  unfold one at 2 4 6 8 10. cbn [fst snd]. destruct (fl_lt (fst cur) (round12 x)) eqn:L.
  - destruct (IH cur Hc) as [[E F]|[[l1 [y [l2 [E1 [E2 [A B]]]]]] [C D]]].
    + left. split; [auto|]. constructor; auto.
    + right. split; [|auto]. exists ((x, t) :: l1), y, l2. split; [cbn; f_equal; exact E1|]. split; [auto|]. split; [|auto].
      intros z u [Ez|Hz]; [|eauto]. injection Ez as -> ->. eapply fl_le_trans; [exact C|]. now apply fl_lt_le.
  - assert (Hr : num (round12 x)) by now apply round_num.
    apply fl_lt_false in L; [|auto..].
    destruct (IH (round12 x, t) Hr) as [[E F]|[[l1 [y [l2 [E1 [E2 [A B]]]]]] [C D]]].
    + right. rewrite E. cbn [fst snd]. split; [|auto]. exists [], x, ls. split; [reflexivity|]. split; [reflexivity|]. split; [intros ? ? []|].
      intros z u Hz. apply (proj1 (Forall_forall _ _) F (z, u) Hz).
    + cbn [fst] in C. right. split; [|split; [eapply fl_le_trans; eauto|auto]]. exists ((x, t) :: l1), y, l2. split; [cbn; f_equal; exact E1|]. split; [auto|]. split; [|auto].
      intros z u [Ez|Hz]; [|eauto]. injection Ez as -> ->. exact C.
Qed.

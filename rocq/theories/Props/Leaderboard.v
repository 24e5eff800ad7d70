(** C117: the leaderboard of the hard functions. *)
From Coq Require Import List Arith ZArith QArith Qabs Bool String Sorted Lia Lqa.
From Verif.Model Require Import Prelude MultiValue Float Layers Configured Leaderboard.
From Verif.Spec Require Import Leaderboard.
From Verif.Proofs Require Import MultiValue Configured Leaderboard.
From Verif.Proofs Require LayerValues.
Import ListNotations.
Open Scope list_scope.

(** Without a NaN among its losses, a problem has in the file its smallest loss, to 12 decimals,
    and the array of the last submission which reached it. *)
Theorem C117_best : forall l k, for_id l k <> [] -> (forall x t, In (x, t) (for_id l k) -> x <> NaN) ->
  exists b loss text, submissions l = Some b /\ In (k, (loss, text)) b /\ last_smallest round12 (for_id l k) loss text.
Proof.
  intros l k N H. destruct (run_spec l None I) as [_ E]. specialize (E k). unfold submissions.
  assert (F : Forall (fun s => num (fst s)) (for_id l k)) by (apply Forall_forall; intros [x t] Hx; apply (H x t Hx)).
  destruct (for_id l k) as [|s ls] eqn:El; [congruence|]. cbn [entry] in E.
  destruct (fold_one (s :: ls) F (PosInf, ""%string)) as [[_ X]|[X _]]; [discriminate| |].
  - exfalso. inversion X as [|? ? Y]; subst. cbn [fst] in Y. now rewrite fl_lt_posinf in Y.
  - destruct (fold_left submit l None) as [b|]; [|discriminate]. cbn [entry] in E.
    destruct (fold_left one (s :: ls) (PosInf, ""%string)) as [loss text]. exists b, loss, text. split; [auto|]. split; [now apply sget_in|exact X].
Qed.
Print Assumptions C117_best.

(** Each problem appears at most once, exactly when something was submitted for it, and the
    problems are sorted. *)
Theorem C117_table : forall l,
  (l = [] -> submissions l = None) /\
  forall b, submissions l = Some b ->
    NoDup (map fst b) /\ Sorted (fun x y => String.leb (fst x) (fst y) = true) b /\
    (forall k, In k (map fst b) <-> for_id l k <> []).
Proof.
  intros l. split; [intros ->; reflexivity|]. intros b E. destruct (run_spec l None I) as [W R]. unfold submissions in E. rewrite E in *.
  destruct W as [W1 W2]. split; [auto|]. split; [auto|]. intros k. specialize (R k). cbn [entry] in R.
  destruct (for_id l k) as [|x ls].
  - split; [|congruence]. intros H. exfalso. now apply (proj1 (sget_none k b)) in R.
  - split; [discriminate|]. intros _. apply sget_in in R. change k with (fst (k, fold_left one (x :: ls) (PosInf, ""%string))). now apply in_map.
Qed.
Print Assumptions C117_table.

(** A submission changes nothing for the other problems. *)
Theorem C117_others : forall l k loss text j e b, j <> k -> submissions l = Some b ->
  exists b', submissions (l ++ [(k, loss, text)]) = Some b' /\ (In (j, e) b' <-> In (j, e) b).
Proof.
  intros l k loss text j e b N E. unfold submissions in *. rewrite fold_left_app, E. cbn [fold_left].
  destruct (run_spec l None I) as [W _]. rewrite E in W. destruct (submit_spec (Some b) (k, loss, text) W) as [W' [A B]]. cbn [fst snd] in A, B.
  specialize (A j N). destruct (submit (Some b) (k, loss, text)) as [b'|]; [|discriminate]. exists b'. split; [reflexivity|]. cbn [entry] in A.
  rewrite <- !sget_iff by (try apply W; apply W'). now rewrite A.
Qed.
Print Assumptions C117_others.

(** The loss in the file differs from the submitted one by at most half of the twelfth decimal. *)
Theorem C117_rounding : forall q, exists r, round12 (Fin q) = Fin r /\ (Qabs (r - q) <= 1 # 2000000000000)%Q.
Proof.
  intros q. cbn [round12]. eexists. split; [reflexivity|]. set (x := (q * inject_Z (10 ^ 12))%Q).
  assert (B : (Qabs (inject_Z (round_half_even x) - x) <= 1 # 2)%Q).
  { apply Qabs_Qle_condition. assert (R := LayerValues.round_bounds x). lra. }
  apply Qabs_Qle_condition in B. apply Qabs_Qle_condition.
  set (m := inject_Z (round_half_even x)) in *. clearbody m. unfold x in B. change (inject_Z (10 ^ 12)) with (1000000000000 # 1)%Q in *.
  assert (E : (m / (1000000000000 # 1) == m * (1 # 1000000000000))%Q) by (unfold Qdiv; reflexivity). rewrite E. lra.
Qed.
Print Assumptions C117_rounding.

(** "if better than the one in the file, the file will be updated" (base.py:266): a NaN replaces
    the best loss, and the next loss, however bad, replaces the NaN; only what was submitted after
    the last NaN counts. *)
Theorem C117_since_nan : forall l1 k t0 l2, for_id l2 k <> [] -> (forall x t, In (x, t) (for_id l2 k) -> x <> NaN) ->
  exists b loss text, submissions (l1 ++ (k, NaN, t0) :: l2) = Some b /\ In (k, (loss, text)) b /\ last_smallest round12 (for_id l2 k) loss text.
Proof.
  intros l1 k t0 l2 N H. unfold submissions. rewrite fold_left_app. cbn [fold_left].
  destruct (run_spec l1 None I) as [W1 _]. set (f1 := fold_left submit l1 None) in *.
  destruct (submit_spec f1 (k, NaN, t0) W1) as [W2 [_ B]]. cbn [fst snd] in B.
  set (f2 := submit f1 (k, NaN, t0)) in *. destruct (run_spec l2 f2 W2) as [_ E]. specialize (E k). rewrite B in E.
  assert (On : forall cur, one cur (NaN, t0) = (NaN, t0)) by (intros [c u]; unfold one; cbn; destruct c; reflexivity).
  rewrite On in E.
  assert (F : Forall (fun s => num (fst s)) (for_id l2 k)) by (apply Forall_forall; intros [x t] Hx; apply (H x t Hx)).
  destruct (for_id l2 k) as [|[x t] ls] eqn:El; [congruence|].
  assert (E' : fold_left one ((x, t) :: ls) (NaN, t0) = fold_left one ((x, t) :: ls) (PosInf, ""%string)).
  { cbn [fold_left]. f_equal. unfold one. cbn [fst snd]. rewrite fl_lt_posinf. reflexivity. }
  rewrite E' in E.
  destruct (fold_one ((x, t) :: ls) F (PosInf, ""%string)) as [[_ X]|[X _]]; [discriminate| |].
  - exfalso. inversion X as [|? ? Y]; subst. cbn [fst] in Y. now rewrite fl_lt_posinf in Y.
  - destruct (fold_left submit l2 f2) as [b|] eqn:Ef; [|discriminate]. cbn [entry] in E.
    destruct (fold_left one ((x, t) :: ls) (PosInf, ""%string)) as [loss text]. exists b, loss, text. split; [exact Ef|]. split; [now apply sget_in|exact X].
Qed.
Print Assumptions C117_since_nan.

(** So the file may have a worse loss than one which was submitted. *)
Theorem C117_nan_refuted : exists l b loss text, submissions l = Some b /\ In ("morpho,80"%string, (loss, text)) b /\
  exists x t, In (x, t) (for_id l "morpho,80") /\ fl_lt (round12 x) loss = true.
Proof.
  exists [("morpho,80"%string, Fin 1, "[1]"%string); ("morpho,80"%string, NaN, "[2]"%string); ("morpho,80"%string, Fin 7, "[3]"%string)].
  do 3 eexists. split; [vm_compute; reflexivity|]. split; [left; reflexivity|]. exists (Fin 1), "[1]"%string. split; [left; reflexivity|]. vm_compute. reflexivity.
Qed.
Print Assumptions C117_nan_refuted.

(** Two problems; a tie to 12 decimals is won by the later submission. *)
Example C117_demo :
  submissions [("b"%string, Fin 3, "[1]"%string); ("a"%string, Fin 2, "[2]"%string);
               ("b"%string, Fin (3 + (1 # 10000000000000)), "[3]"%string); ("b"%string, Fin 4, "[4]"%string)] =
  Some [("a"%string, (round12 (Fin 2), "[2]"%string)); ("b"%string, (round12 (Fin (3 + (1 # 10000000000000))), "[3]"%string))].
Proof. vm_compute. reflexivity. Qed.

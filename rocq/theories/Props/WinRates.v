(** C94: the win rates of a benchmark are the fractions of cases in which an optimizer has a lower mean loss. *)
From Coq Require Import Arith ZArith QArith Qround Bool Lia Lqa Permutation Sorted List.
From Verif.Model Require Import Prelude MultiValue WinRates.
From Verif.Spec Require Import WinRates.
From Verif.Proofs Require Import MultiValue WinRates.
Import ListNotations.
Open Scope nat_scope.

(** The aggregate counts each case present in the runs once, whatever the order and number of categories: one point for a lower mean
    loss, half a point for the same, none for optimizers without run in the case. *)
Theorem C94_aggregate df categories all l : df <> [] -> cases df categories l -> (forall r, In r df -> In (who r) all) ->
  exists v, aggregate df categories all = Ok (v, length l) /\ forall i j, (v i j == score df categories l i j)%Q.
Proof.
  intros N C K. destruct (aggregate_score all categories df N K) as (v & E & V).
  pose proof (cases_perm _ _ _ _ (case_list_cases df categories) C) as P. exists v. split; [rewrite E; now rewrite (Permutation_length P)|].
  intros i j. rewrite V. now apply score_perm.
Qed.
Print Assumptions C94_aggregate.
(** The order of the runs does not matter. *)
Theorem C94_order df df' categories all : Permutation df df' -> df <> [] -> (forall r, In r df -> In (who r) all) ->
  exists v v' n, aggregate df categories all = Ok (v, n) /\ aggregate df' categories all = Ok (v', n) /\ forall i j, (v i j == v' i j)%Q.
Proof.
  intros P N K. pose proof (case_list_cases df categories) as C. set (l := case_list df categories) in C.
  assert (C' : cases df' categories l).
  { destruct C as (A & B). split; [exact A|]. intros t. rewrite B. split; intros (r & Hr & E); exists r; split; auto; [now apply (Permutation_in r P)|apply (Permutation_in r (Permutation_sym P)); auto]. }
  destruct (C94_aggregate df categories all l N C K) as (v & E & V).
  destruct (C94_aggregate df' categories all l) as (v' & E' & V'); auto.
  { intros ->. apply N. now apply Permutation_nil, Permutation_sym. }
  { intros r Hr. apply K. now apply (Permutation_in r (Permutation_sym P)). }
  exists v, v', (length l). split; [exact E|]. split; [exact E'|]. intros i j. rewrite V, V'. unfold score. apply sumQ_ext. intros t _.
  apply points_perm; apply losses_perm, P.
Qed.
Print Assumptions C94_order.

(** The table of all optimizers: every one of them is ranked once, the numbers of cases played and in total are right, the rates are the points
    per case played by the opponent, and the ranking is by decreasing sum (mean) of the rates. *)
Theorem C94_table df categories l : df <> [] -> all_finite df -> cases df categories l ->
  exists f all, winrates df categories false = Ok f /\ optimizers df all /\ table df categories l all f.
Proof.
  intros N F C. destruct (fight_table df categories l _ N F C (optimizers_nodup df)) as (v & E & T).
  eexists _, (nodup Nat.eq_dec (map who df)). split; [unfold winrates; rewrite E; reflexivity|]. split; [apply optimizers_nodup|exact T].
Qed.
Print Assumptions C94_table.
(** A rate is between zero and one, one half against oneself, and at most the share of the opponent's cases in which the optimizer has a run: not to
    play is to lose. For optimizers with runs in the same cases, the two rates add to one. *)
Theorem C94_rates df categories l all f i j x : all_finite df -> cases df categories l -> optimizers df all -> table df categories l all f ->
  In j all -> rates f i j = Some x ->
  (0 <= x <= 1)%Q /\ (i = j -> x == 1 # 2)%Q /\
  (x * qnat (games df categories l j) <= qnat (length (filter (fun t => playing df categories t i && playing df categories t j) l)))%Q /\
  (forall y, In i all -> (forall t, In t l -> plays df categories t i <-> plays df categories t j) -> rates f j i = Some y -> (x + y == 1)%Q).
Proof.
  intros F C O T Hj Ex. destruct (t_rates _ _ _ _ _ T i j Hj) as (x' & E & S0). assert (x' = x) by congruence. subst x'.
  pose proof (games_qpos df categories l j C (proj1 (proj2 O j) Hj)) as G.
  pose proof (score_le_shared df categories l i j F) as L. pose proof (score_nonneg df categories l i j) as P.
  assert (L' : (qnat (shared df categories l i j) <= qnat (games df categories l j))%Q) by (apply qnat_le, shared_le).
  split; [|split; [|split]].
  - split; apply (Qmult_le_r _ _ _ G); lra.
  - intros ->. pose proof (score_self df categories l j F) as S1. apply (Qmult_inj_r _ _ (qnat (games df categories l j))); lra.
  - change (length (filter _ l)) with (shared df categories l i j). lra.
  - intros y Hi Same Ey. destruct (t_rates _ _ _ _ _ T j i Hi) as (y' & E' & S1). assert (y' = y) by congruence. subst y'.
    assert (Sh : forall t, In t l -> playing df categories t i = playing df categories t j).
    { intros t Ht. specialize (Same t Ht). rewrite <- !playing_iff in Same. destruct (playing df categories t i), (playing df categories t j); tauto || (symmetry; tauto). }
    assert (Gi : games df categories l i = games df categories l j) by (unfold games; f_equal; apply filter_ext_in; exact Sh).
    assert (Gs : shared df categories l i j = games df categories l j).
    { unfold shared, games. f_equal. apply filter_ext_in. intros t Ht. rewrite (Sh t Ht), andb_diag. reflexivity. }
    pose proof (score_sum df categories l i j F) as S2. rewrite Gs in S2. rewrite Gi in S1. apply (Qmult_inj_r _ _ (qnat (games df categories l j))); lra.
Qed.
Print Assumptions C94_rates.
(** An optimizer with a lower mean loss than every other one in every case comes first. *)
Theorem C94_best df categories l all f i : df <> [] -> all_finite df -> cases df categories l -> optimizers df all -> table df categories l all f ->
  (forall t j, In t l -> j <> i -> plays df categories t j -> points (losses_of df categories t i) (losses_of df categories t j) = 1%Q) ->
  hd_error (ranked f) = Some i.
Proof. apply dominant_first. Qed.
Print Assumptions C94_best.

(** Restricted to complete runs: the optimizers with runs in the largest number of cases are kept... *)
Theorem C94_kept df categories l : df <> [] -> all_finite df -> cases df categories l ->
  exists f, winrates df categories true = Ok f /\ NoDup (ranked f) /\
    forall i, In i (ranked f) <-> In i (map who df) /\ forall j, games df categories l j <= games df categories l i.
Proof.
  intros N F C. destruct (complete_table df categories l N F C) as (f & kept & l' & E & Nk & K & _ & T). exists f. split; [exact E|]. split.
  - eapply Permutation_NoDup; [symmetry; apply (t_ranked _ _ _ _ _ T)|exact Nk].
  - intros i. rewrite <- K. split; apply Permutation_in; [|symmetry]; apply (t_ranked _ _ _ _ _ T).
Qed.
Print Assumptions C94_kept.
(** ... which are those with runs in every case if there is one; then the table is about these cases, and any two rates add to one. *)
Theorem C94_complete df categories l k : df <> [] -> all_finite df -> cases df categories l -> (forall t, In t l -> plays df categories t k) ->
  exists f, winrates df categories true = Ok f /\ total f = length l /\
    (forall i, In i (ranked f) <-> forall t, In t l -> plays df categories t i) /\
    forall i j, In i (ranked f) -> In j (ranked f) -> exists x y, rates f i j = Some x /\ rates f j i = Some y /\
      (x * qnat (length l) == score df categories l i j)%Q /\ (x + y == 1)%Q.
Proof.
  intros N F C Pk. destruct (complete_table df categories l N F C) as (f & kept & l' & E & Nk & K & C' & T).
  set (df' := filter (fun r => existsb (Nat.eqb (who r)) kept) df) in *.
  assert (Full : forall i, games df categories l i = length l <-> forall t, In t l -> plays df categories t i).
  { intros i. unfold games. change (fun t => match losses_of df categories t i with [] => false | _ => true end) with (fun t => playing df categories t i). split.
    - intros G t Ht. apply playing_iff. apply (filter_full _ _ G t Ht).
    - intros H. rewrite filter_all; [reflexivity|]. intros t Ht. now apply playing_iff, H. }
  assert (Gle : forall i, games df categories l i <= length l) by (intros i; apply filter_length_le).
  assert (Gk : games df categories l k = length l) by now apply Full.
  assert (Lp : l <> []) by (intros ->; destruct df as [|r df0]; [easy|]; now apply (proj2 C (case categories r)); exists r; split; [left|]).
  assert (Who : forall i, (forall t, In t l -> plays df categories t i) -> In i (map who df)).
  { intros i H. destruct l as [|t l0]; [easy|]. specialize (H t (or_introl eq_refl)). unfold plays, losses_of in H. set (g := fun r : run => _) in H.
    destruct (filter g df) as [|r rest] eqn:Ef; [easy|]. assert (I : In r (filter g df)) by (rewrite Ef; now left). apply filter_In in I. destruct I as (I & G).
    unfold g in G. destruct (list_eq_dec _ _ _) in G; [|discriminate]. apply Nat.eqb_eq in G. apply in_map_iff. eauto. }
  assert (K' : forall i, In i kept <-> forall t, In t l -> plays df categories t i).
  { intros i. rewrite K. split.
    - intros (_ & M). apply Full. specialize (M k). specialize (Gle i). lia.
    - intros H. split; [now apply Who|]. intros j. apply Full in H. rewrite H. apply Gle. }
  assert (Same : forall t i, In i kept -> losses_of df' categories t i = losses_of df categories t i).
  { intros t i Hi. unfold losses_of, df'. f_equal. rewrite filter_filter. apply filter_ext. intros r. destruct (list_eq_dec _ _ _); [|now rewrite andb_false_r].
    destruct (Nat.eqb_spec (who r) i) as [->|]; [|now rewrite andb_false_r]. rewrite andb_true_r. apply existsb_exists. exists i. split; [exact Hi|apply Nat.eqb_refl]. }
  assert (Hk : In k kept) by now apply K'.
  assert (P : Permutation l' l).
  { apply NoDup_Permutation; [apply C'|apply C|]. intros t. rewrite (proj2 C'), (proj2 C). split.
    - intros (r & Hr & Et). apply filter_In in Hr. exists r. tauto.
    - intros (r & Hr & Et). assert (Ht : In t l) by (apply C; eauto). specialize (Pk t Ht). unfold plays in Pk. rewrite <- (Same t k Hk) in Pk. unfold losses_of in Pk.
      set (g := fun r : run => _) in Pk. destruct (filter g df') as [|r' rest] eqn:Ef; [easy|]. assert (I : In r' (filter g df')) by (rewrite Ef; now left).
      apply filter_In in I. destruct I as (I & G). unfold g in G. destruct (list_eq_dec Z.eq_dec (case categories r') t); [|discriminate]. eauto. }
  assert (Rk : forall i, In i (ranked f) <-> In i kept) by (intros i; split; apply Permutation_in; [|symmetry]; apply (t_ranked _ _ _ _ _ T)).
  exists f. split; [exact E|]. split; [rewrite (t_total _ _ _ _ _ T); apply (Permutation_length P)|]. split.
  - intros i. now rewrite Rk, K'.
  - intros i j Hi Hj. apply Rk in Hi. apply Rk in Hj.
    assert (G' : forall i, In i kept -> games df' categories l' i = length l).
    { intros u Hu. unfold games. rewrite (filter_all (fun t => match losses_of df' categories t u with [] => false | _ => true end)); [apply (Permutation_length P)|].
      intros t Ht. rewrite (Same t u Hu). apply (playing_iff df categories t u). apply (proj1 (K' u) Hu). now apply (Permutation_in t P). }
    assert (Sc : forall i j, In i kept -> In j kept -> (score df' categories l' i j == score df categories l i j)%Q).
    { intros u w Hu Hw. rewrite (score_perm df' categories l' l u w P). unfold score. apply sumQ_ext. intros t _. now rewrite !Same. }
    destruct (t_rates _ _ _ _ _ T i j Hj) as (x & Ex & Sx). destruct (t_rates _ _ _ _ _ T j i Hi) as (y & Ey & Sy). exists x, y.
    rewrite G', Sc in Sx by assumption. rewrite G', Sc in Sy by assumption. repeat split; auto.
    pose proof (score_sum df categories l i j F) as S2.
    assert (Sh : shared df categories l i j = length l).
    { unfold shared. rewrite filter_all; [reflexivity|]. intros t Ht. apply andb_true_iff. split; apply playing_iff; [apply (proj1 (K' i) Hi)|apply (proj1 (K' j) Hj)]; exact Ht. }
    rewrite Sh in S2. assert (G : (0 < qnat (length l))%Q) by (destruct l; [easy|apply qnat_pos]). apply (Qmult_inj_r _ _ (qnat (length l))); lra.
Qed.
Print Assumptions C94_complete.

(** Samples: the optimizer, the value of the only descriptor, the loss. *)
Definition sample (w : nat) (c : Z) (x : Q) : run := {| who := w; col := fun _ => c; loss := Some x |}.
(** Two runs of 0 in case 7, means 3 and 4: 0 beats 1 there; 1 alone plays in case 8. *)
Definition few : list run := [sample 0 7 2; sample 1 7 4; sample 0 7 4; sample 1 8 1].
Example C94_few : exists f, winrates few [0] false = Ok f /\ ranked f = [0; 1] /\ total f = 2 /\ played f 0 = 1%Z /\ played f 1 = 2%Z /\
  option_map Qred (rates f 0 0) = Some (1 # 2)%Q /\ option_map Qred (rates f 0 1) = Some (1 # 2)%Q /\ option_map Qred (rates f 1 0) = Some 0%Q.
Proof. eexists. split; [reflexivity|]. vm_compute. auto 10. Qed.
Example C94_few_hypotheses : few <> [] /\ all_finite few /\ cases few [0] [[7]; [8]]%Z /\ optimizers few [0; 1].
Proof.
  split; [easy|]. split; [intros r [<-|[<-|[<-|[<-|[]]]]]; easy|]. split.
  - split; [repeat constructor; cbn; intuition congruence|]. intros t. cbn [In few]. split.
    + intros [<-|[<-|[]]]; [exists (sample 0 7 2)|exists (sample 1 8 1)]; cbn; auto 10.
    + intros (r & [<-|[<-|[<-|[<-|[]]]]] & <-); cbn; auto.
  - split; [repeat constructor; cbn; intuition congruence|]. intros i. cbn. intuition.
Qed.
(** ... 1 is the only one with runs in both cases *)
Example C94_few_complete : exists f, winrates few [0] true = Ok f /\ ranked f = [1] /\ total f = 2.
Proof. eexists. split; [reflexivity|]. vm_compute. auto. Qed.
Example C94_best_example : dominant (sample 2 7 1 :: sample 2 8 0 :: few) [0] [[7]; [8]]%Z 2.
Proof. intros t j [<-|[<-|[]]] J P; destruct j as [|[|[|j]]]; try easy; try reflexivity; exfalso; apply P; reflexivity. Qed.

(** Not guaranteed: "The algorithm which performs better than all other algorithms comes first". 0 beats each of the others in three cases of
    five, and 1 comes first. *)
Definition majority : list run :=
  flat_map (fun c => [sample 0 c 1; sample 1 c 2; sample 2 c 3]) [1; 2; 3]%Z ++ flat_map (fun c => [sample 0 c 3; sample 1 c 1; sample 2 c 2]) [4; 5]%Z.
Theorem C94_majority_refuted : exists f x y, winrates majority [0] false = Ok f /\ rates f 0 1 = Some x /\ rates f 0 2 = Some y /\
  (1 # 2 < x)%Q /\ (1 # 2 < y)%Q /\ ranked f = [1; 0; 2].
Proof. do 3 eexists. split; [reflexivity|]. split; [vm_compute; reflexivity|]. split; [vm_compute; reflexivity|]. split; [reflexivity|]. split; [reflexivity|]. vm_compute. reflexivity. Qed.
Print Assumptions C94_majority_refuted.
(** Not guaranteed: that the rates of two optimizers add to one. An optimizer which wins in each case it has a run in comes after one it
    has beaten each time. *)
Theorem C94_add_refuted : exists f, winrates [sample 0 1 1; sample 1 1 2; sample 1 2 1; sample 1 3 1; sample 2 2 2; sample 2 3 2] [0] false = Ok f /\
  option_map Qred (rates f 0 1) = Some (1 # 3)%Q /\ option_map Qred (rates f 1 0) = Some 0%Q /\ ranked f = [1; 0; 2].
Proof. eexists. split; [reflexivity|]. vm_compute. auto. Qed.
Print Assumptions C94_add_refuted.
(** Not guaranteed: that the optimizers kept with [complete_runs_only] "have run on all settings", when none has. *)
Theorem C94_complete_refuted : let df := [sample 0 1 1; sample 0 2 1; sample 1 2 2; sample 1 3 2] in
  exists f, winrates df [0] true = Ok f /\ ranked f = [0; 1] /\ total f = 3 /\ ~ plays df [0] [3%Z] 0 /\ ~ plays df [0] [1%Z] 1.
Proof. intros df. eexists. split; [reflexivity|]. split; [vm_compute; reflexivity|]. split; [reflexivity|]. split; intros H; now apply H. Qed.
Print Assumptions C94_complete_refuted.
(** Not guaranteed with infinite losses (kept with --nolimit): an optimizer which had a run is said to have played zero case, and its column has no
    rate, not even against itself. *)
Theorem C94_infinite_refuted : exists f, winrates [{| who := 0; col := fun _ => 1%Z; loss := None |}; {| who := 1; col := fun _ => 1%Z; loss := None |}] [0] false = Ok f /\
  total f = 1 /\ played f 0 = 0%Z /\ rates f 0 0 = None /\ rates f 0 1 = None.
Proof. eexists. split; [reflexivity|]. vm_compute. auto. Qed.
Print Assumptions C94_infinite_refuted.

(** The graphs explored by [CausalDiscovery] (nevergrad/functions/causaldiscovery/core.py). *)
From Coq Require Import List Arith ZArith Bool Lia.
From Verif.Model Require Import Prelude Causal.
From Verif.Spec Require Import Causal.
From Verif.Proofs Require Import Causal.
Import ListNotations.
Open Scope nat_scope.

(** Every value of the parametrization gives a graph, whose nodes are those of the true graph, each of them once. *)
Theorem C106_nodes : forall nodes links, length links = num_links (length nodes) ->
  exists g, choices_to_graph nodes (length nodes) links = Ok g
    /\ NoDup (g_nodes g) /\ (forall x, In x (g_nodes g) <-> In x nodes).
Proof.
  intros nodes links H. rewrite num_links_length in H.
  destruct (graph_ok nodes (length nodes) links eq_refl ltac:(lia)) as (g & E & N & M & _).
  exists g; auto.
Qed.
Print Assumptions C106_nodes.

(** No arrow from a node to itself, and never an arrow in both directions. *)
Theorem C106_oriented : forall nodes links g u v, NoDup nodes -> length links = num_links (length nodes) ->
  choices_to_graph nodes (length nodes) links = Ok g -> arrow g u v ->
  u <> v /\ ~ arrow g v u /\ In u nodes /\ In v nodes.
Proof.
  intros nodes links g u v ND H E A. rewrite num_links_length in H.
  assert (L : length (pairs (length nodes)) <= length links) by lia.
  destruct (arrow_ends nodes _ links g u v ND eq_refl L E A) as (i & j & Hi & Hij & [[Hu Hv]|[Hu Hv]]);
    pose proof (nth_error_In _ _ Hu); pose proof (nth_error_In _ _ Hv).
  - destruct (pair_arrow nodes _ links g i j u v ND eq_refl L E Hi Hij Hu Hv) as [P1 P2].
    split; [|split; auto].
    + intros ->. assert (i = j) by (apply (nth_error_inj nodes i j v); assumption). lia.
    + intros B. apply P1 in A. apply P2 in B. congruence.
  - destruct (pair_arrow nodes _ links g i j v u ND eq_refl L E Hi Hij Hv Hu) as [P1 P2].
    split; [|split; auto].
    + intros ->. assert (i = j) by (apply (nth_error_inj nodes i j v); assumption). lia.
    + intros B. apply P1 in B. apply P2 in A. congruence.
Qed.
Print Assumptions C106_oriented.

(** Except for the first node, every pair of nodes has a link of its own, and the graph has the arrow that this link says:
    [1] from the first to the second, [-1] from the second to the first, and none otherwise. *)
Theorem C106_links : forall n, exists place : nat -> nat -> nat,
  (forall i j i' j', 1 <= i -> i < j < n -> 1 <= i' -> i' < j' < n -> place i j = place i' j' -> i = i' /\ j = j')
  /\ (forall i j, 1 <= i -> i < j < n -> place i j < num_links n)
  /\ (forall nodes links g i j u v, NoDup nodes -> length nodes = n -> length links = num_links n ->
        choices_to_graph nodes n links = Ok g -> 1 <= i -> i < j < n ->
        nth_error nodes i = Some u -> nth_error nodes j = Some v ->
        (arrow g u v <-> nth_error links (place i j) = Some 1%Z)
        /\ (arrow g v u <-> nth_error links (place i j) = Some (-1)%Z)).
Proof.
  intros n. exists (fun i j => place_in (i, j) (pairs n)). split; [|split].
  - intros i j i' j' H1 H2 H3 H4 E.
    assert (P1 : nth_error (pairs n) (place_in (i, j) (pairs n)) = Some (i, j)) by (apply place_nth, pairs_in; lia).
    assert (P2 : nth_error (pairs n) (place_in (i', j') (pairs n)) = Some (i', j')) by (apply place_nth, pairs_in; lia).
    rewrite E, P2 in P1. inversion P1; auto.
  - intros i j H1 H2. rewrite num_links_length.
    assert (P1 : nth_error (pairs n) (place_in (i, j) (pairs n)) = Some (i, j)) by (apply place_nth, pairs_in; lia).
    assert (place_in (i, j) (pairs n) < length (pairs n)) by (apply nth_error_Some; congruence). lia.
  - intros nodes links g i j u v ND Hn Hl E H1 H2 Hu Hv. rewrite num_links_length in Hl.
    apply (pair_arrow nodes n links g i j u v); auto. lia.
Qed.
Print Assumptions C106_links.

(** Whatever the arrows wanted between the nodes other than the first, one value of the parametrization has exactly them. *)
Theorem C106_reachable : forall nodes (wanted : nat -> nat -> Z), NoDup nodes ->
  (forall i j, wanted i j = (-1) \/ wanted i j = 0 \/ wanted i j = 1)%Z ->
  exists links g, choices links /\ length links = num_links (length nodes)
    /\ choices_to_graph nodes (length nodes) links = Ok g
    /\ forall i j u v, 1 <= i -> i < j < length nodes -> nth_error nodes i = Some u -> nth_error nodes j = Some v ->
         (arrow g u v <-> wanted i j = 1%Z) /\ (arrow g v u <-> wanted i j = (-1)%Z).
Proof.
  intros nodes wanted ND W. set (n := length nodes).
  set (links := map (fun p => wanted (fst p) (snd p)) (pairs n) ++ repeat 0%Z (n - 1)).
  assert (L : length links = num_links n).
  { unfold links. now rewrite app_length, map_length, repeat_length, num_links_length. }
  assert (L2 : length (pairs n) <= length links) by (rewrite L, num_links_length; lia).
  destruct (graph_ok nodes n links eq_refl L2) as (g & E & _).
  exists links, g. split; [|split; [exact L|split; [exact E|]]].
  - apply Forall_app. split.
    + apply Forall_forall. intros x H. apply in_map_iff in H. destruct H as (p & <- & _). apply W.
    + apply Forall_forall. intros x H. apply repeat_spec in H. auto.
  - intros i j u v H1 H2 Hu Hv.
    destruct (pair_arrow nodes n links g i j u v ND eq_refl L2 E H1 H2 Hu Hv) as [P1 P2].
    assert (P : nth_error (pairs n) (place_in (i, j) (pairs n)) = Some (i, j)) by (apply place_nth, pairs_in; lia).
    assert (K : nth_error links (place_in (i, j) (pairs n)) = Some (wanted i j)).
    { unfold links. rewrite nth_error_app1.
      - now rewrite nth_error_map, P.
      - rewrite map_length. apply nth_error_Some. congruence. }
    rewrite P1, P2, K. split; split; intros H; try congruence; now inversion H.
Qed.
Print Assumptions C106_reachable.

(** The first node never has an arrow: a true graph in which it has one is not the graph of any value of the
    parametrization. The loop over the pairs starts at 1 instead of 0. *)
Theorem C106_first_refuted : forall nodes first truth, NoDup nodes -> nth_error nodes 0 = Some first ->
  (exists v, arrow truth first v \/ arrow truth v first) ->
  forall links g, length links = num_links (length nodes) -> choices_to_graph nodes (length nodes) links = Ok g ->
    (forall v, ~ arrow g first v /\ ~ arrow g v first) /\ ~ same_graph g truth.
Proof.
  intros nodes first truth ND H0 (w & Hw) links g Hl E.
  rewrite num_links_length in Hl.
  assert (L : length (pairs (length nodes)) <= length links) by lia.
  assert (K : forall v, ~ arrow g first v /\ ~ arrow g v first).
  { intros v. split; intros A;
      destruct (arrow_ends nodes _ links g _ _ ND eq_refl L E A) as (i & j & Hi & Hij & [[Hu Hv]|[Hu Hv]]);
      match goal with K : nth_error nodes ?a = Some first |- _ =>
        lazymatch a with 0 => fail | _ => pose proof (nth_error_inj nodes a 0 first ND K H0) end end; lia. }
  split; [exact K|]. intros [_ S]. destruct (K w) as [K1 K2]. destruct Hw as [A|A]; apply S in A; contradiction.
Qed.
Print Assumptions C106_first_refuted.

(** The last [n - 1] links are never read: two values of the parametrization which only differ there are the same graph. *)
Theorem C106_idle : forall nodes l1 l2, length l1 = num_links (length nodes) -> length l2 = num_links (length nodes) ->
  firstn (num_links (length nodes) - (length nodes - 1)) l1 = firstn (num_links (length nodes) - (length nodes - 1)) l2 ->
  choices_to_graph nodes (length nodes) l1 = choices_to_graph nodes (length nodes) l2.
Proof.
  intros nodes l1 l2 H1 H2 H. set (n := length nodes) in *. unfold choices_to_graph. f_equal.
  rewrite !read_flat. apply pass_ext. intros m Hm. cbn. rewrite num_links_length in H.
  replace (length (pairs n) + (n - 1) - (n - 1)) with (length (pairs n)) in H by lia.
  assert (F : forall l : list Z, nth_error l m = nth_error (firstn (length (pairs n)) l) m).
  { clear - Hm. revert m Hm. generalize (length (pairs n)) as q. induction q as [|q IH]; intros m Hm l; [lia|].
    destruct l as [|x l]; [reflexivity|]. destruct m as [|m]; [reflexivity|]. cbn. apply IH. lia. }
  now rewrite (F l1), (F l2), H.
Qed.
Print Assumptions C106_idle.

(** Four nodes: the links of the pairs (1, 2), (1, 3) and (2, 3), then three links which are not read. *)
Example C106_case : choices_to_graph [7; 5; 6; 9] 4 [1; 0; -1; 1; 1; 1]%Z
  = Ok (mkGraph [5; 6; 9; 7] [(5, 6); (9, 6)]).
Proof. reflexivity. Qed.
(** The directions chosen may make a cycle, which no true causal graph has. *)
Example C106_cycle : choices_to_graph [7; 5; 6; 9] 4 [1; -1; 1; 0; 0; 0]%Z
  = Ok (mkGraph [5; 6; 9; 7] [(5, 6); (9, 5); (6, 9)]).
Proof. reflexivity. Qed.

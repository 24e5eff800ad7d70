(** Lemmas on the graphs of causal discovery. *)
From Coq Require Import List Arith ZArith Bool Lia FinFun.
From Verif.Model Require Import Prelude Causal.
From Verif.Spec Require Import Causal.
Import ListNotations.
Open Scope nat_scope.

Definition pairs_from (n : nat) (l : list nat) : list (nat * nat) :=
  flat_map (fun i => map (pair i) (seq (i + 1) (n - (i + 1)))) l.
Definition pairs (n : nat) : list (nat * nat) := pairs_from n (seq 1 (n - 1)).

Lemma for_each_app {A T} (f : A -> T -> result T) l1 l2 s :
  for_each f (l1 ++ l2) s = bind (for_each f l1 s) (for_each f l2).
Proof.
  revert s; induction l1 as [|a l1 IH]; intros s; cbn; [destruct (for_each f l2 s); reflexivity|].
  destruct (f a s); cbn; [apply IH|reflexivity].
Qed.
Lemma for_each_map {A B T} (f : B -> T -> result T) (h : A -> B) l s :
  for_each f (map h l) s = for_each (fun a => f (h a)) l s.
Proof. revert s; induction l as [|a l IH]; intros s; cbn; [reflexivity|]. destruct (f (h a) s); cbn; auto. Qed.
Lemma read_flat nodes n links : read_links nodes n links
  = for_each (fun p => apply_link nodes links (fst p) (snd p)) (pairs n) (g_empty, 0).
Proof.
  unfold read_links, pairs. generalize (g_empty, 0) as s. generalize (seq 1 (n - 1)) as l.
  induction l as [|i l IH]; intros s; [reflexivity|].
  unfold pairs_from; cbn [for_each flat_map]. rewrite for_each_app, for_each_map; cbn [fst snd].
  destruct (for_each _ _ s); cbn; [apply IH|reflexivity].
Qed.

Lemma pairs_in n i j : In (i, j) (pairs n) <-> 1 <= i /\ i < j < n.
Proof.
  unfold pairs, pairs_from. rewrite in_flat_map. split.
  - intros (i' & Hi & Hj). apply in_map_iff in Hj. destruct Hj as (j' & E & Hj'). inversion E; subst.
    apply in_seq in Hi. apply in_seq in Hj'. lia.
  - intros H. exists i. split; [apply in_seq; lia|]. apply in_map, in_seq. lia.
Qed.
Lemma nodup_app {A} (l1 l2 : list A) :
  NoDup l1 -> NoDup l2 -> (forall x, In x l1 -> ~ In x l2) -> NoDup (l1 ++ l2).
Proof.
  induction l1 as [|a l1 IH]; intros H1 H2 H; cbn; [exact H2|]. inversion H1; subst. constructor.
  - rewrite in_app_iff. intros [K|K]; [contradiction|]. apply (H a); [now left|exact K].
  - apply IH; auto. intros x K. apply H; now right.
Qed.
Lemma pairs_nodup n : NoDup (pairs n).
Proof.
  unfold pairs. generalize (seq_NoDup (n - 1) 1). generalize (seq 1 (n - 1)) as l.
  induction l as [|i l IH]; intros H; cbn; [constructor|]. inversion H; subst.
  apply nodup_app; [|apply IH; assumption|].
  - apply Injective_map_NoDup; [intros a b E; now inversion E|apply seq_NoDup].
  - intros [a b] K1 K2. apply in_map_iff in K1. destruct K1 as (x & E & _). inversion E; subst.
    unfold pairs_from in K2. apply in_flat_map in K2. destruct K2 as (y & Hy & K2).
    apply in_map_iff in K2. destruct K2 as (z & E2 & _). inversion E2; subst. contradiction.
Qed.
Lemma pairs_length_from m : forall a, length (pairs_from (a + m) (seq a m)) * 2 = m * (m - 1).
Proof.
  induction m as [|m IH]; intros a; [reflexivity|]. cbn [seq]. unfold pairs_from. cbn [flat_map].
  rewrite app_length, map_length, seq_length. specialize (IH (S a)). unfold pairs_from in IH.
  replace (S a + m) with (a + S m) in IH by lia.
  rewrite Nat.mul_add_distr_r, IH. destruct m; [lia|]. replace (a + S (S m) - (a + 1)) with (S m) by lia. nia.
Qed.
Lemma pairs_length n : length (pairs n) * 2 = (n - 1) * (n - 2).
Proof.
  destruct n as [|n]; [reflexivity|]. unfold pairs. cbn [Nat.sub]. rewrite Nat.sub_0_r.
  exact (pairs_length_from n 1).
Qed.
Lemma num_links_length n : num_links n = length (pairs n) + (n - 1).
Proof.
  unfold num_links. pose proof (pairs_length n) as H. symmetry. apply Nat.div_unique_exact; [lia|].
  destruct n as [|[|n]]; cbn in *; nia.
Qed.

(** graphs *)
Lemma has_node_in n g : has_node n g = true <-> In n (g_nodes g).
Proof.
  unfold has_node. rewrite existsb_exists. split.
  - intros (x & H & E). apply Nat.eqb_eq in E. now subst.
  - intros H. exists n. rewrite Nat.eqb_refl. auto.
Qed.
Lemma has_edge_in u v g : has_edge u v g = true <-> arrow g u v.
Proof.
  unfold has_edge, arrow. rewrite existsb_exists. split.
  - intros ((x, y) & H & E). apply andb_prop in E. destruct E as [E1 E2]; cbn in *.
    apply Nat.eqb_eq in E1. apply Nat.eqb_eq in E2. now subst.
  - intros H. exists (u, v). cbn. rewrite !Nat.eqb_refl. auto.
Qed.
Lemma add_node_edges n g : g_edges (add_node n g) = g_edges g.
Proof. unfold add_node. destruct (has_node n g); reflexivity. Qed.
Lemma add_node_in n g m : In m (g_nodes (add_node n g)) <-> m = n \/ In m (g_nodes g).
Proof.
  unfold add_node. destruct (has_node n g) eqn:E; cbn.
  - apply has_node_in in E. split; [auto|]. intros [->|H]; auto.
  - rewrite in_app_iff; cbn. intuition.
Qed.
Lemma add_node_nodup n g : NoDup (g_nodes g) -> NoDup (g_nodes (add_node n g)).
Proof.
  intros H. unfold add_node. destruct (has_node n g) eqn:E; cbn; [exact H|].
  apply nodup_app; [exact H|repeat constructor; auto|]. intros x K [->|[]].
  apply has_node_in in K. congruence.
Qed.
Lemma add_edge_nodes u v g : g_nodes (add_edge u v g) = g_nodes (add_node v (add_node u g)).
Proof. unfold add_edge. cbv zeta. destruct (has_edge _ _ _); reflexivity. Qed.
Lemma add_edge_arrow u v g a b : arrow (add_edge u v g) a b <-> arrow g a b \/ (a = u /\ b = v).
Proof.
  unfold add_edge. cbv zeta. destruct (has_edge _ _ _) eqn:E.
  - apply has_edge_in in E. unfold arrow in *. rewrite !add_node_edges in *. split; [auto|].
    intros [H|[-> ->]]; auto.
  - unfold arrow. cbn. rewrite !add_node_edges, in_app_iff. cbn. split.
    + intros [H|[H|[]]]; [auto|]. inversion H; auto.
    + intros [H|[-> ->]]; auto.
Qed.

(** the arrow that a link means *)
Definition means (nodes : list nat) (links : list Z) (k i j u v : nat) : Prop :=
  (nth_error links k = Some 1%Z /\ nth_error nodes i = Some u /\ nth_error nodes j = Some v)
  \/ (nth_error links k = Some (-1)%Z /\ nth_error nodes j = Some u /\ nth_error nodes i = Some v).
Definition good (nodes : list nat) (g : digraph) : Prop :=
  NoDup (g_nodes g) /\ incl (g_nodes g) nodes.

Lemma good_add nodes u v g : In u nodes -> In v nodes -> good nodes g -> good nodes (add_edge u v g).
Proof.
  intros Hu Hv [H1 H2]. split; rewrite add_edge_nodes.
  - now repeat apply add_node_nodup.
  - intros x K. rewrite !add_node_in in K. destruct K as [->|[->|K]]; auto.
Qed.

Lemma apply_link_ok nodes links i j g k :
  k < length links -> i < length nodes -> j < length nodes -> good nodes g ->
  exists g', apply_link nodes links i j (g, k) = Ok (g', S k) /\ good nodes g'
    /\ (forall u v, arrow g' u v <-> arrow g u v \/ means nodes links k i j u v).
Proof.
  intros Hk Hi Hj G. unfold apply_link, index.
  destruct (nth_error links k) as [l|] eqn:El; [|apply nth_error_None in El; lia].
  destruct (nth_error nodes i) as [x|] eqn:Ei; [|apply nth_error_None in Ei; lia].
  destruct (nth_error nodes j) as [y|] eqn:Ej; [|apply nth_error_None in Ej; lia].
  cbn [bind]. unfold means. rewrite El, Ei, Ej.
  destruct (Z.eqb_spec l (-1)) as [->|N1].
  - eexists; split; [reflexivity|]. split; [apply good_add; eauto using nth_error_In|].
    intros u v. rewrite add_edge_arrow. split.
    + intros [H|[-> ->]]; auto.
    + intros [H|[(H & _)|(_ & H1 & H2)]]; [auto|discriminate|]. inversion H1; inversion H2; auto.
  - destruct (Z.eqb_spec l 1) as [->|N2].
    + eexists; split; [reflexivity|]. split; [apply good_add; eauto using nth_error_In|].
      intros u v. rewrite add_edge_arrow. split.
      * intros [H|[-> ->]]; auto.
      * intros [H|[(_ & H1 & H2)|(H & _)]]; [auto| |discriminate]. inversion H1; inversion H2; auto.
    + eexists; split; [reflexivity|]. split; [exact G|]. intros u v. split; [auto|].
      intros [H|[(H & _)|(H & _)]]; auto; inversion H; contradiction.
Qed.

Lemma pass_ok nodes links ps : forall g k,
  k + length ps <= length links -> (forall i j, In (i, j) ps -> i < length nodes /\ j < length nodes) ->
  good nodes g ->
  exists g', for_each (fun p => apply_link nodes links (fst p) (snd p)) ps (g, k) = Ok (g', k + length ps)
    /\ good nodes g'
    /\ (forall u v, arrow g' u v <-> arrow g u v
         \/ exists m i j, nth_error ps m = Some (i, j) /\ means nodes links (k + m) i j u v).
Proof.
  induction ps as [|[i j] ps IH]; intros g k Hk Hin G; cbn [for_each length fst snd].
  - exists g. rewrite Nat.add_0_r. split; [reflexivity|]. split; [exact G|]. intros u v. split; [auto|].
    intros [H|(m & i & j & H & _)]; [auto|]. destruct m; discriminate.
  - cbn [length] in Hk. destruct (Hin i j (or_introl eq_refl)) as [Hi Hj].
    destruct (apply_link_ok nodes links i j g k ltac:(lia) Hi Hj G) as (g1 & E & G1 & A1).
    rewrite E. cbn [bind].
    destruct (IH g1 (S k) ltac:(lia) (fun a b H => Hin a b (or_intror H)) G1) as (g2 & E2 & G2 & A2).
    exists g2. rewrite E2. split; [f_equal; f_equal; lia|]. split; [exact G2|].
    intros u v. rewrite A2, A1. split.
    + intros [[H|H]|(m & a & b & H1 & H2)]; [auto| |].
      * right. exists 0, i, j. rewrite Nat.add_0_r. auto.
      * right. exists (S m), a, b. rewrite Nat.add_succ_r. auto.
    + intros [H|(m & a & b & H1 & H2)]; [auto|]. destruct m as [|m]; cbn in H1.
      * inversion H1; subst. rewrite Nat.add_0_r in H2. auto.
      * right. exists m, a, b. rewrite Nat.add_succ_r in H2. auto.
Qed.

Lemma missing_edges l g : g_edges (fold_left (fun g n => add_node n g) l g) = g_edges g.
Proof. revert g; induction l as [|a l IH]; intros g; cbn; [reflexivity|]. now rewrite IH, add_node_edges. Qed.
Lemma missing_in l : forall g m, In m (g_nodes (fold_left (fun g n => add_node n g) l g)) <-> In m l \/ In m (g_nodes g).
Proof.
  induction l as [|a l IH]; intros g m; cbn; [intuition|]. rewrite IH, add_node_in. intuition.
Qed.
Lemma missing_nodup l : forall g, NoDup (g_nodes g) -> NoDup (g_nodes (fold_left (fun g n => add_node n g) l g)).
Proof. induction l as [|a l IH]; intros g H; cbn; [exact H|]. now apply IH, add_node_nodup. Qed.

Lemma graph_ok nodes n links :
  length nodes = n -> length (pairs n) <= length links ->
  exists g, choices_to_graph nodes n links = Ok g /\ NoDup (g_nodes g)
    /\ (forall x, In x (g_nodes g) <-> In x nodes)
    /\ (forall u v, arrow g u v <->
         exists m i j, nth_error (pairs n) m = Some (i, j) /\ means nodes links m i j u v).
Proof.
  intros Hn Hl.
  destruct (pass_ok nodes links (pairs n) g_empty 0) as (g & E & G & A).
  - exact Hl.
  - intros i j H. apply pairs_in in H. lia.
  - split; cbn; [constructor|intros x []].
  - unfold choices_to_graph. rewrite read_flat, E. cbn [bind fst]. eexists; split; [reflexivity|].
    destruct G as [G1 G2]. unfold add_missing_nodes. split; [now apply missing_nodup|]. split.
    + intros x. rewrite missing_in, filter_In. split.
      * intros [[H _]|H]; auto.
      * intros H. destruct (has_node x g) eqn:K; [right; now apply has_node_in|left; auto].
    + intros u v. unfold arrow at 1. rewrite missing_edges. change (In (u, v) (g_edges g)) with (arrow g u v).
      rewrite A. cbn. split; [|auto]. intros [[]|H]; exact H.
Qed.

(** where a pair is read *)
Fixpoint place_in (p : nat * nat) (l : list (nat * nat)) : nat :=
  match l with
  | [] => 0
  | q :: l' => if (fst p =? fst q) && (snd p =? snd q) then 0 else S (place_in p l')
  end.
Lemma place_nth p l : In p l -> nth_error l (place_in p l) = Some p.
Proof.
  induction l as [|q l IH]; intros H; cbn; [destruct H|]. destruct p as [a b], q as [c d]; cbn in *.
  destruct (Nat.eqb_spec a c) as [->|N]; cbn.
  - destruct (Nat.eqb_spec b d) as [->|N]; cbn; [reflexivity|]. apply IH. destruct H as [H|H]; [|exact H].
    inversion H; congruence.
  - apply IH. destruct H as [H|H]; [|exact H]. inversion H; congruence.
Qed.
Lemma nth_error_inj {A} (l : list A) i j x : NoDup l -> nth_error l i = Some x -> nth_error l j = Some x -> i = j.
Proof.
  intros H H1 H2. rewrite NoDup_nth_error in H. apply H; [|congruence].
  apply nth_error_Some. congruence.
Qed.

Lemma pair_arrow nodes n links g i j u v :
  NoDup nodes -> length nodes = n -> length (pairs n) <= length links -> choices_to_graph nodes n links = Ok g ->
  1 <= i -> i < j < n -> nth_error nodes i = Some u -> nth_error nodes j = Some v ->
  (arrow g u v <-> nth_error links (place_in (i, j) (pairs n)) = Some 1%Z)
  /\ (arrow g v u <-> nth_error links (place_in (i, j) (pairs n)) = Some (-1)%Z).
Proof.
  intros ND Hn Hl E Hi Hij Hu Hv. destruct (graph_ok nodes n links Hn Hl) as (g' & E' & _ & _ & A).
  rewrite E in E'. inversion E'; subst g'. clear E'.
  assert (P : nth_error (pairs n) (place_in (i, j) (pairs n)) = Some (i, j)).
  { apply place_nth, pairs_in. lia. }
  assert (U : forall m a b x y, nth_error (pairs n) m = Some (a, b) -> nth_error nodes a = Some x ->
              nth_error nodes b = Some y -> (x = u -> y = v -> m = place_in (i, j) (pairs n)) /\ (x = v -> y = u -> False)).
  { intros m a b x y H1 H2 H3. split.
    - intros -> ->. assert (a = i) by (apply (nth_error_inj nodes a i u); assumption).
      assert (b = j) by (apply (nth_error_inj nodes b j v); assumption). subst a b.
      apply (nth_error_inj (pairs n) m _ (i, j) (pairs_nodup n) H1 P).
    - intros -> ->. assert (a = j) by (apply (nth_error_inj nodes a j v); assumption).
      assert (b = i) by (apply (nth_error_inj nodes b i u); assumption). subst a b.
      apply nth_error_In in H1. apply pairs_in in H1. lia. }
  split; rewrite A; split.
  - intros (m & a & b & H1 & [(H2 & H3 & H4)|(H2 & H3 & H4)]).
    + destruct (U m a b u v H1 H3 H4) as [K _]. rewrite <- K; auto.
    + destruct (U m a b v u H1 H4 H3) as [_ K]. destruct K; auto.
  - intros H. exists (place_in (i, j) (pairs n)), i, j. split; [exact P|]. left. auto.
  - intros (m & a & b & H1 & [(H2 & H3 & H4)|(H2 & H3 & H4)]).
    + destruct (U m a b v u H1 H3 H4) as [_ K]. destruct K; auto.
    + destruct (U m a b u v H1 H4 H3) as [K _]. rewrite <- K; auto.
  - intros H. exists (place_in (i, j) (pairs n)), i, j. split; [exact P|]. right. auto.
Qed.

Lemma arrow_ends nodes n links g u v :
  NoDup nodes -> length nodes = n -> length (pairs n) <= length links -> choices_to_graph nodes n links = Ok g ->
  arrow g u v -> exists i j, 1 <= i /\ i < j < n
    /\ ((nth_error nodes i = Some u /\ nth_error nodes j = Some v)
        \/ (nth_error nodes j = Some u /\ nth_error nodes i = Some v)).
Proof.
  intros ND Hn Hl E H. destruct (graph_ok nodes n links Hn Hl) as (g' & E' & _ & _ & A).
  rewrite E in E'. inversion E'; subst g'. apply A in H. destruct H as (m & i & j & H1 & H2).
  apply nth_error_In, pairs_in in H1. exists i, j. unfold means in H2. intuition.
Qed.

Lemma apply_link_ext nodes l1 l2 i j g k : nth_error l1 k = nth_error l2 k ->
  apply_link nodes l1 i j (g, k) = apply_link nodes l2 i j (g, k).
Proof. intros H. unfold apply_link, index. now rewrite H. Qed.
Lemma apply_link_next nodes l i j g k s : apply_link nodes l i j (g, k) = Ok s -> snd s = S k.
Proof.
  unfold apply_link, index. destruct (nth_error l k); cbn; [|discriminate].
  destruct (Z.eqb z (-1)); [|destruct (Z.eqb z 1)]; repeat (destruct (nth_error nodes _); cbn; [|discriminate]);
    intros H; inversion H; reflexivity.
Qed.
Lemma pass_ext nodes l1 l2 ps : forall g k,
  (forall m, m < length ps -> nth_error l1 (k + m) = nth_error l2 (k + m)) ->
  for_each (fun p => apply_link nodes l1 (fst p) (snd p)) ps (g, k)
  = for_each (fun p => apply_link nodes l2 (fst p) (snd p)) ps (g, k).
Proof.
  induction ps as [|[i j] ps IH]; intros g k H; cbn [for_each fst snd]; [reflexivity|].
  rewrite (apply_link_ext nodes l1 l2).
  - destruct (apply_link nodes l2 i j (g, k)) as [[g' k']|e] eqn:E; [|reflexivity]. cbn [bind].
    apply apply_link_next in E; cbn in E; subst k'. apply IH. intros m Hm.
    rewrite Nat.add_succ_comm. apply H. cbn. lia.
  - specialize (H 0). rewrite Nat.add_0_r in H. apply H. cbn; lia.
Qed.

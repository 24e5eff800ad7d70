(** Lemmas on the structured mutations. *)
From Coq Require Import Arith ZArith Bool Lia List Permutation.
From Verif.Model Require Import Prelude Mutation.
From Verif.Spec Require Import Mutation.
From Verif.Proofs Require Import Crossover.
Import ListNotations.
Open Scope nat_scope.

Fixpoint tensor_ind' {A} (P : tensor A -> Prop) (HL : forall a, P (TLeaf a)) (HN : forall l, Forall P l -> P (TNode l)) (t : tensor A) : P t :=
  match t with
  | TLeaf a => HL a
  | TNode l => HN l ((fix go l : Forall P l := match l with [] => Forall_nil _ | x :: l' => Forall_cons x (tensor_ind' P HL HN x) (go l') end) l)
  end.

Section L.
Context {B : Type}.
Implicit Types l : list B.
Lemma roll_perm k l : Permutation (roll k l) l.
Proof. unfold roll. set (m := length l - k mod length l). rewrite Permutation_app_comm, firstn_skipn. reflexivity. Qed.
Lemma roll_length k l : length (roll k l) = length l.
Proof. apply Permutation_length, roll_perm. Qed.
Lemma roll_nth k l i : i < length l -> nth_error (roll k l) ((i + k) mod length l) = nth_error l i.
Proof.
  intros Hi. assert (Hn : length l <> 0) by lia. unfold roll.
  pose proof (Nat.mod_upper_bound k (length l) Hn) as Hk. 
  assert (E : (i + k) mod length l = (i + k mod length l) mod length l) by (now rewrite Nat.add_mod_idemp_r).
  rewrite E. clear E. revert Hk. generalize (k mod length l) as q. intros q Hq.
  destruct (le_lt_dec (length l) (i + q)) as [H|H].
  - assert (Em : (i + q) mod length l = i + q - length l).
    { symmetry. apply (Nat.mod_unique _ _ 1); lia. }
    rewrite Em, nth_error_app1 by (rewrite skipn_length; lia). rewrite nth_error_skipn. f_equal. lia.
  - rewrite Nat.mod_small by exact H. rewrite nth_error_app2 by (rewrite skipn_length; lia).
    rewrite skipn_length, nth_error_firstn. destruct (Nat.ltb_spec (i + q - (length l - (length l - q))) (length l - q)); [|lia].
    f_equal. lia.
Qed.
Lemma jump_parts size init newpos l :
  exists a chunk b r1 r2, l = a ++ chunk ++ b /\ jump size init newpos l = r1 ++ chunk ++ r2 /\ r1 ++ r2 = a ++ b /\
    a = firstn init l /\ chunk = firstn size (skipn init l) /\ r1 = firstn newpos (a ++ b).
Proof.
  exists (firstn init l), (firstn size (skipn init l)), (skipn (init + size) l).
  exists (firstn newpos (firstn init l ++ skipn (init + size) l)), (skipn newpos (firstn init l ++ skipn (init + size) l)).
  repeat split; [|apply firstn_skipn].
  rewrite <- (firstn_skipn init l) at 1. f_equal. rewrite <- (firstn_skipn size (skipn init l)) at 1. f_equal.
  clear. revert l. induction init as [|init IH]; intros l; [reflexivity|].
  destruct l as [|x l]; [cbn; now destruct size|]. cbn. apply IH.
Qed.
Lemma jump_perm size init newpos l : Permutation (jump size init newpos l) l.
Proof.
  destruct (jump_parts size init newpos l) as (a & c & b & r1 & r2 & E & Ej & Er & _).
  rewrite Ej, E. rewrite (Permutation_app_comm c r2), app_assoc, Er, <- app_assoc. apply Permutation_app_head, Permutation_app_comm.
Qed.
End L.

Section S.
Context {A : Type}.
Implicit Types t : tensor A.

Lemma flat_map_perm {B C} (f : B -> list C) l l' : Permutation l l' -> Permutation (flat_map f l) (flat_map f l').
Proof.
  induction 1 as [|x l l' H IH|x y l|l l' l'' H1 IH1 H2 IH2]; cbn.
  - constructor.
  - now apply Permutation_app_head.
  - rewrite !app_assoc. apply Permutation_app_tail, Permutation_app_comm.
  - now transitivity (flat_map f l').
Qed.
Lemma along_perm axis f t : (forall l, Permutation (f l) l) -> Permutation (elements (along axis f t)) (elements t).
Proof.
  intros Hf. revert axis. induction t as [a|l IH] using tensor_ind'; intros axis; [reflexivity|].
  destruct axis as [|axis]; cbn [along elements].
  - apply flat_map_perm, Hf.
  - induction IH as [|x l Hx IH IHl]; [constructor|]. cbn. apply Permutation_app; [apply Hx|exact IHl].
Qed.
Lemma along_shape axis f shape t : (forall l, Permutation (f l) l) -> has_shape shape t -> has_shape shape (along axis f t).
Proof.
  intros Hf. revert axis shape. induction t as [a|l IH] using tensor_ind'; intros axis shape H; [exact H|].
  destruct shape as [|n shape]; [destruct H|]. destruct H as [H1 H2]. destruct axis as [|axis]; cbn [along has_shape].
  - split; [now rewrite (Permutation_length (Hf l))|]. eapply Permutation_Forall; [apply Permutation_sym, Hf|exact H2].
  - split; [now rewrite map_length|]. rewrite Forall_map. rewrite Forall_forall in *. intros x Hx. apply (IH x Hx). auto.
Qed.
(** an index function which the list function follows *)
Lemma along_index axis f g n shape t ix : nth_error shape axis = Some n -> has_shape shape t -> valid_index shape ix ->
  (forall (l : list (tensor A)) i, length l = n -> i < n -> nth_error (f l) (g i) = nth_error l i) ->
  at_index (along axis f t) (move axis g ix) = at_index t ix.
Proof.
  intros Hn. revert shape t ix Hn. induction axis as [|axis IH]; intros [|m shape] t ix Hn Hs Hv Hf; try discriminate; destruct t as [a|l]; try destruct Hs as [H1 H2];
    destruct ix as [|i ix]; try destruct Hv as [Hi Hv]; try easy; cbn [along move at_index].
  - injection Hn as ->. rewrite Hf by (try congruence; lia). reflexivity.
  - rewrite nth_error_map. destruct (nth_error l i) as [t'|] eqn:E; [|reflexivity]. cbn [option_map].
    apply (IH shape); [exact Hn| |exact Hv|exact Hf]. rewrite Forall_forall in H2. apply H2. eapply nth_error_In. exact E.
Qed.
Lemma valid_move axis g n shape ix : nth_error shape axis = Some n -> (forall i, i < n -> g i < n) -> valid_index shape ix -> valid_index shape (move axis g ix).
Proof.
  revert shape ix. induction axis as [|axis IH]; intros [|m shape] [|i ix] Hn Hg Hv; try easy; destruct Hv as [Hi Hv]; cbn.
  - injection Hn as ->. auto.
  - split; [exact Hi|]. now apply IH.
Qed.
Lemma axis_size_shape axis n shape t : nth_error shape axis = Some n -> has_shape shape t ->
  (forall j m, j < axis -> nth_error shape j = Some m -> 0 < m) -> axis_size axis t = n.
Proof.
  revert shape t. induction axis as [|axis IH]; intros [|m shape] [a|l] Hn Hs Hp; try easy; destruct Hs as [H1 H2]; cbn in *.
  - congruence.
  - destruct l as [|x l]. { specialize (Hp 0 m ltac:(lia) eq_refl). cbn in H1. lia. }
    inversion H2; subst. apply (IH shape); [exact Hn|assumption|]. intros j k Hj E. apply (Hp (S j) k); [lia|exact E].
Qed.

(** merging *)
Lemma merge_node w ws lx ly : merge (w :: ws) (TNode lx) (TNode ly) =
  TNode (map (fun iab => if match w with None => true | Some (start, size) => (start <=? fst iab) && (fst iab <? start + size) end
                         then merge ws (fst (snd iab)) (snd (snd iab)) else fst (snd iab)) (combine (seq 0 (length lx)) (combine lx ly)) : list (tensor A)).
Proof.
  cbn [merge]. f_equal. generalize 0 as i. revert ly. induction lx as [|a lx IH]; intros ly i; [reflexivity|].
  destruct ly as [|b ly]; [reflexivity|]. cbn [length seq combine map fst snd]. f_equal. apply IH.
Qed.
Lemma merge_index ws shape (x y : tensor A) ix : length ws = length shape -> has_shape shape x -> has_shape shape y -> valid_index shape ix ->
  (inside ws ix -> at_index (merge ws x y) ix = at_index y ix) /\ (~ inside ws ix -> at_index (merge ws x y) ix = at_index x ix).
Proof.
  revert shape x y ix. induction ws as [|w ws IH]; intros [|n shape] x y ix Hl Hx Hy Hv; try discriminate; destruct ix as [|i ix]; try easy.
  - destruct x, y; easy.
  - destruct x as [|lx], y as [|ly]; try easy. destruct Hx as [X1 X2], Hy as [Y1 Y2], Hv as [Hi Hv].
    rewrite merge_node. cbn [at_index]. rewrite nth_error_map, !nth_error_combine, nth_error_seq by lia.
    destruct (nth_error lx i) as [a|] eqn:Ea. 2:{ apply nth_error_None in Ea. lia. }
    destruct (nth_error ly i) as [b|] eqn:Eb. 2:{ apply nth_error_None in Eb. lia. }
    cbn [option_map fst snd].
    assert (Hab : has_shape shape a /\ has_shape shape b).
    { rewrite Forall_forall in *. split; [apply X2|apply Y2]; eapply nth_error_In; eassumption. }
    destruct (IH shape a b ix ltac:(cbn in Hl; lia) (proj1 Hab) (proj2 Hab) Hv) as [I1 I2].
    destruct w as [[start size]|]; cbn [inside]; [|exact (conj I1 I2)].
    destruct (Nat.leb_spec start i), (Nat.ltb_spec i (start + size)); cbn [andb]; split; intros H'; try lia; try reflexivity.
    + apply I1. tauto.
    + apply I2. intros Hin. apply H'. split; [lia|exact Hin].
Qed.
Lemma merge_shape ws shape (x y : tensor A) : length ws = length shape -> has_shape shape x -> has_shape shape y -> has_shape shape (merge ws x y).
Proof.
  revert shape x y. induction ws as [|w ws IH]; intros [|n shape] x y Hl Hx Hy; try discriminate.
  - destruct x, y; easy.
  - destruct x as [|lx], y as [|ly]; try easy. destruct Hx as [X1 X2], Hy as [Y1 Y2]. rewrite merge_node. cbn [has_shape]. split.
    + rewrite map_length, !combine_length, seq_length. lia.
    + rewrite Forall_map, Forall_forall. intros [i [a b]] Hin. apply in_combine_r in Hin. rewrite Forall_forall in *.
      pose proof (in_combine_l _ _ _ _ Hin) as Ha. pose proof (in_combine_r _ _ _ _ Hin) as Hb. cbn [fst snd].
      destruct (match w with None => true | Some (start, size) => (start <=? i) && (i <? start + size) end); [|auto].
      apply IH; [cbn in Hl; lia|auto|auto].
Qed.
Lemma make_slices_spec a shape axes size starts ws : 1 <= size -> make_slices a shape axes size starts = Ok ws ->
  length ws = length shape /\
  forall j n, nth_error shape j = Some n ->
    if existsb (Z.eqb (Z.of_nat (a + j))) axes then exists start, nth_error ws j = Some (Some (start, size)) /\ start + size < n
    else nth_error ws j = Some None.
Proof.
  intros Hsz. revert a starts ws. induction shape as [|s shape IH]; intros a starts ws H; cbn [make_slices] in H.
  - injection H as <-. split; [reflexivity|]. intros [|j] n E; discriminate.
  - destruct (existsb (Z.eqb (Z.of_nat a)) axes) eqn:Ea.
    + destruct (Nat.leb_spec s 1); [discriminate|]. destruct (Nat.leb_spec s size); [discriminate|].
      destruct starts as [|start starts]; [discriminate|]. destruct (Nat.ltb_spec start (s - size)); [|discriminate].
      destruct (make_slices (S a) shape axes size starts) as [r|] eqn:Er; [|discriminate]. injection H as <-.
      destruct (IH _ _ _ Er) as [L I]. split; [cbn; lia|]. intros [|j] n E.
      * injection E as ->. rewrite Nat.add_0_r, Ea. exists start. split; [reflexivity|lia].
      * specialize (I j n E). rewrite Nat.add_succ_comm in I. exact I.
    + destruct (make_slices (S a) shape axes size starts) as [r|] eqn:Er; [|discriminate]. injection H as <-.
      destruct (IH _ _ _ Er) as [L I]. split; [cbn; lia|]. intros [|j] n E.
      * rewrite Nat.add_0_r, Ea. reflexivity.
      * specialize (I j n E). rewrite Nat.add_succ_comm in I. exact I.
Qed.
End S.

(** Lemmas on empirical distributions. *)
From Coq Require Import Arith QArith Bool Lia Lqa Sorted List.
From Verif.Model Require Import Prelude MultiValue Nash.
From Verif.Spec Require Import Nash.
From Verif.Proofs Require Import MultiValue.
Import ListNotations.
Open Scope nat_scope.

Section P.
Context {A : Type}.
Lemma max_from (l : tried A) : forall k, let m := fold_left (fun m p => Nat.max m (snd p)) l k in
  k <= m /\ (forall a c, In (a, c) l -> c <= m) /\ (m = k \/ exists a, In (a, m) l).
Proof.
  induction l as [|[a c] l IH]; intros k; cbn zeta; cbn [fold_left snd].
  - repeat split; [lia|intros ? ? []|auto].
  - destruct (IH (Nat.max k c)) as [H1 [H2 H3]]. split; [lia|]. split.
    + intros b d [H|H]; [inversion H; subst; lia|apply (H2 b d H)].
    + destruct H3 as [H3|[b H3]]; [|right; exists b; right; exact H3].
      rewrite H3. destruct (Nat.max_dec k c) as [E|E]; rewrite E; [left; reflexivity|right; exists a; left; reflexivity].
Qed.
Lemma most_unique (l : tried A) m n : most l m -> most l n -> m = n.
Proof. intros [[a Ha] Hm] [[b Hb] Hn]. specialize (Hm b n Hb). specialize (Hn a m Ha). lia. Qed.
Lemma max_most (l : tried A) : l <> [] -> most l (max_count l).
Proof.
  intros Hne. destruct (max_from l 0) as [_ [H2 H3]]. fold (max_count l) in *. split; [|exact H2].
  destruct H3 as [H3|H3]; [|exact H3]. destruct l as [|[a c] l]; [congruence|].
  exists a. specialize (H2 a c (or_introl eq_refl)). rewrite H3 in *. left. f_equal. lia.
Qed.
Lemma sum_trials (l : tried A) : sum_count l = trials l.
Proof.
  unfold sum_count, trials. assert (H : forall k, fold_left (fun m p => m + snd p) l k = k + list_sum (map snd l)).
  { induction l as [|p l IH]; intros k; cbn; [lia|]. rewrite IH. unfold list_sum. lia. }
  apply H.
Qed.
Notation sorted := (StronglySorted (fun x y : A * nat => snd x <= snd y)).
Lemma insert_in x (l : tried A) y : In y (insert x l) <-> y = x \/ In y l.
Proof. induction l as [|z l IH]; cbn; [intuition|]. destruct (snd x <=? snd z); cbn; [intuition|]. rewrite IH. intuition. Qed.
Lemma sort_in (l : tried A) y : In y (sort l) <-> In y l.
Proof. induction l as [|x l IH]; cbn; [reflexivity|]. rewrite insert_in, IH. intuition. Qed.
Lemma insert_sorted x (l : tried A) : sorted l -> sorted (insert x l).
Proof.
  induction 1 as [|y l Hl IH Hy]; cbn; [repeat constructor|]. destruct (snd x <=? snd y) eqn:E.
  - apply Nat.leb_le in E. constructor; [constructor; assumption|]. constructor; [exact E|].
    rewrite Forall_forall in *. intros z Hz. specialize (Hy z Hz). lia.
  - apply Nat.leb_gt in E. constructor; [exact IH|]. rewrite Forall_forall in *. intros z Hz. apply insert_in in Hz as [->|Hz]; [lia|auto].
Qed.
Lemma sort_sorted (l : tried A) : sorted (sort l).
Proof. induction l; cbn; [constructor|apply insert_sorted; assumption]. Qed.
Lemma insert_filter c x (l : tried A) : filter (fun p => snd p =? c) (insert x l) = filter (fun p => snd p =? c) (x :: l).
Proof.
  induction l as [|y l IH]; [reflexivity|]. cbn [insert]. destruct (snd x <=? snd y) eqn:E; [reflexivity|].
  apply Nat.leb_gt in E. cbn [filter] in *. destruct (snd x =? c) eqn:Ex, (snd y =? c) eqn:Ey; rewrite ?IH; try reflexivity.
  apply Nat.eqb_eq in Ex, Ey. lia.
Qed.
Lemma sort_filter c (l : tried A) : filter (fun p => snd p =? c) (sort l) = filter (fun p => snd p =? c) l.
Proof.
  induction l as [|x l IH]; [reflexivity|]. cbn [sort fold_right]. rewrite insert_filter. cbn [filter]. fold (sort l). rewrite IH. reflexivity.
Qed.
Lemma filter_filter_count c m (l : tried A) : m <= c * c -> filter (fun p => snd p =? c) (filter (fun p => m <=? snd p * snd p) l) = filter (fun p => snd p =? c) l.
Proof.
  intros H. induction l as [|x l IH]; [reflexivity|]. cbn. destruct (m <=? snd x * snd x) eqn:E; cbn; rewrite IH; [reflexivity|].
  destruct (snd x =? c) eqn:E2; [|reflexivity]. apply Nat.eqb_eq in E2. apply Nat.leb_gt in E. rewrite E2 in E. lia.
Qed.

Lemma fold_qplus l : forall x, (fold_left Qplus l x == x + fold_left Qplus l 0)%Q.
Proof.
  induction l as [|a l IH]; intros x; cbn; [ring|]. rewrite (IH (x + a)%Q), (IH (0 + a)%Q). ring.
Qed.
Lemma fold_trials (l : tried A) : (fold_left Qplus (map (fun p => qnat (snd p)) l) 0 == qnat (trials l))%Q.
Proof.
  induction l as [|x l IH]; [reflexivity|]. cbn [map fold_left]. rewrite fold_qplus, IH.
  change (trials (x :: l)) with (snd x + trials l). rewrite qnat_plus. ring.
Qed.
Lemma trials_firstn_S (l : tried A) i p : nth_error l i = Some p -> trials (firstn (S i) l) = trials (firstn i l) + snd p.
Proof.
  revert i. induction l as [|x l IH]; intros i H; [destruct i; discriminate|]. destruct i.
  - cbn in H. inversion H. subst. unfold trials. cbn. lia.
  - cbn [nth_error] in H. change (firstn (S (S i)) (x :: l)) with (x :: firstn (S i) l). change (firstn (S i) (x :: l)) with (x :: firstn i l).
    change (snd x + trials (firstn (S i) l) = snd x + trials (firstn i l) + snd p). rewrite (IH i H). lia.
Qed.

(** the index which is chosen *)
Lemma choose_ok (T : Q) (l : tried A) : (0 < T)%Q -> forall u pre k, (pre / T <= u)%Q -> (u < (pre + qnat (trials l)) / T)%Q ->
  forall probs c, Forall2 (fun q p => (q == qnat (snd p) / T)%Q) probs l -> (c == pre / T)%Q ->
  exists i p, choose u c probs k = Ok (k + i) /\ nth_error l i = Some p /\
    ((pre + qnat (trials (firstn i l))) / T <= u)%Q /\ (u < (pre + qnat (trials (firstn (S i) l))) / T)%Q.
Proof.
  intros HT. induction l as [|x l IH]; intros u pre k H1 H2 probs c Hp Hc.
  - exfalso. change (trials []) with 0 in H2. rewrite qnat_0, Qplus_0_r in H2. apply (Qlt_not_le _ _ H2 H1).
  - inversion Hp as [|q ? probs' ? Hq Hp']; subst. cbn [choose].
    assert (Hc' : (c + q == (pre + qnat (snd x)) / T)%Q) by (rewrite Hc, Hq; field; intros E; rewrite E in HT; discriminate).
    destruct (qlt u (c + q)%Q) eqn:E.
    + apply qlt_iff in E. rewrite Hc' in E. exists 0, x. split; [f_equal; lia|]. split; [reflexivity|]. cbn [firstn].
      change (trials (@nil (A * nat))) with 0. change (trials [x]) with (snd x + 0). rewrite Nat.add_0_r, qnat_0, Qplus_0_r. auto.
    + apply qlt_false in E. rewrite Hc' in E.
      assert (H2' : (u < (pre + qnat (snd x) + qnat (trials l)) / T)%Q).
      { change (trials (x :: l)) with (snd x + trials l) in H2. rewrite qnat_plus, Qplus_assoc in H2. exact H2. }
      destruct (IH u (pre + qnat (snd x))%Q (S k) E H2' probs' (c + q)%Q Hp' Hc') as [i [p [I1 [I2 [I3 I4]]]]].
      exists (S i), p. split; [rewrite I1; f_equal; lia|]. split; [exact I2|].
      change (firstn (S (S i)) (x :: l)) with (x :: firstn (S i) l). change (firstn (S i) (x :: l)) with (x :: firstn i l).
      change (trials (x :: firstn i l)) with (snd x + trials (firstn i l)). change (trials (x :: firstn (S i) l)) with (snd x + trials (firstn (S i) l)).
      rewrite !qnat_plus, !Qplus_assoc. auto.
Qed.
End P.

Section J.
Context {B : Type} (func : nat -> result B).
Lemma requests_done n c b : requests func n (mkjob (Some b) c) = (mkjob (Some b) c, repeat (Ok b) n).
Proof. induction n as [|n IH]; [reflexivity|]. cbn. rewrite IH. reflexivity. Qed.
Lemma requests_failing n : forall c, (forall i, i < n -> exists e, func (c + i) = Err e) ->
  requests func n (mkjob None c) = (mkjob None (c + n), map func (seq c n)).
Proof.
  induction n as [|n IH]; intros c H; [cbn; rewrite Nat.add_0_r; reflexivity|]. cbn [requests get_result j_result j_calls].
  destruct (H 0) as [e E]; [lia|]. rewrite Nat.add_0_r in E. unfold get_result. cbn [j_result j_calls]. rewrite E.
  rewrite IH; [|intros i Hi; destruct (H (S i)) as [e' E']; [lia|]; exists e'; rewrite <- E'; f_equal; lia].
  cbn [seq map]. rewrite E. f_equal. f_equal. lia.
Qed.
Lemma requests_app n m j : requests func (n + m) j =
  (fst (requests func m (fst (requests func n j))), snd (requests func n j) ++ snd (requests func m (fst (requests func n j)))).
Proof.
  revert j. induction n as [|n IH]; intros j; [cbn; destruct (requests func m j); reflexivity|].
  cbn [requests Nat.add]. destruct (get_result func j) as [j1 r]. rewrite IH. destruct (requests func n j1) as [j2 rs]. cbn. reflexivity.
Qed.
End J.

From Coq Require Import Bool Arith List Reals Lia Lra Sorting.Permutation.
From Verif Require Import Model.Prelude Model.PointSets Spec.PointSets.
Import ListNotations.
Open Scope nat_scope.
Open Scope list_scope.

Lemma norm_squares v : norm v = sqrt (squares (concat v)).
Proof. reflexivity. Qed.
Lemma squares_pos l : (0 <= squares l)%R.
Proof. induction l as [|a l IH]; cbn; [lra|]. pose proof (Rle_0_sqr a) as H. unfold Rsqr in H. lra. Qed.
Lemma squares_app a b : squares (a ++ b) = (squares a + squares b)%R.
Proof. induction a as [|x a IH]; cbn; [lra|]. rewrite IH. lra. Qed.
Lemma squares_scale c l : squares (map (fun a => (a / c)%R) l) = (squares l * (/ c * / c))%R.
Proof. induction l as [|a l IH]; cbn; [lra|]. rewrite IH. unfold Rdiv. lra. Qed.
Lemma squares_opp l : squares (map Ropp l) = squares l.
Proof. induction l as [|a l IH]; cbn; [lra|]. rewrite IH. lra. Qed.
Lemma concat_div c v : concat (div c v) = map (fun a => (a / c)%R) (concat v).
Proof. unfold div. now rewrite concat_map. Qed.
Lemma norm_pos v : (0 < norm v)%R <-> squares (concat v) <> 0%R.
Proof.
  rewrite norm_squares. pose proof (squares_pos (concat v)) as P. split.
  - intros H E. rewrite E, sqrt_0 in H. lra.
  - intros H. apply sqrt_lt_R0. lra.
Qed.
Lemma unit_sphere v : squares (concat v) <> 0%R -> on_sphere (div (norm v) v).
Proof.
  intros H. unfold on_sphere. rewrite concat_div, squares_scale, norm_squares. pose proof (squares_pos (concat v)) as P.
  rewrite <- Rinv_mult. rewrite sqrt_sqrt by assumption. now apply Rinv_r.
Qed.
Lemma unit_direction v : squares (concat v) <> 0%R -> direction (div (norm v) v) v.
Proof.
  intros H. apply norm_pos in H. exists (norm v). split; [assumption|]. unfold div. rewrite map_map.
  rewrite <- (map_id v) at 1. apply map_ext. intros l. rewrite map_map. rewrite <- (map_id l) at 1. apply map_ext. intros a. field. lra.
Qed.
Lemma normalize1_sphere draw i v : (squares (concat v) <> 0 \/ squares (concat (draw i)) <> 0)%R ->
  on_sphere (snd (normalize1 draw i v)) /\ i <= fst (normalize1 draw i v) <= S i /\
  (squares (concat v) <> 0%R -> fst (normalize1 draw i v) = i /\ snd (normalize1 draw i v) = div (norm v) v) /\
  (direction (snd (normalize1 draw i v)) v \/ direction (snd (normalize1 draw i v)) (draw i)).
Proof.
  intros H. unfold normalize1. destruct (Rlt_dec 0 (norm v)) as [P|P]; cbn [fst snd].
  - apply norm_pos in P. split; [now apply unit_sphere|]. split; [lia|]. split; [now split|]. left. now apply unit_direction.
  - rewrite norm_pos in P. assert (Q : (squares (concat (draw i)) <> 0)%R) by tauto.
    split; [now apply unit_sphere|]. split; [lia|]. split; [tauto|]. right. now apply unit_direction.
Qed.
Lemma normalize_sphere draw : one_zero draw -> forall x i, (forall v, In v x -> exists k, k < i /\ v = draw k) ->
  Forall on_sphere (snd (normalize draw i x)) /\ length (snd (normalize draw i x)) = length x /\
  i <= fst (normalize draw i x) /\
  Forall2 (fun u v => squares (concat v) <> 0%R -> direction u v) (snd (normalize draw i x)) x.
Proof.
  intros Z. induction x as [|v x IH]; intros i H; cbn [normalize]; [cbn; repeat constructor|].
  assert (C : (squares (concat v) <> 0 \/ squares (concat (draw i)) <> 0)%R).
  { destruct (H v (or_introl eq_refl)) as (k & L & ->). destruct (Req_dec (squares (concat (draw k))) 0) as [E|E]; [|tauto].
    right. intros E'. specialize (Z _ _ E E'). lia. }
  destruct (normalize1_sphere draw i v C) as (S1 & B1 & D1 & _). destruct (normalize1 draw i v) as [i1 v1]. cbn [fst snd] in *.
  destruct (IH i1) as (S2 & L2 & B2 & D2). { intros w I. destruct (H w (or_intror I)) as (k & L & E). exists k. split; [lia|assumption]. }
  destruct (normalize draw i1 x) as [i2 x2]. cbn [fst snd length] in *.
  split; [now constructor|]. split; [now rewrite L2|]. split; [lia|]. constructor; [|assumption].
  intros N. destruct (D1 N) as [_ ->]. now apply unit_direction.
Qed.
Lemma opp_sphere v : on_sphere v -> on_sphere (opp v).
Proof. unfold on_sphere, opp. intros H. rewrite <- concat_map, squares_opp. exact H. Qed.
Lemma perm_squares a b : Permutation a b -> squares (concat a) = squares (concat b).
Proof. induction 1; cbn; rewrite ?squares_app; lra. Qed.
Lemma signs_squares s a c : Forall2 (fun u v => u = v \/ (s = true /\ u = map Ropp v)) a c -> squares (concat a) = squares (concat c).
Proof. induction 1 as [|u v a c H _ IH]; [reflexivity|]. cbn. rewrite !squares_app, IH. destruct H as [->|[_ ->]]; rewrite ?squares_opp; lra. Qed.
Lemma rearranged_sphere s a b : rearranged s a b -> on_sphere b -> on_sphere a.
Proof. intros (c & P & F) H. unfold on_sphere in *. rewrite (signs_squares _ _ _ F), (perm_squares _ _ P). exact H. Qed.
Lemma slices_seq (v : point) : map (fun j => nth j v []) (seq 0 (length v)) = v.
Proof.
  apply nth_ext with (d := []) (d' := []); rewrite map_length, seq_length; [reflexivity|]. intros n L.
  rewrite (nth_indep _ [] ((fun j => nth j v []) 0)) by now rewrite map_length, seq_length.
  rewrite (map_nth (fun j => nth j v [])), seq_nth by assumption. reflexivity.
Qed.
Lemma take_perm p v : Permutation p (seq 0 (length v)) -> Permutation (take_slices p v) v.
Proof. intros H. apply (Permutation_map (fun j => nth j v [])) in H. now rewrite slices_seq in H. Qed.
Lemma refl_signs s (a : list (list R)) : Forall2 (fun u v => u = v \/ (s = true /\ u = map Ropp v)) a a.
Proof. induction a; constructor; [now left|assumption]. Qed.
Lemma take_rearranged s p v : Permutation p (seq 0 (length v)) -> rearranged s (take_slices p v) v.
Proof. intros H. exists (take_slices p v). split; [now apply take_perm|apply refl_signs]. Qed.
Lemma flip_signs o : forall v : point, length o = length v -> Forall2 (fun u v => u = v \/ (true = true /\ u = map Ropp v)) (flip o v) v.
Proof.
  induction o as [|b o IH]; intros [|l v] H; try discriminate; [constructor|]. cbn. constructor; [destruct b; auto|].
  apply IH. now injection H.
Qed.
Lemma flip_rearranged o p v : Permutation p (seq 0 (length v)) -> length o = length v -> rearranged true (flip o (take_slices p v)) v.
Proof.
  intros H L. exists (take_slices p v). split; [now apply take_perm|]. apply flip_signs. unfold take_slices.
  rewrite map_length, (Permutation_length H), seq_length. exact L.
Qed.

Section Order.
Variables (perms : list (list nat)) (order : nat -> list (list bool)) (s : nat).
Hypothesis Hp : forall p, In p perms -> Permutation p (seq 0 s).
Hypothesis Ho : forall k o, In o (order k) -> length o = s.

Lemma add_flips_ok n p icx (Q : point -> Prop) : length icx = s -> Permutation p (seq 0 s) ->
  (forall a, rearranged true a icx -> Q a) -> forall os x, (forall o, In o os -> length o = s) ->
  length x <= n -> Forall Q x -> length x <= length (add_flips n os (take_slices p icx) x) <= n /\ Forall Q (add_flips n os (take_slices p icx) x).
Proof.
  intros Li P HQ. induction os as [|o os IH]; intros x L B F; [now split|]. cbn [add_flips].
  assert (L' : forall o, In o os -> length o = s) by (intros; apply L; now right).
  destruct (existsb _ o && (length x <? n)) eqn:E.
  - apply andb_true_iff in E. destruct E as [_ E]. apply Nat.ltb_lt in E.
    destruct (IH (x ++ [flip o (take_slices p icx)]) L') as [B1 F1].
    + rewrite app_length. cbn. lia.
    + apply Forall_app. split; [assumption|]. constructor; [|constructor]. apply HQ. apply flip_rearranged; rewrite Li; [assumption|apply L; now left].
    + rewrite app_length in B1. cbn in B1. split; [lia|assumption].
  - now apply IH.
Qed.
Lemma add_perms_ok n sym icx (Q : point -> Prop) : length icx = s -> (forall a, rearranged sym a icx -> Q a) ->
  forall ps k x, (forall p, In p ps -> Permutation p (seq 0 s)) -> length x <= n -> Forall Q x ->
  let x' := snd (add_perms order n sym ps icx k x) in
  length x <= length x' <= n /\ Forall Q x' /\ (ps <> [] -> length x < n -> length x < length x').
Proof.
  intros Li HQ. induction ps as [|p ps IH]; intros k x P B F; [cbn; repeat split; auto; congruence|]. cbn [add_perms].
  assert (P' : forall p, In p ps -> Permutation p (seq 0 s)) by (intros; apply P; now right).
  destruct (length x <? n) eqn:E.
  - apply Nat.ltb_lt in E. assert (B1 : length (x ++ [take_slices p icx]) <= n) by (rewrite app_length; cbn; lia).
    assert (F1 : Forall Q (x ++ [take_slices p icx])).
    { apply Forall_app. split; [assumption|]. constructor; [|constructor]. apply HQ, take_rearranged. rewrite Li. apply P. now left. }
    assert (L1 : length (x ++ [take_slices p icx]) = S (length x)) by (rewrite app_length; cbn; lia).
    destruct sym; cbn zeta.
    + destruct (add_flips_ok n p icx Q Li (P p (or_introl eq_refl)) HQ (order k) _ (Ho k) B1 F1) as [B2 F2].
      destruct (IH (S k) _ P' (proj2 B2) F2) as (B3 & F3 & _). split; [lia|]. split; [assumption|]. intros _ _. lia.
    + destruct (IH k _ P' B1 F1) as (B3 & F3 & _). split; [lia|]. split; [assumption|]. intros _ _. lia.
  - apply Nat.ltb_ge in E. destruct (IH k _ P' B F) as (B3 & F3 & _). split; [assumption|]. split; [assumption|]. intros _ H. lia.
Qed.
End Order.

Lemma add_perms_plain order n icx : forall ps k x, snd (add_perms order n false ps icx k x) = x ++ map (fun p => take_slices p icx) (firstn (n - length x) ps).
Proof.
  induction ps as [|p ps IH]; intros k x; [cbn; now rewrite firstn_nil, app_nil_r|]. cbn [add_perms].
  destruct (length x <? n) eqn:E.
  - apply Nat.ltb_lt in E. cbn zeta. rewrite IH, app_length. cbn [length]. replace (n - length x) with (S (n - (length x + 1))) by lia.
    cbn [firstn map]. now rewrite <- app_assoc.
  - apply Nat.ltb_ge in E. rewrite IH. replace (n - length x) with 0 by lia. reflexivity.
Qed.
Lemma order_prefix draw perms order n : forall fuel i k x r, antithetic_order draw perms order fuel n false i k x = Ok r -> exists t, r = x ++ t.
Proof.
  induction fuel as [|fuel IH]; intros i k x r H; cbn [antithetic_order] in H; destruct (length x <? n); try discriminate;
    try (injection H as <-; exists []; now rewrite app_nil_r).
  destruct (normalize1 draw (S i) (draw i)) as [i1 icx]. pose proof (add_perms_plain order n icx perms k x) as A.
  destruct (add_perms order n false perms icx k x) as [k1 x1]. cbn [snd] in A. apply IH in H. destruct H as [t ->].
  eexists. rewrite A, <- app_assoc. reflexivity.
Qed.
Lemma order_ok draw perms order s n sym : one_zero draw -> (forall i, length (draw i) = s) -> perms <> [] ->
  (forall p, In p perms -> Permutation p (seq 0 s)) -> (forall k o, In o (order k) -> length o = s) ->
  forall fuel i k x (Q : point -> Prop), (forall j u a, direction u (draw j) -> on_sphere u -> rearranged sym a u -> Q a) ->
  length x <= n -> n - length x <= fuel -> Forall Q x ->
  exists r, antithetic_order draw perms order fuel n sym i k x = Ok r /\ length r = n /\ Forall Q r.
Proof.
  intros Z L N P O. induction fuel as [|fuel IH]; intros i k x Q HQ B Fu F; cbn [antithetic_order]; destruct (length x <? n) eqn:E.
  - apply Nat.ltb_lt in E. lia.
  - apply Nat.ltb_ge in E. exists x. split; [reflexivity|]. split; [lia|assumption].
  - apply Nat.ltb_lt in E.
    assert (C : (squares (concat (draw i)) <> 0 \/ squares (concat (draw (S i))) <> 0)%R).
    { destruct (Req_dec (squares (concat (draw i))) 0) as [E1|E1]; [|tauto]. right. intros E2. specialize (Z _ _ E1 E2). lia. }
    destruct (normalize1_sphere draw (S i) (draw i) C) as (S1 & _ & _ & D).
    assert (Ln : length (snd (normalize1 draw (S i) (draw i))) = s).
    { unfold normalize1. destruct (Rlt_dec _ _); cbn [snd]; unfold div; rewrite map_length; apply L. }
    destruct (normalize1 draw (S i) (draw i)) as [i1 icx]. cbn [snd] in *.
    destruct (add_perms_ok order s O n sym icx Q Ln) with (ps := perms) (k := k) (x := x) as (B1 & F1 & G1); try assumption.
    { intros a Ra. destruct D as [D|D]; eapply HQ; eassumption. }
    destruct (add_perms order n sym perms icx k x) as [k1 x1]. cbn [snd] in *. specialize (G1 N E).
    apply IH; try assumption; lia.
  - apply Nat.ltb_ge in E. exists x. split; [reflexivity|]. split; [lia|assumption].
Qed.

Lemma add_flips_plain n cx : forall os x, add_flips n os cx x = x ++ map (fun o => flip o cx) (firstn (n - length x) (filter (existsb (fun b => b)) os)).
Proof.
  induction os as [|o os IH]; intros x; [cbn; now rewrite firstn_nil, app_nil_r|]. cbn [add_flips filter].
  destruct (existsb (fun b => b) o); cbn [andb]; [|apply IH].
  destruct (length x <? n) eqn:E; rewrite IH.
  - apply Nat.ltb_lt in E. rewrite app_length. cbn [length]. replace (n - length x) with (S (n - (length x + 1))) by lia.
    cbn [firstn map]. now rewrite <- app_assoc.
  - apply Nat.ltb_ge in E. replace (n - length x) with 0 by lia. reflexivity.
Qed.
Lemma add_perms_prefix order n sym icx : forall ps k x, exists t, snd (add_perms order n sym ps icx k x) = x ++ t.
Proof.
  induction ps as [|p ps IH]; intros k x; cbn [add_perms]; [exists []; now rewrite app_nil_r|].
  destruct (length x <? n); [|apply IH]. cbn zeta. destruct sym.
  - destruct (IH (S k) (add_flips n (order k) (take_slices p icx) (x ++ [take_slices p icx]))) as [t ->].
    rewrite add_flips_plain, <- !app_assoc. now eexists.
  - destruct (IH k (x ++ [take_slices p icx])) as [t ->]. rewrite <- app_assoc. now eexists.
Qed.
Lemma order_prefix_any draw perms order n sym : forall fuel i k x r, antithetic_order draw perms order fuel n sym i k x = Ok r -> exists t, r = x ++ t.
Proof.
  induction fuel as [|fuel IH]; intros i k x r H; cbn [antithetic_order] in H; destruct (length x <? n); try discriminate;
    try (injection H as <-; exists []; now rewrite app_nil_r).
  destruct (normalize1 draw (S i) (draw i)) as [i1 icx]. destruct (add_perms_prefix order n sym icx perms k x) as [t A].
  destruct (add_perms order n sym perms icx k x) as [k1 x1]. cbn [snd] in A. apply IH in H. destruct H as [t' ->].
  eexists. rewrite A, <- app_assoc. reflexivity.
Qed.
Lemma flip_nth o : forall (v : point) q l, length o = length v -> nth_error v q = Some l ->
  nth_error (flip o v) q = Some (if nth q o false then map Ropp l else l).
Proof.
  induction o as [|b o IH]; intros [|w v] q l L E; try discriminate; [now destruct q|]. destruct q as [|q]; cbn in *; [now injection E as ->|].
  apply IH; [now injection L|assumption].
Qed.

(** Lemmas about the benchmarks from gym environments. *)
From Coq Require Import Bool Arith List ZArith QArith Qabs Qround Lia Lqa Sorting.Permutation.
From Verif Require Import Model.Prelude Model.MultiValue Model.Planning Model.GymMulti Spec.GymMulti Proofs.MultiValue.
Import ListNotations.
Open Scope nat_scope.
Open Scope list_scope.

(** ** Layers *)
Lemma slice_length {A} i j (x : list A) : j <= List.length x -> List.length (slice i j x) = j - i.
Proof. intros H. unfold slice. rewrite firstn_length, skipn_length. lia. Qed.
Lemma skipn_add {A} (x : list A) : forall i j, skipn j (skipn i x) = skipn (i + j) x.
Proof. induction x as [|a x IH]; intros [|i] j; cbn; rewrite ?skipn_nil; auto. Qed.
Lemma slice_skip {A} i n (x : list A) : slice i (i + n) x ++ skipn (i + n) x = skipn i x.
Proof. unfold slice. replace (i + n - i) with n by lia. rewrite <- skipn_add. apply firstn_skipn. Qed.
Lemma internal_concat {A} size (x : list A) : forall m i, concat (internal_slices m size i x) ++ skipn (i + m * size) x = skipn i x.
Proof.
  induction m as [|m IH]; intros i; cbn [internal_slices concat]; [now rewrite Nat.mul_0_l, Nat.add_0_r|].
  replace (i + S m * size) with ((i + size) + m * size) by (cbn; lia). rewrite <- app_assoc, IH. apply slice_skip.
Qed.
Lemma internal_lengths {A} size (x : list A) : forall m i, i + m * size <= List.length x ->
  List.length (internal_slices m size i x) = m /\ Forall (fun s => List.length s = size) (internal_slices m size i x).
Proof.
  induction m as [|m IH]; intros i H; cbn [internal_slices]; [split; [easy|constructor]|]. cbn in H.
  destruct (IH (i + size)) as [A1 A2]; [lia|]. split; [cbn; lia|]. constructor; [|easy]. rewrite slice_length by lia. lia.
Qed.

(** ** Equality *)
Lemma obs_eqb_iff a b : obs_eqb a b = true <-> same a b.
Proof.
  revert b. induction a as [|x a IH]; intros [|y b]; cbn; split; intros H; try easy; try constructor; try now inversion H.
  - apply andb_prop in H as [H _]. now apply Qeq_bool_iff.
  - apply andb_prop in H as [_ H]. now apply IH.
  - inversion H; subst. rewrite (proj2 (Qeq_bool_iff _ _)) by easy. now apply IH.
Qed.
Lemma array_equal_iff a b : array_equal a b = true <-> Forall2 same a b.
Proof.
  revert b. induction a as [|x a IH]; intros [|y b]; cbn; split; intros H; try easy; try constructor; try now inversion H.
  - apply andb_prop in H as [H _]. now apply obs_eqb_iff.
  - apply andb_prop in H as [_ H]. now apply IH.
  - inversion H; subst. rewrite (proj2 (obs_eqb_iff _ _)) by easy. now apply IH.
Qed.
Lemma same_sym a b : same a b -> same b a.
Proof. induction 1; constructor; [now symmetry|easy]. Qed.
Lemma same_trans a b c : same a b -> same b c -> same a c.
Proof.
  intros H. revert c. induction H as [|x y a b E H IH]; intros c G; inversion G; subst; constructor; [now rewrite E|now apply IH].
Qed.
Lemma arrays_sym a b : Forall2 same a b -> Forall2 same b a.
Proof. induction 1; constructor; [now apply same_sym|easy]. Qed.

(** ** Archive *)
Lemma linsert_perm t l : Permutation (linsert t l) (t :: l).
Proof. induction l as [|u l IH]; cbn; [easy|]. destruct (_ <=? _); [easy|]. rewrite IH. apply perm_swap. Qed.
Lemma by_length_perm l : Permutation (by_length l) l.
Proof. induction l as [|t l IH]; cbn; [easy|]. now rewrite linsert_perm, IH. Qed.
Definition apart (t u : trace) : Prop := ~ Forall2 same (t_obs t) (t_obs u).
Definition all_apart (l : list trace) : Prop := ForallOrdPairs apart l.
Lemma apart_sym t u : apart t u -> apart u t.
Proof. intros H G. apply H. now apply arrays_sym. Qed.
Lemma all_apart_perm l l' : Permutation l l' -> all_apart l -> all_apart l'.
Proof.
  unfold all_apart. induction 1 as [|x l l' P IH|x y l|l l1 l2 P1 IH1 P2 IH2]; intros H; auto.
  - inversion H as [|? ? F G]; subst. constructor; [|auto]. now rewrite <- P.
  - inversion H as [|? ? F G]; subst. inversion G as [|? ? F2 G2]; subst. apply Forall_cons_iff in F as [Fx F].
    constructor; [constructor; [now apply apart_sym|easy]|]. constructor; easy.
Qed.
Lemma all_apart_filter f l : all_apart l -> all_apart (filter f l).
Proof.
  unfold all_apart. induction 1 as [|x l F H IH]; cbn; [constructor|]. destruct (f x); [|easy]. constructor; [|easy].
  rewrite Forall_forall in *. intros y I. apply filter_In in I as [I _]. auto.
Qed.
Lemma all_apart_snoc l t : all_apart l -> Forall (apart t) l -> all_apart (l ++ [t]).
Proof.
  unfold all_apart. induction 1 as [|x l F H IH]; cbn; intros G; [repeat constructor|]. apply Forall_cons_iff in G as [G1 G2]. constructor; [|auto].
  rewrite Forall_app. split; [easy|]. constructor; [now apply apart_sym|constructor].
Qed.
Definition whole (t : trace) : Prop := List.length (t_obs t) = List.length (t_act t).
Lemma heuristic_archive ex o os s a s' : heuristic ex o os s = Ok (a, s') ->
  Permutation (f_archive s') (filter (fun t => qle (t_reward t) (f_mean s)) (f_archive s)) /\
  f_mean s' = f_mean s /\ f_num s' = f_num s /\ f_ext s' = f_ext s.
Proof.
  unfold heuristic. destruct (search _ _ _) as [r|e]; cbn; [|easy]. intros [= <- <-]. cbn. split; [apply by_length_perm|auto].
Qed.
Lemma search_ok ex cur l : Forall whole l -> cur <> [] -> exists r, search ex cur l = Ok r.
Proof.
  intros F N. induction F as [|t l W F IH]; cbn [search]; [now exists None|]. unfold whole in W. rewrite W, Nat.eqb_refl. cbn [negb].
  destruct (_ && _); [easy|]. destruct (array_equal _ cur) eqn:E; [|easy]. apply array_equal_iff in E.
  assert (L : List.length (lastn (List.length cur) (t_obs t)) = List.length cur) by (clear - E; induction E; cbn; auto).
  unfold lastn in L. rewrite skipn_length in L.
  destruct (nth_error (t_act t) (List.length cur - 1)) eqn:X; [eauto|]. apply nth_error_None in X.
  destruct cur; [easy|]. cbn [List.length] in *. lia.
Qed.
Lemma search_some ex cur l a : search ex cur l = Ok (Some a) ->
  exists t, In t l /\ Forall2 same (lastn (List.length cur) (t_obs t)) cur /\ nth_error (t_act t) (List.length cur - 1) = Some a.
Proof.
  induction l as [|t l IH]; cbn [search]; [easy|]. destruct (negb _); [easy|].
  destruct (_ && _); [intros H; apply IH in H as (u & I & H); exists u; split; [now right|easy]|].
  destruct (array_equal _ cur) eqn:E; [|intros H; apply IH in H as (u & I & H); exists u; split; [now right|easy]].
  destruct (nth_error _ _) as [b|] eqn:X; [|easy]. intros [= <-]. exists t. split; [now left|]. split; [now apply array_equal_iff|easy].
Qed.

(** ** Episodes *)
Lemma qsum_cons r rs : (qsum (r :: rs) == r + qsum rs)%Q.
Proof. reflexivity. Qed.
Section Gym.
  Variable E M : Type.
  Variable step : E -> act -> result (obs * Q * bool * E).
  Variable policy : nat -> obs -> M -> list Q -> result (act * M).
  Variable gamma : Q.
  Variable stacking extrapolate : bool.
  Lemma loop_spec n : forall i env o mem acts os cur reward s l s',
    loop E M step policy gamma stacking extrapolate n i env o mem acts os cur reward s = Ok (l, s') ->
    exists as_ rs fin env', played step env as_ rs fin env' /\
      ((l == - (reward + qsum rs) /\ (fin = true \/ List.length rs = n))%Q \/
       (fin = false /\ List.length rs < n /\ (exists a, step env' a = Err AssertionError) /\
        (l == inject_Z (10 ^ 20) / (1 + qnat (i + List.length rs)))%Q)).
  Proof.
    induction n as [|n IH]; intros i env o mem acts os cur reward s l s'; cbn [loop].
    - intros [= <- <-]. exists [], [], false, env. split; [constructor|]. left. split; [cbn; ring|now right].
    - destruct (policy i o mem (f_ext s)) as [[a mem']|e]; cbn [bind fst snd]; [|easy].
      destruct (step env a) as [[[[o' r] done] env1]|e] eqn:S.
      + destruct (if stacking then _ else _) as [s2|e]; cbn [bind]; [|easy]. destruct done.
        * intros [= <- <-]. exists [a], [r], true, env1. split; [now apply (pl_over step env a o')|]. left. split; [cbn; ring|now left].
        * intros H. apply IH in H as (as_ & rs & fin & env2 & P & D). exists (a :: as_), (r :: rs), fin, env2.
          split; [now apply (pl_more step env a o' r env1)|]. destruct D as [[D1 D2]|(D1 & D2 & D3 & D4)].
          -- left. split; [rewrite D1, qsum_cons; ring|]. destruct D2; [now left|right; cbn; lia].
          -- right. split; [easy|]. split; [cbn; lia|]. split; [easy|]. cbn [List.length]. now rewrite <- Nat.add_succ_comm.
      + destruct e; try easy. intros [= <- <-]. exists [], [], false, env. split; [constructor|]. right. split; [easy|]. cbn [List.length].
        split; [lia|]. split; [now exists a|]. now rewrite Nat.add_0_r.
  Qed.
  Lemma conformant_spec x : forall env reward l, conformant E step gamma env x reward = Ok l ->
    exists k rs fin env', played step env (firstn k x) rs fin env' /\ (fin = true \/ List.length rs = List.length x) /\
      (l == - (reward * power gamma (List.length rs) + late_sum gamma rs))%Q.
  Proof.
    induction x as [|a x IH]; intros env reward l; cbn [conformant].
    - intros [= <-]. exists 0, [], false, env. split; [constructor|]. split; [now right|]. cbn. ring.
    - destruct (step env a) as [[[[o r] done] env1]|e] eqn:Es; cbn [bind]; [|easy]. destruct done.
      + intros [= <-]. exists 1, [r], true, env1. split; [now apply (pl_over step env a o)|]. split; [now left|]. cbn. ring.
      + intros H. apply IH in H as (k & rs & fin & env2 & P & D & V). exists (S k), (r :: rs), fin, env2.
        split; [now apply (pl_more step env a o r env1)|]. split; [destruct D; [now left|right; cbn; lia]|].
        rewrite V. cbn [List.length late_sum power]. ring.
  Qed.
End Gym.

(** ** Actions *)
Lemma discrete_row_spec cdf : (forall x, 0 <= cdf x /\ cdf x <= 1)%Q -> forall arities a r rest, Forall (fun n => 1 <= n) arities ->
  discrete_row cdf arities a = Ok (r, rest) ->
  Forall2 (fun z n => (0 <= z < Z.of_nat n)%Z) r arities /\ a = firstn (List.length arities) a ++ rest /\ List.length arities <= List.length a.
Proof.
  intros B. induction arities as [|n arities IH]; intros a r rest F; cbn [discrete_row].
  - intros [= <- <-]. split; [constructor|]. split; [easy|cbn; lia].
  - apply Forall_cons_iff in F as [F1 F2]. destruct a as [|x a]; [easy|]. destruct (discrete_row cdf arities a) as [[r' rest']|e] eqn:D; cbn [bind fst snd]; [|easy].
    intros [= <- <-]. destruct (IH _ _ _ F2 D) as (A1 & A2 & A3). split; [|split; [cbn; now rewrite <- A2|cbn; lia]].
    apply Forall2_cons; [|exact A1]. destruct (B x) as [B1 B2].
    assert (Z1 : (0 <= Qfloor (cdf x * qnat n))%Z).
    { change 0%Z with (Qfloor 0). apply Qfloor_resp_le. apply Qmult_le_0_compat; [easy|]. unfold qnat. rewrite <- (Zle_Qle 0). lia. }
    change (0 <= Z.min (Qfloor (cdf x * qnat n)) (Z.of_nat n - 1) < Z.of_nat n)%Z.
    set (f := Qfloor (cdf x * qnat n)) in *. clearbody f. lia.
Qed.

(** C103: learning from comparisons *)
From Coq Require Import List Arith QArith Bool Lia Lqa.
From Verif.Model Require Import Prelude MultiValue Archive Compare.
From Verif.Spec Require Import Pruning Archive Compare.
From Verif.Proofs Require Import Prelude MultiValue Pruning Archive Compare.
Import ListNotations.
Open Scope nat_scope.

Section C103.
  Variable msqrt : Q -> Q.
  Variable pruning : list mv -> list (nat * nat) -> result (list (nat * nat)).
  Hypothesis Hprune : sub_pruning pruning.
  (** After any use of an optimizer, when two winners (with different data) are known after a comparison, the one which
      comes first is the better one: its average is smaller. *)
  Theorem C103_winners ops winners losers s' : NoDup (map snd winners) -> compare msqrt pruning (run_ops msqrt pruning ops) winners losers = (s', Ok tt) ->
    forall i j ci cj ki kj mi mj, i < j -> nth_error winners i = Some (ci, ki) -> nth_error winners j = Some (cj, kj) ->
      known s' ki = Some mi -> known s' kj = Some mj -> (mv_mean mi < mv_mean mj)%Q.
  Proof.
    intros ND E i j ci cj ki kj mi mj L Hi Hj Ki Kj. unfold compare in E.
    destruct (tell_winners_spec msqrt pruning Hprune winners _ 0 _ s' (Ok tt) (run_ops_wf msqrt pruning Hprune ops) ND E) as (_ & A & _).
    rewrite (A eq_refl i ci ki Hi mi Ki), (A eq_refl j cj kj Hj mj Kj). cbn [mv_new mv_mean Nat.add]. assert (Q0 : (qnat i < qnat j)%Q) by (unfold qnat; rewrite <- Zlt_Qlt; lia). lra.
  Qed.
  (** All the winners are better than all the losers which are known. *)
  Theorem C103_losers ops winners losers s' : NoDup (map snd winners) -> compare msqrt pruning (run_ops msqrt pruning ops) winners losers = (s', Ok tt) ->
    forall c k l mk ml, In (c, k) winners -> In l losers -> ~ In l (map snd winners) -> known s' k = Some mk -> known s' l = Some ml -> (mv_mean mk < mv_mean ml)%Q.
  Proof.
    intros ND E c k l mk ml Hk Hl Nl Kk Kl. unfold compare in E.
    destruct (tell_winners_spec msqrt pruning Hprune winners _ 0 _ s' (Ok tt) (run_ops_wf msqrt pruning Hprune ops) ND E) as (_ & A & B & _).
    apply In_nth_error in Hk. destruct Hk as (i & Hi). rewrite (A eq_refl i c k Hi mk Kk). cbn [mv_new mv_mean Nat.add]. apply (B l ml Nl) in Kl.
    pose proof (proj2 (best_loser_spec (run_ops msqrt pruning ops) losers) l ml Hl Kl) as Bl. assert (Li : i < length winners) by (apply nth_error_Some; congruence).
    assert (Q0 : (qnat i < qnat (length winners))%Q) by (unfold qnat; rewrite <- Zlt_Qlt; lia). lra.
  Qed.
  (** A winner starts afresh: what was known about it is replaced by a single evaluation; nothing changes for the others. *)
  Theorem C103_afresh ops winners losers s' : NoDup (map snd winners) -> compare msqrt pruning (run_ops msqrt pruning ops) winners losers = (s', Ok tt) ->
    (forall c k m, In (c, k) winners -> known s' k = Some m -> mv_count m = 1 /\ mv_param m = c /\ (mv_mean m < 0)%Q /\ mv_min m = mv_mean m) /\
    (forall k m, ~ In k (map snd winners) -> known s' k = Some m -> known (run_ops msqrt pruning ops) k = Some m).
  Proof.
    intros ND E. unfold compare in E. destruct (tell_winners_spec msqrt pruning Hprune winners _ 0 _ s' (Ok tt) (run_ops_wf msqrt pruning Hprune ops) ND E) as (_ & A & B & _). split; [|exact B].
    intros c k m Hk Km. apply In_nth_error in Hk. destruct Hk as (i & Hi). rewrite (A eq_refl i c k Hi m Km). cbn. repeat split. pose proof (proj1 (best_loser_spec (run_ops msqrt pruning ops) losers)) as Bl.
    assert (Li : i < length winners) by (apply nth_error_Some; congruence). assert (Q0 : (qnat i < qnat (length winners))%Q) by (unfold qnat; rewrite <- Zlt_Qlt; lia). lra.
  Qed.
  (** If the winners are new, and the best point so far is not better than the losers, the first winner is recommended
      (for a deterministic function). *)
  Theorem C103_recommended ops c0 k0 winners losers s' : NoDup (map snd ((c0, k0) :: winners)) ->
    (forall k, In k (map snd ((c0, k0) :: winners)) -> known (run_ops msqrt pruning ops) k = None) ->
    (forall b, st_bests (run_ops msqrt pruning ops) Minimum = Some b -> (best_loser (run_ops msqrt pruning ops) losers <= mv_min (hget (st_heap (run_ops msqrt pruning ops)) b))%Q) ->
    compare msqrt pruning (run_ops msqrt pruning ops) ((c0, k0) :: winners) losers = (s', Ok tt) -> arch_recommend true s' = Some c0.
  Proof.
    pose proof (run_ops_wf msqrt pruning Hprune ops) as W. generalize dependent (run_ops msqrt pruning ops). intros s W ND New Bs E.
    assert (New' : forall k, In k (map snd ((c0, k0) :: winners)) -> dget k (st_archive s) = None) by (intros k Hk; specialize (New k Hk); unfold known in New; destruct (dget k (st_archive s)); [discriminate New|reflexivity]).
    unfold compare in E. cbn [tell_winners] in E. set (first := (best_loser s losers - qnat (length ((c0, k0) :: winners)))%Q) in *. cbn [map snd] in ND. inversion ND as [|? ? Nk ND']; subst.
    destruct (arch_tell msqrt pruning s (c0, k0, (first + qnat 0)%Q)) as (s1, r1) eqn:T. destruct (tell_effect msqrt pruning Hprune s c0 k0 _ s1 r1 W T) as (W1 & _ & T1 & T3 & _). destruct r1; [|discriminate E]. fold (overwrite c0 k0 (first + qnat 0)%Q s1) in E.
    destruct (T3 (New' k0 (or_introl eq_refl))) as (Hh & Hb).
    assert (B1 : st_bests s1 Minimum = Some (length (st_heap s))).
    { rewrite (Hb Minimum). unfold best_update. destruct (st_bests s Minimum) as [b|] eqn:B; [|reflexivity]. cbn [andb]. rewrite Hh, hget_new, hget_old by exact (w_bests s W Minimum b B). cbn [mv_est mv_new mv_min]. destruct (qle _ _) eqn:Q0; [reflexivity|]. apply qle_false in Q0. specialize (Bs b eq_refl).
      unfold first in Q0. cbn [length] in Q0. change (qnat 0) with 0%Q in Q0. assert (P : (0 <= qnat (S (length winners)))%Q) by (unfold qnat; change 0%Q with (inject_Z 0); rewrite <- Zle_Qle; lia). lra. }
    destruct (overwrite_effect c0 k0 (first + qnat 0)%Q s1 W1) as (W2 & _ & O2 & _).
    assert (H1 : hget (st_heap (overwrite c0 k0 (first + qnat 0)%Q s1)) (length (st_heap s)) = mv_new c0 (first + qnat 0)%Q).
    { unfold overwrite. cbn [st_heap]. rewrite hget_old by (rewrite Hh, app_length; cbn; lia). rewrite Hh. apply hget_new. }
    destruct (winners_keep_best msqrt pruning Hprune winners first 1 _ s' (length (st_heap s)) W2 ND') as (A1 & A2).
    - intros k Hk. assert (Nkk : k <> k0) by (intros ->; contradiction). destruct (dget k (st_archive (overwrite c0 k0 (first + qnat 0)%Q s1))) as [id|] eqn:D; [|reflexivity]. destruct (O2 k id Nkk D) as (D1 & _). destruct (T1 k id Nkk D1) as (D2 & _). rewrite (New' k (or_intror Hk)) in D2. discriminate D2.
    - exact E.
    - exact B1.
    - rewrite H1. cbn [mv_new mv_min]. change (qnat 0) with 0%Q. change (qnat 1) with 1%Q. lra.
    - unfold arch_recommend. rewrite A1, A2, H1. reflexivity.
  Qed.
End C103.
Print Assumptions C103_winners.
Print Assumptions C103_losers.
Print Assumptions C103_afresh.
Print Assumptions C103_recommended.
(** Without pruning, all the winners are known afterwards, and so is everything which was known before. *)
Theorem C103_kept msqrt ops winners losers s' : NoDup (map snd winners) -> compare msqrt no_pruning (run_ops msqrt no_pruning ops) winners losers = (s', Ok tt) ->
  forall k, In k (map snd winners) \/ known (run_ops msqrt no_pruning ops) k <> None -> known s' k <> None.
Proof.
  intros ND E k K. assert (Hp : sub_pruning no_pruning) by (intros h a a' H; injection H as <-; apply sublist_refl). unfold compare in E.
  destruct (tell_winners_spec msqrt no_pruning Hp winners _ 0 _ s' (Ok tt) (run_ops_wf msqrt no_pruning Hp ops) ND E) as (_ & _ & _ & C). specialize (C eq_refl k). unfold known in *. destruct (dget k (st_archive s')) as [id|]; [discriminate|]. exfalso. apply C; [|reflexivity].
  destruct K as [K|K]; [left; auto|right]. intros D. apply K. now rewrite D.
Qed.
Print Assumptions C103_kept.
(** The recommendation may not follow the last comparison: a point which was a better winner before stays recommended,
    although the archive itself now says that the first winner is better. (The square root only matters for the confidence
    bounds, which are not used here: any function will do.) *)
Theorem C103_recommended_refuted : let msqrt := fun q : Q => q in exists ops winners losers s' c m1 m4,
  compare msqrt no_pruning (run_ops msqrt no_pruning ops) winners losers = (s', Ok tt) /\ winners = [(4, 4); (5, 1)] /\
  arch_recommend true s' = Some c /\ c <> 4 /\ known s' 4 = Some m4 /\ known s' 1 = Some m1 /\ (mv_mean m4 < mv_mean m1)%Q /\ In (1, 1) [(1, 1); (2, 2); (3, 3)] /\ c = 1.
Proof.
  intros msqrt. exists [Compare [(1, 1); (2, 2); (3, 3)] []], [(4, 4); (5, 1)], [].
  set (x := compare msqrt no_pruning (run_ops msqrt no_pruning [Compare [(1, 1); (2, 2); (3, 3)] []]) [(4, 4); (5, 1)] []).
  exists (fst x), 1, (mv_new 5 (0 - 2 + 1)%Q), (mv_new 4 (0 - 2 + 0)%Q). split; [rewrite (surjective_pairing x) at 1; f_equal; vm_compute; reflexivity|].
  split; [reflexivity|]. split; [vm_compute; reflexivity|]. split; [discriminate|]. split; [vm_compute; reflexivity|]. split; [vm_compute; reflexivity|]. split; [reflexivity|]. split; [now left|reflexivity].
Qed.
Print Assumptions C103_recommended_refuted.
(** Losers which are not known are not recorded: afterwards the optimizer knows nothing about them. *)
Theorem C103_unknown_losers msqrt pruning ops winners losers s' k : sub_pruning pruning -> NoDup (map snd winners) ->
  compare msqrt pruning (run_ops msqrt pruning ops) winners losers = (s', Ok tt) -> In k losers -> ~ In k (map snd winners) ->
  known (run_ops msqrt pruning ops) k = None -> known s' k = None.
Proof.
  intros Hp ND E _ N K. destruct (known s' k) as [m|] eqn:F; [|reflexivity]. destruct (C103_afresh msqrt pruning Hp ops winners losers s' ND E) as (_ & B). apply (B k m N) in F. congruence.
Qed.
Print Assumptions C103_unknown_losers.

(** A session: 7 is told 2, then 1 and 2 beat 7 and 9 (unknown), then 3 beats 1. *)
Definition session : list op := [Tell 7 7 2; Compare [(1, 1); (2, 2)] [7; 9]; Compare [(3, 3)] [1]].
Example session_means : map (fun k => option_map mv_mean (known (run_ops (fun q => q) no_pruning session) k)) [3; 1; 2; 7; 9] =
  [Some (- (2) - 1 + 0)%Q; Some (0 - 2 + 0)%Q; Some (0 - 2 + 1)%Q; Some 2%Q; None].
Proof. vm_compute. reflexivity. Qed.
Example session_recommended : arch_recommend true (run_ops (fun q => q) no_pruning session) = Some 3 /\ sub_pruning no_pruning.
Proof. split; [vm_compute; reflexivity|]. intros h a a' H. injection H as <-. apply sublist_refl. Qed.

(** C120: the empirical distribution of the most tried points, and delayed jobs. *)
From Coq Require Import Arith QArith Bool Lia Lqa Sorted List.
From Verif.Model Require Import Prelude MultiValue Nash.
From Verif.Spec Require Import Nash.
From Verif.Proofs Require Import MultiValue Nash.
Import ListNotations.
Open Scope nat_scope.

Section Props.
Context {A : Type}.
(** When the square of the largest number of trials is over the number of all trials, the distribution is made of the points tried
    at least its square root times, the least tried first and in the order of the archive when equally tried;
    otherwise it is the recommendation. *)
Theorem C120_support (archive : tried A) pess reco m : most archive m ->
  (m * m <= trials archive -> get_nash archive pess reco = [(reco, 1)]) /\
  (trials archive < m * m ->
    let nash := get_nash archive pess reco in
    (forall a c, In (a, c) nash <-> In (a, c) archive /\ m <= c * c) /\
    StronglySorted (fun x y => snd x <= snd y) nash /\
    (forall c, m <= c * c -> filter (fun p => snd p =? c) nash = filter (fun p => snd p =? c) archive) /\
    exists a, In (a, m) nash).
Proof.
  intros Hm. destruct archive as [|x l] eqn:Ea; [destruct Hm as [[a []] _]|]. rewrite <- Ea in *.
  assert (Hne : archive <> []) by (rewrite Ea; discriminate).
  assert (Hg : get_nash archive pess reco = if m * m <=? trials archive then [(reco, 1)] else sort (filter (fun p => m <=? snd p * snd p) archive)).
  { unfold get_nash. rewrite <- (most_unique _ _ _ Hm (max_most archive Hne)), sum_trials. rewrite Ea. reflexivity. }
  rewrite Hg. split.
  - intros H. rewrite (proj2 (Nat.leb_le _ _) H). reflexivity.
  - intros H. rewrite (proj2 (Nat.leb_gt _ _) H). cbn zeta.
    assert (Hin : forall a c, In (a, c) (sort (filter (fun p => m <=? snd p * snd p) archive)) <-> In (a, c) archive /\ m <= c * c).
    { intros a c. rewrite sort_in, filter_In. cbn [snd]. rewrite Nat.leb_le. reflexivity. }
    split; [exact Hin|]. split; [apply sort_sorted|]. split.
    + intros c Hc. rewrite sort_filter. apply filter_filter_count. exact Hc.
    + destruct Hm as [[a Ha] _]. exists a. apply Hin. split; [exact Ha|]. nia.
Qed.

(** The probabilities are proportional to the numbers of trials: a draw u between 0 and 1 gives the point whose interval,
    of length its part of the trials, contains u. *)
Theorem C120_sample (archive : tried A) pess reco u : (0 <= u)%Q -> (u < 1)%Q ->
  let nash := get_nash archive pess reco in
  0 < trials nash -> 
  exists i a c, sample_nash u archive pess reco = Ok a /\ nth_error nash i = Some (a, c) /\
    (qnat (trials (firstn i nash)) / qnat (trials nash) <= u)%Q /\
    (u < (qnat (trials (firstn i nash)) + qnat c) / qnat (trials nash))%Q.
Proof.
  intros H0 H1 nash Ht. assert (HT : (0 < qnat (trials nash))%Q) by (apply qnat_pos; exact Ht).
  assert (HT0 : ~ (qnat (trials nash) == 0)%Q) by (intros E; rewrite E in HT; discriminate).
  destruct (choose_ok (qnat (trials nash)) nash HT u 0%Q 0) with (probs := probabilities nash) (c := 0%Q) as [i [p [I1 [I2 [I3 I4]]]]].
  - setoid_replace (0 / qnat (trials nash))%Q with 0%Q by (field; exact HT0). exact H0.
  - setoid_replace ((0 + qnat (trials nash)) / qnat (trials nash))%Q with 1%Q by (field; exact HT0). exact H1.
  - unfold probabilities. rewrite map_map. assert (E := fold_trials nash). revert E. generalize (fold_left Qplus (map (fun p => qnat (snd p)) nash) 0%Q).
    intros q E. clear - E. revert E. generalize (qnat (trials nash)). intros t E. induction nash; cbn; constructor; [rewrite E; reflexivity|assumption].
  - field. exact HT0.
  - destruct p as [a c]. exists i, a, c. rewrite Qplus_0_l in I3, I4. rewrite (trials_firstn_S nash i (a, c) I2), qnat_plus in I4. cbn [snd] in I4.
    split; [|auto]. unfold sample_nash. fold nash. cbn [Nat.add] in I1. destruct nash as [|x [|y l]] eqn:En; [destruct i; discriminate| |].
    + destruct i; [cbn in I2; inversion I2; reflexivity|destruct i; discriminate].
    + rewrite I1. cbn [bind]. rewrite I2. reflexivity.
Qed.

(** The probabilities are positive and sum to one. *)
Theorem C120_probabilities (nash : tried A) : nash <> [] -> (forall a c, In (a, c) nash -> 0 < c) ->
  Forall2 (fun q p => (q == qnat (snd p) / qnat (trials nash))%Q /\ (0 < q)%Q) (probabilities nash) nash /\
  (fold_left Qplus (probabilities nash) 0 == 1)%Q.
Proof.
  intros Hne Hpos. assert (Ht : 0 < trials nash).
  { destruct nash as [|[a c] l]; [congruence|]. specialize (Hpos a c (or_introl eq_refl)). unfold trials. cbn. lia. }
  assert (HT : (0 < qnat (trials nash))%Q) by (apply qnat_pos; exact Ht).
  assert (HT0 : ~ (qnat (trials nash) == 0)%Q) by (intros E; rewrite E in HT; discriminate).
  unfold probabilities. assert (E := fold_trials nash). set (q := fold_left Qplus (map (fun p => qnat (snd p)) nash) 0%Q) in *. split.
  - rewrite map_map. clearbody q. set (t := qnat (trials nash)) in *. clearbody t. clear Hne Ht.
    induction nash as [|[a c] l IH]; cbn; constructor.
    + split; [rewrite E; reflexivity|]. rewrite E. apply Qlt_shift_div_l; [exact HT|]. rewrite Qmult_0_l. apply qnat_pos. apply (Hpos a c). left. reflexivity.
    + apply IH. intros; eapply Hpos; right; eassumption.
  - assert (H : forall l, (fold_left Qplus (map (fun x => x / q) l) 0 == fold_left Qplus l 0 / q)%Q).
    { assert (Hq : ~ (q == 0)%Q) by (rewrite E; exact HT0). clearbody q.
      induction l as [|x l IH]; cbn; [field; exact Hq|]. rewrite fold_qplus, (fold_qplus l (0 + x)%Q), IH. field. exact Hq. }
    rewrite H. fold q. rewrite E. field. exact HT0.
Qed.

(** The threshold is not the fourth root of the largest number of trials: a point tried more often can be left out. *)
Theorem C120_threshold_refuted (x y z : A) : exists archive m a c, most archive m /\ trials archive < m * m /\ In (a, c) archive /\
  m <= c * c * c * c /\ ~ In (a, c) (get_nash archive y z).
Proof.
  exists [(x, 16); (x, 3)], 16, x, 3. split; [split; [exists x; left; reflexivity|]|].
  - intros b c [H|[H|[]]]; inversion H; lia.
  - split; [unfold trials; cbn; lia|]. split; [right; left; reflexivity|]. split; [cbn; lia|].
    cbn. intros [H|[]]. inversion H.
Qed.

(** A delayed job calls its function when the result is requested only, again as long as it raises, and no more once it returned. *)
Theorem C120_job {B} (func : nat -> result B) k b n : (forall i, i < k -> exists e, func i = Err e) -> func k = Ok b ->
  (n <= k -> requests func n submit = (mkjob None n, map func (seq 0 n))) /\
  (forall more, requests func (k + S more) submit = (mkjob (Some b) (S k), map func (seq 0 k) ++ repeat (Ok b) (S more))).
Proof.
  intros He Hb. split.
  - intros Hn. apply (requests_failing func n 0). intros i Hi. apply He. lia.
  - intros more. rewrite requests_app. unfold submit. rewrite (requests_failing func k 0) by (intros i Hi; apply He; exact Hi). cbn [fst snd Nat.add].
    cbn [requests]. unfold get_result. cbn [j_result j_calls]. rewrite Hb, requests_done. cbn. reflexivity.
Qed.
End Props.
Print Assumptions C120_support.
Print Assumptions C120_sample.
Print Assumptions C120_probabilities.
Print Assumptions C120_threshold_refuted.
Print Assumptions C120_job.

(** The case of the unit test, with a draw which gives its point. *)
Definition four : tried nat := [(0, 5); (1, 4); (2, 3); (3, 2)].
Example most_ex : most four 5 /\ trials four < 25.
Proof. split; [split; [exists 0; cbn; auto|]|cbn; lia]. intros a c H. cbn in H. destruct H as [H|[H|[H|[H|[]]]]]; inversion H; lia. Qed.
Example nash_ex : get_nash four 7 8 = [(2, 3); (1, 4); (0, 5)] /\ sample_nash (1#6)%Q four 7 8 = Ok 2 /\ sample_nash (1#2)%Q four 7 8 = Ok 1 /\
  get_nash [(0, 2); (1, 2)] 7 8 = [(8, 1)] /\ get_nash [] 7 8 = [(7, 1)].
Proof. repeat split; reflexivity. Qed.
Example job_ex : requests (fun k => if k <? 2 then Err RuntimeError else Ok (10 + k)) 5 submit =
  (mkjob (Some 12) 3, [Err RuntimeError; Err RuntimeError; Ok 12; Ok 12; Ok 12]).
Proof. reflexivity. Qed.

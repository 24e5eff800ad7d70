(** Property C80: NoisyBandit. *)
From Coq Require Import List Arith ZArith QArith Bool Lia Lqa.
From Verif.Model Require Import Prelude MultiValue Archive NoisyBandit.
From Verif.Spec Require Import MultiValue Pruning Archive NoisyBandit.
From Verif.Proofs Require NoisyBandit.
Import ListNotations.
Local Open Scope nat_scope.

(** C80: in every history of asks, tells in any order and tells of points from outside,
    a new point is drawn exactly when 20 times the number of earlier asks is at least
    the cube of the number of arms (distinct points told so far); otherwise the point
    asked is one of the arms, either any of them or one with the smallest optimistic
    estimate of all (archive not pruned). *)
Theorem C80_asks : forall msqrt es os s, nb_run msqrt no_pruning es nb_init = Ok (os, s) ->
  forall pre src k post, os = pre ++ Asked src k :: post ->
  match src with
  | New => length (arms pre) ^ 3 <= 20 * asks pre
  | Arm => 20 * asks pre < length (arms pre) ^ 3 /\ In k (arms pre)
  | Best => 20 * asks pre < length (arms pre) ^ 3 /\ most_promising msqrt pre k
  end.
Proof. exact NoisyBandit.observed. Qed.
Print Assumptions C80_asks.

(** C80: whatever the history and whatever the pruning keeps, asking never fails
    (the random index being one of the archive), and proposes the new draw or a point
    that was told. *)
Theorem C80_never_fails : forall msqrt pruning, sub_pruning pruning ->
  forall es os s r, nb_run msqrt pruning es nb_init = Ok (os, s) ->
  (st_archive (nb_arch s) <> [] -> r_idx r < length (st_archive (nb_arch s))) ->
  exists src key s', nb_ask r s = Ok (src, key, s') /\
    match src with New => key = r_draw r | _ => In key (map t_key (tells os)) end.
Proof. exact NoisyBandit.ask_total. Qed.
Print Assumptions C80_never_fails.

(** C80: with at most [w] drawn points waiting for their first evaluation at any time
    (say, [w] workers), the number of points ever drawn exceeds the cube root of
    20 (asks - 1) by at most [w]. *)
Theorem C80_exploration_bounded : forall msqrt es os s w,
  nb_run msqrt no_pruning es nb_init = Ok (os, s) -> fresh_draws os -> at_most_waiting w os ->
  draws os = [] \/ (length (draws os) - w) ^ 3 <= 20 * (asks os - 1).
Proof. exact NoisyBandit.draws_bound. Qed.
Print Assumptions C80_exploration_bounded.

(** C80: with one worker, after [n] evaluations, the number of arms is [n] up to 5, and
    then the only number whose cube exceeds 20 (n - 1) and whose predecessor's does not. *)
Theorem C80_one_worker : forall msqrt rs os s,
  nb_run msqrt no_pruning (nb_rounds 0 rs) nb_init = Ok (os, s) -> fresh_draws os ->
  let n := length rs in let A := length (arms os) in
  (n <= 5 -> A = n) /\ (5 <= n -> (A - 1) ^ 3 <= 20 * (n - 1) < A ^ 3).
Proof.
  intros msqrt rs os s E Hf. destruct (NoisyBandit.sequential msqrt rs os s E Hf) as (_ & H1 & H2 & H3).
  cbn zeta. split; [exact H2|]. intros H. split; [exact H1|now apply H3].
Qed.
Print Assumptions C80_one_worker.

(** C80: points told from outside count as arms: once [A] points are told, nothing new is
    drawn before A^3 / 20 asks were made. *)
Theorem C80_known_points_delay_draws : forall msqrt es os s pre post,
  nb_run msqrt no_pruning es nb_init = Ok (os, s) -> os = pre ++ post ->
  20 * (asks os - 1) < length (arms pre) ^ 3 -> draws os = draws pre.
Proof. exact NoisyBandit.starved. Qed.
Print Assumptions C80_known_points_delay_draws.

(** One worker, eight rounds: the sixth point is new to nobody. *)
Definition ex_rounds : list (nb_rnd * Q) :=
  [(Rnd 10 true 0, 5%Q); (Rnd 11 true 0, 3%Q); (Rnd 12 true 0, 4%Q); (Rnd 13 true 0, 9%Q);
   (Rnd 14 true 0, 1%Q); (Rnd 15 true 2, 4%Q); (Rnd 16 false 0, 2%Q); (Rnd 17 true 0, 2%Q)].
Definition ex_obs : list nb_obs :=
  match nb_run (fun x => x) no_pruning (nb_rounds 0 ex_rounds) nb_init with
  | Ok (os, _) => os | Err _ => [] end.

Definition freshb (os : list nb_obs) : bool :=
  forallb (fun i => match nth_error os i with
    | Some (Asked New k) => negb (existsb (Nat.eqb k) (draws (firstn i os)))
        && negb (existsb (Nat.eqb k) (map t_key (tells (firstn i os))))
    | _ => true end) (seq 0 (length os)).

Lemma freshb_ok os : freshb os = true -> fresh_draws os.
Proof.
  intros H pre post k ->. unfold freshb in H. rewrite forallb_forall in H.
  specialize (H (length pre)). rewrite nth_error_app2, Nat.sub_diag, firstn_app, Nat.sub_diag, firstn_all in H by lia.
  cbn [nth_error firstn] in H. rewrite app_nil_r in H.
  assert (Hin : In (length pre) (seq 0 (length (pre ++ Asked New k :: post)))).
  { apply in_seq. rewrite app_length. cbn. lia. }
  apply H in Hin. apply andb_true_iff in Hin as (H1 & H2). apply negb_true_iff in H1, H2.
  split; intros Hx.
  - apply Bool.not_true_iff_false in H1. apply H1. apply existsb_exists. exists k. split; [exact Hx|apply Nat.eqb_refl].
  - apply Bool.not_true_iff_false in H2. apply H2. apply existsb_exists. exists k. split; [exact Hx|apply Nat.eqb_refl].
Qed.

Lemma run_ok es os : match nb_run (fun x => x) no_pruning es nb_init with Ok (os', _) => Some os' | Err _ => None end = Some os ->
  exists s, nb_run (fun x => x) no_pruning es nb_init = Ok (os, s).
Proof. destruct (nb_run _ _ _ _) as [[o s]|]; [|discriminate]. intros [= ->]. eauto. Qed.

Example C80_ex_one_worker :
  (exists s, nb_run (fun x => x) no_pruning (nb_rounds 0 ex_rounds) nb_init = Ok (ex_obs, s)) /\
  fresh_draws ex_obs /\ draws ex_obs = [10; 11; 12; 13; 14; 17] /\
  map t_key (tells ex_obs) = [10; 11; 12; 13; 14; 12; 14; 17].
Proof.
  split; [apply run_ok; vm_compute; reflexivity|]. split; [apply freshb_ok; vm_compute; reflexivity|].
  split; vm_compute; reflexivity.
Qed.

(** Two candidates at a time: a history with two waiting points, and an outside point. *)
Definition ex_events : list nb_event :=
  [EAsk (Rnd 10 true 0); EAsk (Rnd 11 true 0); ETell 1 3%Q; ENew 7 2%Q; EAsk (Rnd 12 true 0);
   ETell 0 4%Q; ETell 3 1%Q].
Definition ex_obs2 : list nb_obs :=
  match nb_run (fun x => x) no_pruning ex_events nb_init with Ok (os, _) => os | Err _ => [] end.
Example C80_ex_parallel :
  (exists s, nb_run (fun x => x) no_pruning ex_events nb_init = Ok (ex_obs2, s)) /\
  fresh_draws ex_obs2 /\ at_most_waiting 2 ex_obs2 /\ draws ex_obs2 = [10; 11; 12] /\
  arms ex_obs2 = [11; 7; 10; 12].
Proof.
  split; [apply run_ok; vm_compute; reflexivity|]. split; [apply freshb_ok; vm_compute; reflexivity|].
  split; [|split; vm_compute; reflexivity].
  intros pre post H.
  assert (Hp : pre = firstn (length pre) ex_obs2).
  { rewrite H, firstn_app, Nat.sub_diag, firstn_all. cbn. now rewrite app_nil_r. }
  assert (Hl : length pre <= 7).
  { apply (f_equal (@length _)) in H. rewrite app_length in H. cbn in H. lia. }
  rewrite Hp. generalize dependent (length pre). intros m _ Hm.
  assert (Hall : forallb (fun m => length (waiting (firstn m ex_obs2)) <=? 2) (seq 0 8) = true) by (vm_compute; reflexivity).
  rewrite forallb_forall in Hall. apply Nat.leb_le. apply Hall. apply in_seq. lia.
Qed.

(** The best arm is re-evaluated when the coin says so. *)
Definition ex_events3 : list nb_event :=
  [ENew 1 5%Q; ENew 2 1%Q; ENew 3 2%Q; ENew 2 6%Q; EAsk (Rnd 10 true 0); ETell 4 0%Q; EAsk (Rnd 11 false 0)].
Example C80_ex_best :
  exists s, nb_run (fun x => x) no_pruning ex_events3 nb_init = Ok
    ([Told 0 1 5%Q; Told 1 2 1%Q; Told 2 3 2%Q; Told 3 2 6%Q; Asked Arm 1; Told 4 1 0%Q; Asked Best 3], s).
Proof. apply run_ok. vm_compute. reflexivity. Qed.

(** C48 and C49: recast optimizers *)
From Coq Require Import Bool List Arith Lia.
From Verif.Model Require Import Prelude Recast.
From Verif.Spec Require Import Recast.
From Verif.Proofs Require Import Prelude Recast BatchRecast.
Import ListNotations.

Section C48.
Context {P L : Type}.
Variables (lib : list L -> request P) (random : nat -> P) (near : P -> P -> bool).
Hypothesis near_refl : forall p, near p p = true.

(** Pickled at any moment while the library function runs, the restored optimizer is in the state of the original one (so that whatever is
    called next behaves the same). *)
Theorem C48_running : forall cs o outs, history lib random new_opt cs = (o, outs) -> Forall plain cs -> Forall succeeded outs -> running o ->
  exists s, getstate o = Ok s /\ forall linger, setstate lib random near s linger = Some (Ok o).
Proof.
  intros cs o outs E Hp Hs Hr.
  assert (Hs' : Forall succeeded (snd (history lib random new_opt cs))) by (rewrite E; exact Hs).
  assert (H : (exists p, lib [] = RPoint p) \/ forall p, lib [] <> RPoint p).
  { destruct (lib []) as [p| |e]; [left; exists p; reflexivity|right; discriminate|right; discriminate]. }
  destruct H as [H|H].
  - assert (HI : RInv lib o).
    { pose proof (history_running lib random cs new_opt (RInv_new lib H) Hp Hs') as X. rewrite E in X. exact (X Hr). }
    unfold getstate. rewrite (r_pick _ _ HI). cbn [negb]. eexists. split; [reflexivity|]. intros g. apply (restore_running lib random near near_refl o g _ HI).
    unfold getstate. rewrite (r_pick _ _ HI). reflexivity.
  - destruct (first_call lib random cs H Hp Hs') as [->|[t [Et He]]].
    + injection E as <- <-. eexists. split; reflexivity.
    + rewrite E in Et. cbn in Et. unfold running in Hr. rewrite Et in Hr. congruence.
Qed.

(** Pickled after the library function returned, with no candidate left to tell: all later calls give the same results. *)
Theorem C48_finished : forall cs o outs, (exists p, lib [] = RPoint p) -> history lib random new_opt cs = (o, outs) ->
  Forall plain cs -> Forall prompt cs -> Forall succeeded outs -> finished o -> asked o = [] ->
  exists s, getstate o = Ok s /\ forall linger, exists o', setstate lib random near s linger = Some (Ok o') /\
    forall later, Forall prompt later -> snd (history lib random o' later) = snd (history lib random o later).
Proof.
  intros cs o outs H E Hp Hq Hs Hf Ha.
  assert (Hs' : Forall succeeded (snd (history lib random new_opt cs))) by (rewrite E; exact Hs).
  assert (HI : FInv lib o).
  { pose proof (history_prompt lib random cs new_opt (or_introl (RInv_new lib H)) Hp Hq Hs') as X. rewrite E in X. destruct X as [X|X]; [|exact X].
    exfalso. cbn in X. pose proof (r_run _ _ X) as Hrun. unfold finished in Hf. unfold thr in Hrun. destruct (o_thread o); [|contradiction]. destruct Hf. congruence. }
  assert (Hg : exists s, getstate o = Ok s) by (unfold getstate; rewrite (f_pick _ _ HI); eexists; reflexivity).
  destruct Hg as [s Hg]. exists s. split; [exact Hg|]. intros g.
  destruct (restore_finished lib random near near_refl o g s HI Hf Ha Hg) as [o' [E' Hal]]. exists o'. split; [exact E'|].
  intros later Hl. symmetry. exact (alike_history lib random later o o' Hal Hl).
Qed.

(** A library function that does not ask for the same points again is detected: restoring raises. *)
Theorem C48_mismatch : forall cs o outs (lib2 : list L -> request P) s linger j p p', history lib random new_opt cs = (o, outs) ->
  Forall plain cs -> Forall succeeded outs -> running o -> getstate o = Ok s -> j < length (losses_of o) ->
  (forall i q, i < j -> lib (firstn i (losses_of o)) = RPoint q -> exists q', lib2 (firstn i (losses_of o)) = RPoint q' /\ near q' q = true) ->
  lib (firstn j (losses_of o)) = RPoint p -> lib2 (firstn j (losses_of o)) = RPoint p' -> near p' p = false ->
  setstate lib2 random near s linger = Some (Err RuntimeError).
Proof.
  intros cs o outs lib2 s g j p p' E Hp Hs Hr Hg Hj Hpre Hl Hl2 Hn.
  assert (Hs' : Forall succeeded (snd (history lib random new_opt cs))) by (rewrite E; exact Hs).
  destruct (o_thread o) as [t|] eqn:Et; [|unfold losses_of in Hj; rewrite Et in Hj; cbn in Hj; lia].
  assert (Hrec : losses_of o = received (thr lib o)) by (unfold losses_of, thr; rewrite Et; reflexivity). rewrite Hrec in *.
  assert (H : exists q, lib [] = RPoint q).
  { destruct (lib []) as [q| |e] eqn:El; [exists q; reflexivity| |];
    (destruct (first_call lib random cs ltac:(rewrite El; discriminate) Hp Hs') as [->|[t' [Et' He]]];
      [injection E as <- <-; discriminate|rewrite E in Et'; cbn in Et'; unfold running in Hr; rewrite Et' in Hr; congruence]). }
  assert (HI : RInv lib o).
  { pose proof (history_running lib random cs new_opt (RInv_new lib H) Hp Hs') as X. rewrite E in X. exact (X Hr). }
  exact (restore_mismatch lib random near lib2 o g s j p p' (or_introl HI) Hg Hj Hpre Hl Hl2 Hn).
Qed.
End C48.

(** A library that asks for two points (the second depends on the first loss), then returns; random points are 100, 101, ... *)
Definition two_points (ls : list nat) : request nat := match ls with [] => RPoint 1 | [l] => RPoint (10 + l) | _ => RDone end.
Definition draw (n : nat) : nat := 100 + n.
Example C48_running_example :
  forall cs o outs, cs = [Ask true; Tell 0 5 5 false; Ask false] -> history two_points draw new_opt cs = (o, outs) ->
  Forall plain cs /\ Forall succeeded outs /\ running o /\ outs = [OAsk (Returned (0, 1)); OTell (Returned tt); OAsk (Returned (1, 15))].
Proof. intros cs o outs -> E. vm_compute in E. injection E as <- <-. repeat split; repeat constructor. Qed.
Example C48_finished_example :
  forall cs o outs, cs = [Ask false; Tell 0 5 5 false; Ask false; Tell 1 6 6 false; Ask false; Tell 2 7 7 false] -> history two_points draw new_opt cs = (o, outs) ->
  Forall plain cs /\ Forall prompt cs /\ Forall succeeded outs /\ finished o /\ asked o = [] /\ snd (history two_points draw o [Ask false]) = [OAsk (Returned (3, 101))].
Proof. intros cs o outs -> E. vm_compute in E. injection E as <- <-. repeat split; repeat constructor. Qed.
(** the same library with another first point *)
Example C48_mismatch_example :
  forall o, fst (history two_points draw new_opt [Ask true; Tell 0 5 5 false; Ask false]) = o ->
  exists s, getstate o = Ok s /\ 0 < length (losses_of o) /\ setstate (fun _ => RPoint 2) draw Nat.eqb s true = Some (Err RuntimeError).
Proof. intros o E. vm_compute in E. subst o. eexists. split; [reflexivity|split; [vm_compute; lia|vm_compute; reflexivity]]. Qed.

(** The thread may still be alive just after the library function returned: a tell is then archived although nobody receives it, and restoring raises. *)
Theorem C48_late_exit_refuted :
  forall cs o outs, cs = [Ask false; Tell 0 5 5 false; Ask false; Tell 1 6 6 false; Ask true; Tell 2 7 7 true] -> history two_points draw new_opt cs = (o, outs) ->
  Forall plain cs /\ Forall succeeded outs /\ finished o /\ asked o = [] /\
  exists s, getstate o = Ok s /\ forall linger, setstate two_points draw Nat.eqb s linger = Some (Err RuntimeError).
Proof. intros cs o outs -> E. vm_compute in E. injection E as <- <-. do 4 (split; [repeat constructor|]). eexists. split; [reflexivity|]. intros [|]; vm_compute; reflexivity. Qed.
(** ... or the next ask never returns *)
Theorem C48_late_exit_blocks_refuted :
  let cs := [Ask false; Tell 0 5 5 false; Ask false; Tell 1 6 6 false; Ask true; Ask true] in
  snd (history two_points draw new_opt cs) = [OAsk (Returned (0, 1)); OTell (Returned tt); OAsk (Returned (1, 15)); OTell (Returned tt); OAsk (Returned (2, 100)); OAsk Blocked].
Proof. vm_compute. reflexivity. Qed.
(** Pickled after the end with a candidate left to tell: restoring draws once more, and the next candidates differ. *)
Theorem C48_pending_refuted :
  forall cs o outs, cs = [Ask false; Tell 0 5 5 false; Ask false; Tell 1 6 6 false; Ask false] -> history two_points draw new_opt cs = (o, outs) ->
  Forall plain cs /\ Forall prompt cs /\ Forall succeeded outs /\ finished o /\
  exists s o', getstate o = Ok s /\ setstate two_points draw Nat.eqb s false = Some (Ok o') /\
    snd (history two_points draw o [Ask false]) = [OAsk (Returned (3, 101))] /\ snd (history two_points draw o' [Ask false]) = [OAsk (Returned (3, 102))].
Proof. intros cs o outs -> E. vm_compute in E. injection E as <- <-. do 4 (split; [repeat constructor|]). eexists _, _. split; [reflexivity|]. split; [vm_compute; reflexivity|]. split; vm_compute; reflexivity. Qed.
(** With a constraint violation penalty the replay uses the loss without it, and may raise. *)
Theorem C48_penalty_refuted :
  forall cs o outs, cs = [Ask false; Tell 0 5 8 false; Ask false; Tell 1 6 6 false] -> history two_points draw new_opt cs = (o, outs) ->
  Forall prompt cs /\ Forall succeeded outs /\ exists s, getstate o = Ok s /\ forall linger, setstate two_points draw Nat.eqb s linger = Some (Err RuntimeError).
Proof. intros cs o outs -> E. vm_compute in E. injection E as <- <-. do 2 (split; [repeat constructor|]). eexists. split; [reflexivity|]. intros [|]; vm_compute; reflexivity. Qed.
(** A candidate refused by the constraints is replayed with None as loss, which stops the restored library: it raises or gives random points,
    where the original goes on. *)
Theorem C48_refused_candidate_refuted :
  forall cs o outs, cs = [Refuse 1000 false; Ask false] -> history two_points draw new_opt cs = (o, outs) ->
  Forall prompt cs /\ Forall succeeded outs /\ running o /\
  exists s o', getstate o = Ok s /\ setstate two_points draw Nat.eqb s true = Some (Err ValueError) /\ setstate two_points draw Nat.eqb s false = Some (Ok o')
    /\ finished o'.
Proof. intros cs o outs -> E. vm_compute in E. injection E as <- <-. do 3 (split; [repeat constructor|]). eexists _, _. split; [reflexivity|]. split; [vm_compute; reflexivity|]. split; [vm_compute; reflexivity|]. split; reflexivity. Qed.
(** Telling a candidate again is refused, but changes the loss used by the replay. *)
Theorem C48_told_again_refuted :
  forall cs o outs, cs = [Ask false; Tell 0 5 5 false; Tell 0 7 7 false; Ask false; Tell 1 6 6 false] -> history two_points draw new_opt cs = (o, outs) ->
  Forall plain cs /\ Forall prompt cs /\ nth 2 outs (OAsk Blocked) = OTell (Raised NotImplementedError) /\
  exists s, getstate o = Ok s /\ forall linger, setstate two_points draw Nat.eqb s linger = Some (Err RuntimeError).
Proof. intros cs o outs -> E. vm_compute in E. injection E as <- <-. do 3 (split; [repeat constructor|]). eexists. split; [reflexivity|]. intros [|]; vm_compute; reflexivity. Qed.

Section C49.
Context {P L : Type}.
Variables (lib : list (list (option L)) -> request (list P)) (random : nat -> P).

(** For any interleaving of asks and tells: the k-th array sent to the library has, at position i, the loss told for the candidate of the i-th point of its
    k-th batch. Candidates are numbered in order of creation. *)
Theorem C49_losses : forall cs o outs k, bhistory lib random new_bopt cs = (o, outs) -> k < length (arrays_of o) ->
  exists pts arr, lib (firstn k (arrays_of o)) = RPoint pts /\ nth_error (arrays_of o) k = Some arr /\ length arr = length pts /\
    forall i p, nth_error pts i = Some p -> exists l, nth_error arr i = Some (Some l) /\
      In (points_before k (arrays_of o) + i, p) (given outs) /\ In (points_before k (arrays_of o) + i, l) (told outs).
Proof.
  intros cs o outs k E Hk. pose proof (bhistory_inv lib random cs new_bopt [] [] [] (BInv_new lib)) as HB. rewrite E in HB. cbn [app] in HB.
  destruct (b_thread o) as [t|] eqn:Et; [|unfold arrays_of in Hk; rewrite Et in Hk; cbn in Hk; lia].
  assert (Hr : arrays_of o = received (bthr lib o)) by (unfold arrays_of, bthr; rewrite Et; reflexivity). rewrite Hr in *.
  exact (bi_done _ _ _ _ _ HB k Hk).
Qed.
(** Candidates are handed out once, and told at most once, after they were asked. *)
Theorem C49_once : forall cs o outs, bhistory lib random new_bopt cs = (o, outs) ->
  NoDup (map fst (handed outs)) /\ NoDup (map fst (told outs)) /\ incl (map fst (told outs)) (map fst (given outs)) /\ incl (given outs) (handed outs).
Proof.
  intros cs o outs E. pose proof (bhistory_inv lib random cs new_bopt [] [] [] (BInv_new lib)) as HB. rewrite E in HB. cbn [app] in HB.
  destruct HB as [B1 B2 B3 B4 B5 B6 B7 B8]. split; [exact (proj1 (NoDup_app_split _ _ B2))|]. split; [exact B5|split; [exact B6|exact B1]].
Qed.
(** While the library waits for the losses of a batch, that batch is not fully told: it is answered by the tell of its last candidate. *)
Theorem C49_answered : forall cs o outs pts, bhistory lib random new_bopt cs = (o, outs) -> brunning o -> lib (arrays_of o) = RPoint pts -> pts <> [] ->
  points_before (length (arrays_of o)) (arrays_of o) <= length (told outs) < points_before (length (arrays_of o)) (arrays_of o) + length pts.
Proof.
  intros cs o outs pts E Hrun Hp Hne. pose proof (bhistory_inv lib random cs new_bopt [] [] [] (BInv_new lib)) as HB. rewrite E in HB. cbn [app] in HB.
  assert (Hr : arrays_of o = received (bthr lib o) /\ ended (bthr lib o) = false).
  { unfold arrays_of, brunning, bthr in *. destruct (b_thread o); [auto|]. unfold start, advance. rewrite Hp. auto. }
  destruct Hr as [Hr He]. rewrite Hr in *.
  destruct (bi_phase _ _ _ _ _ HB) as [[C1 [C2 [C3 C4]]]|[pts' IB]].
  - rewrite He in C4. destruct C4 as [p [Hp' [_ [Hn [_ HT]]]]]. rewrite HT, Hn. destruct pts; [congruence|cbn; lia].
  - destruct IB as [X1 X2 ib_lib0 X4 X5 ib_handed0 X7 X8 ib_counter0 ib_told0 ib_wait0 X12 X13 X14 X15]. rewrite Hp in ib_lib0. injection ib_lib0 as <-. rewrite ib_told0. specialize (ib_wait0 Hne). destruct (indices o) as [|x l] eqn:Ei; [congruence|]. cbn in ib_counter0. lia.
Qed.
(** While the library runs: asking raises exactly when all the points of the batch were handed out and some are not told yet; can_ask says so. *)
Theorem C49_too_many : forall cs o outs pts linger, bhistory lib random new_bopt cs = (o, outs) -> brunning o -> lib (arrays_of o) = RPoint pts ->
  let waiting := length (handed outs) = points_before (length (arrays_of o)) (arrays_of o) + length pts /\ length (told outs) < length (handed outs) in
  (can_ask o = false <-> waiting) /\ (snd (bask lib random o linger) = Raised TooManyAsk <-> waiting).
Proof.
  intros cs o outs pts g E Hrun Hp waiting. pose proof (bhistory_inv lib random cs new_bopt [] [] [] (BInv_new lib)) as HB. rewrite E in HB. cbn [app] in HB.
  assert (Hr : arrays_of o = received (bthr lib o) /\ ended (bthr lib o) = false).
  { unfold arrays_of, brunning, bthr in *. destruct (b_thread o); [auto|]. unfold start, advance. rewrite Hp. auto. }
  destruct Hr as [Hr He]. unfold waiting. rewrite Hr in *.
  assert (Hcan : can_ask o = false <-> length (handed outs) = points_before (length (received (bthr lib o))) (received (bthr lib o)) + length pts /\ length (told outs) < length (handed outs)).
  { unfold can_ask. destruct (bi_phase _ _ _ _ _ HB) as [[C1 [C2 [C3 C4]]]|[pts' IB]].
    - rewrite C2. rewrite He in C4. destruct C4 as [p [Hp' [_ [Hn [HH HT]]]]]. split; [discriminate|]. intros [_ H]. lia.
    - destruct IB as [X1 X2 ib_lib0 X4 X5 ib_handed0 X7 X8 ib_counter0 ib_told0 ib_wait0 X12 X13 X14 X15]. rewrite Hp in ib_lib0. injection ib_lib0 as <-. destruct (indices o) as [|x l] eqn:Ei.
      + split; [discriminate|]. intros [H1 H2]. cbn in ib_counter0. lia.
      + destruct (current_batch o) as [|y c] eqn:Ec; cbn in ib_handed0, ib_counter0.
        * split; [intros _|reflexivity]. lia.
        * split; [discriminate|]. intros [H1 H2]. lia. }
  split; [exact Hcan|]. rewrite <- Hcan.
  unfold bask, internal_bask. fold (bthr lib o). set (o1 := with_bthread o (bthr lib o)).
  change (can_ask o1) with (can_ask o). change (current_batch o1) with (current_batch o).
  destruct (current_batch o) as [|y c] eqn:Ec.
  - destruct (can_ask o) eqn:Ek; cbn [negb]; [|split; reflexivity]. split; [|discriminate].
    unfold next_message, is_alive. rewrite He.
    destruct (bi_phase _ _ _ _ _ HB) as [[C1 [C2 [C3 C4]]]|[pts' IB]].
    + rewrite He in C4. destruct C4 as [p [Hp' [-> _]]]. unfold ask_current. cbn [current_batch].
      destruct (pop (enumerate (next_uid o1) p)) as [[[u q] rest]|]; cbn; discriminate.
    + rewrite (ib_mail _ _ _ _ _ _ IB). cbn. discriminate.
  - assert (Hc : can_ask o = true) by (unfold can_ask; rewrite Ec; destruct (indices o); reflexivity). rewrite Hc. split; [|discriminate].
    unfold ask_current. change (current_batch o1) with (current_batch o). rewrite Ec. pose proof (pop_spec (y :: c)) as Hpop. destruct (pop (y :: c)) as [[[u q] rest]|]; cbn; discriminate.
Qed.
(** When the library returned (or raised), can_ask holds *)
Theorem C49_can_ask_finished : forall cs o outs, bhistory lib random new_bopt cs = (o, outs) -> ~ brunning o -> can_ask o = true.
Proof.
  intros cs o outs E Hrun. pose proof (bhistory_inv lib random cs new_bopt [] [] [] (BInv_new lib)) as HB. rewrite E in HB. cbn [app] in HB.
  destruct (bi_phase _ _ _ _ _ HB) as [[C1 [C2 _]]|[pts' IB]]; [unfold can_ask; rewrite C2; reflexivity|].
  exfalso. apply Hrun. unfold brunning. pose proof (ib_run _ _ _ _ _ _ IB) as X. unfold bthr in X. destruct (b_thread o); [exact X|exact I].
Qed.

(** An empty batch: the ask raises IndexError and the following ones never return. *)
Theorem C49_empty_batch_refuted : forall linger n, lib [] = RPoint [] ->
  snd (bhistory lib random new_bopt (BAsk linger :: repeat (BAsk linger) n)) = BOAsk (Raised IndexError) :: repeat (BOAsk Blocked) n.
Proof.
  intros g n Hl. cbn [bhistory bstep]. unfold bask at 1. unfold internal_bask at 1, new_bopt at 1 2. cbn. unfold start, advance, is_alive. rewrite Hl. cbn.
  match goal with |- snd (let '(o2, xs) := bhistory lib random ?o1 (repeat (BAsk g) n) in _) = _ => set (o := o1) end.
  assert (Hst : bstep lib random o (BAsk g) = (o, BOAsk Blocked)) by reflexivity.
  assert (Hh : forall m, bhistory lib random o (repeat (BAsk g) m) = (o, repeat (BOAsk Blocked) m)).
  { induction m as [|m IH]; [reflexivity|]. cbn [repeat bhistory]. rewrite Hst, IH. reflexivity. }
  rewrite Hh. reflexivity.
Qed.
(** A candidate of a batch refused by the constraints is never told: once the other ones are handed out and told, nothing more can be done. *)
Theorem C49_refused_candidate_refuted : forall o, brunning o -> b_thread o <> None -> current_batch o = [] -> indices o <> [] -> b_asked o = [] ->
  forall later, fst (bhistory lib random o later) = o /\
    Forall (fun x => x = BOAsk (Raised TooManyAsk) \/ x = BORefuse (Raised TooManyAsk) \/ exists u l, x = BOTell u l (Raised NotImplementedError)) (snd (bhistory lib random o later)).
Proof.
  intros o Hr Ht Hc Hi Ha. destruct (b_thread o) as [t|] eqn:Et; [|congruence].
  assert (Hw : with_bthread o t = o) by (destruct o; cbn in *; subst; reflexivity).
  assert (Hcan : can_ask o = false) by (unfold can_ask; rewrite Hc; destruct (indices o); congruence).
  assert (Hask : forall g, internal_bask lib random o g = (o, Raised TooManyAsk)).
  { intros g. unfold internal_bask. rewrite Et, Hw, Hc, Hcan. reflexivity. }
  induction later as [|c later [IH1 IH2]]; [split; [reflexivity|constructor]|]. cbn [bhistory].
  destruct (bhistory lib random o later) as [o2 xs] eqn:E. cbn [fst snd] in IH1, IH2. subst o2.
  destruct c as [g|g|u l g]; cbn [bstep].
  - unfold bask. rewrite Hask, E. split; [reflexivity|]. constructor; [left; reflexivity|exact IH2].
  - rewrite Hask, E. split; [reflexivity|]. constructor; [right; left; reflexivity|exact IH2].
  - unfold btell. rewrite Ha. cbn [existsb]. rewrite E. split; [reflexivity|]. constructor; [right; right; exists u, l; reflexivity|exact IH2].
Qed.
End C49.

(** Batches of two points, told in the reverse order *)
Definition pairs (ls : list (list (option nat))) : request (list nat) := RPoint [10 * length ls; 10 * length ls + 1].
Example C49_example :
  forall cs o outs, cs = [BAsk true; BAsk true; BTell 0 5 true; BAsk true; BTell 1 6 true; BAsk true; BAsk true] -> bhistory pairs draw new_bopt cs = (o, outs) ->
  brunning o /\ arrays_of o = [[Some 5; Some 6]] /\ given outs = [(1, 1); (0, 0); (3, 11); (2, 10)] /\ nth 3 outs (BOAsk Blocked) = BOAsk (Raised TooManyAsk)
  /\ can_ask o = false.
Proof. intros cs o outs -> E. vm_compute in E. injection E as <- <-. repeat split. Qed.
Example C49_refused_example :
  forall cs o outs, cs = [BRefuse true; BAsk true; BTell 0 5 true] -> bhistory pairs draw new_bopt cs = (o, outs) ->
  brunning o /\ b_thread o <> None /\ current_batch o = [] /\ indices o <> [] /\ b_asked o = [].
Proof. intros cs o outs -> E. vm_compute in E. injection E as <- <-. repeat split; discriminate. Qed.

Print Assumptions C48_running.
Print Assumptions C48_finished.
Print Assumptions C48_mismatch.
Print Assumptions C48_late_exit_refuted.
Print Assumptions C48_late_exit_blocks_refuted.
Print Assumptions C48_pending_refuted.
Print Assumptions C48_penalty_refuted.
Print Assumptions C48_refused_candidate_refuted.
Print Assumptions C48_told_again_refuted.
Print Assumptions C49_losses.
Print Assumptions C49_once.
Print Assumptions C49_answered.
Print Assumptions C49_too_many.
Print Assumptions C49_can_ask_finished.
Print Assumptions C49_empty_batch_refuted.
Print Assumptions C49_refused_candidate_refuted.

(** C68: the particle swarm. *)
From Coq Require Import List Arith QArith Reals Lia Lra Bool.
From Verif.Model Require Import Prelude MultiValue UidQueue Evolution RTransforms Pso.
From Verif.Spec Require Import Evolution Pso.
From Verif.Proofs Require Import Prelude MultiValue UidQueue Evolution Pso.
Import ListNotations.
Open Scope nat_scope.

(** every operation is allowed *)
Definition anything (out fin : list nat) (o : ev_op) : Prop := True.

(** Whatever the history (suggestions, several tells of a candidate, penalties, any number of
    outstanding candidates), the swarm has at most [llambda] particles, with distinct keys. *)
Theorem C68_size : forall llambda allowed s out fin, 1 <= llambda -> pso_reach llambda allowed s out fin ->
  NoDup (dkeys (de_pop (pso_s s))) /\ length (de_pop (pso_s s)) <= llambda.
Proof. intros llambda allowed s out fin Hl H. apply (gen_reach llambda Hl) in H. apply H. Qed.
Print Assumptions C68_size.

(** Whatever the history, no tell raises an exception. *)
Theorem C68_tell_accepted : forall llambda allowed s out fin c l0 l asked, 1 <= llambda -> pso_reach llambda allowed s out fin ->
  snd (pso_step llambda asked s (OTell c l0 l)) = Ok tt.
Proof.
  intros llambda allowed s out fin c l0 l asked Hl H. apply (gen_reach llambda Hl) in H.
  destruct (pso_step llambda asked s (OTell c l0 l)) as [s' r] eqn:E.
  destruct (tell_spec llambda Hl _ _ _ _ _ _ _ H E) as (-> & _). reflexivity.
Qed.
Print Assumptions C68_tell_accepted.

(** Nor any ask, when fewer than [llambda] candidates are outstanding and each candidate is told once. *)
Theorem C68_ask_accepted : forall llambda s out fin u, 1 <= llambda -> pso_reach llambda (few_workers llambda) s out fin ->
  length out < llambda -> known u (de_c (pso_s s)) = false ->
  snd (pso_step llambda true s (OAsk u)) = Ok tt.
Proof.
  intros llambda s out fin u Hl H Hw Hu. apply (workers_pso_reach llambda Hl) in H as (A & B & C); [|auto].
  destruct (pso_step llambda true s (OAsk u)) as [s' r] eqn:E.
  assert (Hr : forall c, OAsk u <> OReject c) by discriminate.
  destruct (workers_pso_step llambda Hl s out fin (OAsk u) s' r A Hu (conj I Hw) Hr B C E) as [-> _]. reflexivity.
Qed.
Print Assumptions C68_ask_accepted.

(** The point that attracts the whole swarm is a told candidate with the least loss told so far. *)
Theorem C68_global_best : forall llambda s out fin, 1 <= llambda -> pso_reach llambda plain_once s out fin -> fin <> [] ->
  exists b, pso_best s = Some b /\ In b fin /\ loss b (de_c (pso_s s)) <> None /\
    forall c, In c fin -> le_loss (loss b (de_c (pso_s s))) (loss c (de_c (pso_s s))).
Proof.
  intros llambda s out fin Hl H Hf. apply (best_reach llambda Hl) in H as (_ & _ & H1 & H2 & H3 & _); [|auto].
  destruct (H3 Hf) as (b & E & Hb). exists b. split; [exact E|]. split; [exact Hb|]. split; [auto|].
  intros c Hc. specialize (H1 c Hc). unfold best_loss in H1. rewrite E in H1. exact H1.
Qed.
Print Assumptions C68_global_best.

(** Telling a candidate that was asked moves the particle there, better or worse, and nothing else changes. *)
Theorem C68_particle_moves : forall llambda s out fin c l, 1 <= llambda -> pso_reach llambda (asked_only llambda) s out fin ->
  In c out -> let s' := fst (pso_step llambda true s (OTell c l l)) in
  exists k, lineage c (de_c (pso_s s)) = k /\ dmem k (de_pop (pso_s s)) = true /\
    forall x, dget x (de_pop (pso_s s')) = if x =? k then Some c else dget x (de_pop (pso_s s)).
Proof.
  intros llambda s out fin c l Hl H Hc. pose proof (personal_reach llambda Hl _ _ _ H) as HP.
  apply (gen_reach llambda Hl) in H.
  destruct (pso_step llambda true s (OTell c l l)) as [s' r] eqn:E. cbn [fst]. cbn zeta.
  exists (lineage c (de_c (pso_s s))). split; [reflexivity|].
  pose proof (pi_out _ _ _ HP c Hc) as Hm. split; [exact Hm|].
  destruct (tell_spec llambda Hl _ _ _ _ _ _ _ H E) as (_ & _ & [(_ & _ & Ep & _)|(Hn & _)]).
  - intros x. rewrite Ep. apply dget_dset.
  - rewrite (Hn eq_refl) in Hm. discriminate.
Qed.
Print Assumptions C68_particle_moves.

(** A point told without being asked joins a swarm which is not full; in a full swarm it takes the place of
    a particle with the greatest loss (a particle not told yet counts as infinite), unless its loss is
    greater than that one. *)
Theorem C68_injected : forall llambda s out fin c l, 1 <= llambda -> pso_reach llambda (few_workers llambda) s out fin ->
  known c (de_c (pso_s s)) = true -> ~ In c out -> ~ In c fin ->
  let pop := de_pop (pso_s s) in
  let s' := fst (pso_step llambda false s (OTell c l l)) in
  let pop' := de_pop (pso_s s') in
  dmem c pop = false /\
  (length pop < llambda /\ (forall x, dget x pop' = if x =? c then Some c else dget x pop) \/
   length pop = llambda /\ exists w m, dget w pop = Some m /\
     (forall x y, dget x pop = Some y -> le_loss (loss y (de_c (pso_s s))) (loss m (de_c (pso_s s)))) /\
     (lt_loss (loss m (de_c (pso_s s))) (Some l) /\ pop' = pop \/
      le_loss (Some l) (loss m (de_c (pso_s s))) /\
      forall x, dget x pop' = if x =? c then Some c else if x =? w then None else dget x pop)).
Proof.
  intros llambda s out fin c l Hl H Hk Ho Hf. pose proof (vals_reach llambda Hl _ _ _ _ H) as HV.
  apply (workers_pso_reach llambda Hl) in H as (HG & HI & HW); [|auto].
  destruct (pso_step llambda false s (OTell c l l)) as [s' r] eqn:E. cbn [fst]. cbn zeta.
  assert (Hnew : dmem c (de_pop (pso_s s)) = false).
  { destruct (dmem c (de_pop (pso_s s))) eqn:Em; [|reflexivity]. exfalso.
    destruct (ti_keys _ _ _ HI c Em) as [|[? _]]; contradiction. }
  split; [exact Hnew|].
  assert (Hval : forall x y, dget x (de_pop (pso_s s)) = Some y ->
    loss y (set_cand_loss c l (de_c (pso_s s))) = loss y (de_c (pso_s s))).
  { intros x y Hy. rewrite loss_set. destruct (Nat.eqb_spec y c) as [->|]; [|reflexivity].
    destruct (HV x c Hy); contradiction. }
  destruct (tell_spec llambda Hl _ _ _ _ _ _ _ HG E) as (_ & _ & [(X & _)|(_ & _ & H)]); [discriminate|].
  destruct H as [(Hlt & Ep & _)|(Hlen & w & m & [Hw Hmax] & H)].
  - left. split; [exact Hlt|]. intros x. rewrite Ep. apply dget_dset.
  - right. split; [exact Hlen|]. exists w, m. cbn [told_state pso_s de_pop de_c] in Hw, Hmax, H.
    rewrite (Hval w m Hw) in H. split; [exact Hw|]. split.
    + intros x y Hy. specialize (Hmax x y Hy). rewrite (Hval w m Hw), (Hval x y Hy) in Hmax. exact Hmax.
    + destruct H as [(Hlt & ->)|(Hle & Ep & _)]; [left; split; [exact Hlt|reflexivity]|].
      right. split; [exact Hle|]. intros x. rewrite Ep, dget_dset, dget_ddel by apply HG. reflexivity.
Qed.
Print Assumptions C68_injected.

(** When only asked candidates are told, the personal best of a particle is the best of all its positions:
    the candidate itself or one of its ancestors, with the least loss among them. *)
Theorem C68_personal_best : forall llambda s out fin c, 1 <= llambda -> pso_reach llambda (asked_only llambda) s out fin ->
  In c fin -> exists b, dget c (pso_bp s) = Some b /\ ancestor (de_c (pso_s s)) b c /\ loss b (de_c (pso_s s)) <> None /\
    forall a, ancestor (de_c (pso_s s)) a c -> le_loss (loss b (de_c (pso_s s))) (loss a (de_c (pso_s s))).
Proof.
  intros llambda s out fin c Hl H Hc. pose proof (personal_reach llambda Hl _ _ _ H) as HP.
  apply (gen_reach llambda Hl) in H. destruct (pi_fin _ _ _ HP c Hc) as (b & B1 & B2 & B3).
  exists b. split; [exact B1|]. split; [exact B2|]. split; [exact (g_bp _ _ H _ _ B1)|exact B3].
Qed.
Print Assumptions C68_personal_best.

(** A candidate asked and not told yet is new in the swarm, or a child of a told one whose personal best it takes over. *)
Theorem C68_asked_inherits : forall llambda s out fin c, 1 <= llambda -> pso_reach llambda (asked_only llambda) s out fin ->
  In c out ->
  match parent c (de_c (pso_s s)) with
  | None => dget c (pso_bp s) = None
  | Some p => In p fin /\ dget c (pso_bp s) = dget p (pso_bp s)
  end.
Proof.
  intros llambda s out fin c Hl H Hc. apply (personal_reach llambda Hl) in H as HP.
  pose proof (pi_new _ _ _ HP c Hc) as X. pose proof (pi_parent _ _ _ HP c (or_introl Hc)) as Y.
  destruct (parent c (de_c (pso_s s))); auto.
Qed.
Print Assumptions C68_asked_inherits.

(** ** Concrete histories *)
Ltac known_lists := vm_compute; repeat match goal with
  | |- _ /\ _ => split
  | |- True => exact I
  | |- forall c, _ = OReject c -> False => intros ? ?; discriminate
  | |- _ -> False => let X := fresh in intros X; repeat (destruct X as [X|X]; [discriminate|]); exact X
  | |- (_ <= _)%nat => repeat constructor
  | |- _ \/ _ => tauto
  | |- _ => reflexivity
  end.

Definition history : list ev_op :=
  [OAsk 1; OAsk 2; OTell 2 (3#1) (3#1); OAsk 3; OTell 1 (5#1) (5#1); OTell 3 (4#1) (4#1); OAsk 4; OTell 4 (2#1) (2#1);
   OAsk 5; OTell 5 (6#1) (6#1); OAsk 6].
(** the particle 2 went to 3 and 5: its best is 2; the particle 1 went to 4, its best; the best of all is 4 *)
Example C68_nontrivial :
  let '(s, out, fin) := pso_play 3 pso_init [] [] (OAsk 7 :: OTell 7 (9#1) (9#1) :: history) in
  pso_reach 3 (asked_only 3) s out fin /\ out = [6] /\ fin = [5; 4; 3; 1; 2; 7] /\ pso_best s = Some 4 /\
  de_pop (pso_s s) = [(7, 3); (1, 5); (2, 4)] /\ dget 5 (pso_bp s) = Some 1 /\ dget 3 (pso_bp s) = Some 3 /\ dget 4 (pso_bp s) = Some 4.
Proof.
  pose proof (play_reach 3 (asked_only 3) (OAsk 7 :: OTell 7 (9#1) (9#1) :: history) pso_init [] [] (pso_reach_init _ _)) as H.
  destruct (pso_play 3 pso_init [] [] (OAsk 7 :: OTell 7 (9#1) (9#1) :: history)) as [[s out] fin] eqn:E.
  split.
  - apply H. known_lists.
  - vm_compute in E. injection E as <- <- <-. vm_compute. repeat split.
Qed.

(** Finding: the penalty of a candidate which violates the constraints is forgotten once it is the best point:
    the first candidate has loss 1 and penalty 100, the second one has loss 5 and no penalty, the swarm
    stays attracted by the first one. *)
Definition penalised_once (out fin : list nat) (o : ev_op) : Prop :=
  match o with OTell c l0 l => ~ In c fin /\ (l0 <= l)%Q | _ => True end.
Theorem C68_best_penalty_refuted :
  let '(s, out, fin) := pso_play 2 pso_init [] [] [OAsk 1; OTell 1 (1#1) (101#1); OAsk 2; OTell 2 (5#1) (5#1)] in
  pso_reach 2 penalised_once s out fin /\ pso_best s = Some 1.
Proof.
  pose proof (play_reach 2 penalised_once [OAsk 1; OTell 1 (1#1) (101#1); OAsk 2; OTell 2 (5#1) (5#1)] pso_init [] [] (pso_reach_init _ _)) as H.
  destruct (pso_play 2 pso_init [] [] [OAsk 1; OTell 1 (1#1) (101#1); OAsk 2; OTell 2 (5#1) (5#1)]) as [[s out] fin] eqn:E.
  split.
  - apply H. known_lists; intros; discriminate.
  - vm_compute in E. injection E as <- <- <-. vm_compute. reflexivity.
Qed.
Print Assumptions C68_best_penalty_refuted.

(** Finding: a particle told without being asked is not recorded as its own best: its child, although worse,
    becomes the personal best of the particle. *)
Theorem C68_personal_best_injected_refuted :
  let '(s, out, fin) := pso_play 2 pso_init [] []
     [ONew 9 9 None; OTell 9 (1#1) (1#1); OAsk 1; OTell 1 (7#1) (7#1); OAsk 2; OTell 2 (5#1) (5#1)] in
  pso_reach 2 (few_workers 2) s out fin /\ In 2 fin /\ dget 2 (pso_bp s) = Some 2 /\ ancestor (de_c (pso_s s)) 9 2 /\
  lt_loss (loss 9 (de_c (pso_s s))) (loss 2 (de_c (pso_s s))).
Proof.
  pose proof (play_reach 2 (few_workers 2) [ONew 9 9 None; OTell 9 (1#1) (1#1); OAsk 1; OTell 1 (7#1) (7#1); OAsk 2; OTell 2 (5#1) (5#1)]
    pso_init [] [] (pso_reach_init _ _)) as H.
  destruct (pso_play 2 pso_init [] [] [ONew 9 9 None; OTell 9 (1#1) (1#1); OAsk 1; OTell 1 (7#1) (7#1); OAsk 2; OTell 2 (5#1) (5#1)])
    as [[s out] fin] eqn:E.
  split.
  - apply H. known_lists.
  - vm_compute in E. injection E as <- <- <-. split; [now left|]. split; [reflexivity|]. split; [|reflexivity].
    econstructor; [reflexivity|constructor].
Qed.
Print Assumptions C68_personal_best_injected_refuted.

(** Finding: with more outstanding candidates than particles (more workers than [popsize]) an ask may fail. *)
Theorem C68_ask_key_error_refuted :
  let '(s, out, fin) := pso_play 2 pso_init [] [] [OAsk 1; OAsk 2; OAsk 3; OAsk 4; OAsk 5; OTell 3 (5#1) (5#1);
                OTell 5 (6#1) (6#1); OTell 4 (1#1) (1#1); ONew 9 9 None; OTell 9 (0#1) (0#1)] in
  pso_reach 2 plain_once s out fin /\ snd (pso_step 2 true s (OAsk 20)) = Err KeyError.
Proof.
  pose proof (play_reach 2 plain_once [OAsk 1; OAsk 2; OAsk 3; OAsk 4; OAsk 5; OTell 3 (5#1) (5#1);
                OTell 5 (6#1) (6#1); OTell 4 (1#1) (1#1); ONew 9 9 None; OTell 9 (0#1) (0#1)]
    pso_init [] [] (pso_reach_init _ _)) as H.
  destruct (pso_play 2 pso_init [] [] [OAsk 1; OAsk 2; OAsk 3; OAsk 4; OAsk 5; OTell 3 (5#1) (5#1);
                OTell 5 (6#1) (6#1); OTell 4 (1#1) (1#1); ONew 9 9 None; OTell 9 (0#1) (0#1)]) as [[s out] fin] eqn:E.
  split.
  - apply H. known_lists.
  - vm_compute in E. injection E as <- <- <-. vm_compute. reflexivity.
Qed.
Print Assumptions C68_ask_key_error_refuted.

(** ** Moves *)
Section Moves.
  Open Scope R_scope.
  (** With a bounding transform the new position is in its box: transforming it back never fails. *)
  Theorem C68_in_box : forall omega phip phig eps speed x personal global rp rg, 0 <= eps <= 1 / 2 ->
    let y := new_position omega phip phig (Some eps) speed x personal global rp rg in
    0 <= y <= 1 /\ eps <= y <= 1 - eps /\ in_range false (TArctan 0 1) y = true.
  Proof.
    intros omega phip phig eps speed x personal global rp rg He y.
    pose proof (clip_R_box (new_speed omega phip phig speed x personal global rp rg + x) eps ltac:(lra) ltac:(lra)) as H.
    change (clip_R _ _ _) with y in H. clearbody y. cbn.
    destruct (Rlt_dec 1 y); [lra|]. destruct (Rlt_dec y 0); [lra|]. repeat split; lra.
  Qed.
  Print Assumptions C68_in_box.

  (** Without speed, a move ends between the particle, its best and the best of the swarm, if the sum of the
      weights of both attractions is at most 1. *)
  Theorem C68_attraction : forall omega phip phig x personal global rp rg lo hi,
    0 <= phip * rp -> 0 <= phig * rg -> phip * rp + phig * rg <= 1 ->
    lo <= x <= hi -> lo <= personal <= hi -> lo <= global <= hi ->
    lo <= new_position omega phip phig None 0 x personal global rp rg <= hi.
  Proof.
    intros omega phip phig x personal global rp rg lo hi Ha Hb Hab Hx Hp Hg. unfold new_position, new_speed.
    set (a := phip * rp) in *. set (b := phig * rg) in *.
    split; nra.
  Qed.
  Print Assumptions C68_attraction.

  (** The swarm is at rest exactly at a common point: a particle at its best and at the best of the swarm
      moves by its inertia only. *)
  Theorem C68_rest : forall omega phip phig eps x rp rg, match eps with None => True | Some e => e <= x <= 1 - e end ->
    new_position omega phip phig eps 0 x x x rp rg = x /\
    new_speed omega phip phig 0 x x x rp rg = 0.
  Proof.
    intros omega phip phig eps x rp rg He. unfold new_position.
    assert (E : new_speed omega phip phig 0 x x x rp rg = 0) by (unfold new_speed; ring).
    rewrite E. split; [|reflexivity]. rewrite Rplus_0_l. destruct eps as [e|]; [|reflexivity]. apply clip_R_id. exact He.
  Qed.
  Print Assumptions C68_rest.

  (** Finding: with the default transform (arctan, which maps to the open interval) the clipped position may be
      the end of the interval, which no data has, and is transformed back to an infinite value (a number around
      -1.6e16 in floating point), whatever the inertia at least 1/2. *)
  Theorem C68_arctan_pole_refuted : forall omega phip phig rp rg, 1 / 2 <= omega ->
    apply false (TArctan 0 1) 0 = Fin (1 / 2) /\
    let y := new_position omega phip phig (Some 0) (-1) (1 / 2) (1 / 2) (1 / 2) rp rg in
    apply true (TArctan 0 1) y = MInf /\ forall z, apply false (TArctan 0 1) z <> Fin y.
  Proof.
    intros omega phip phig rp rg Ho. pose proof PI_RGT_0 as HP.
    split; [cbn; rewrite atan_0; f_equal; field; lra|].
    assert (E : new_position omega phip phig (Some 0) (-1) (1 / 2) (1 / 2) (1 / 2) rp rg = 0).
    { unfold new_position, new_speed, clip_R, Rmin, Rmax.
      set (d := omega * -1 + phip * rp * (1 / 2 - 1 / 2) + phig * rg * (1 / 2 - 1 / 2) + 1 / 2).
      assert (Hd : d <= 0) by (unfold d; lra).
      destruct (Rle_dec 0 d); destruct (Rle_dec (1 - 0) _); lra. }
    cbn zeta. rewrite E. split.
    - cbn [apply]. replace ((0 - (1 + 0) / 2) / ((1 - 0) / PI)) with (- (PI / 2)) by (field; lra).
      unfold np_tan. destruct (Req_EM_T (- (PI / 2)) (PI / 2)); [lra|].
      destruct (Req_EM_T (- (PI / 2)) (- (PI / 2))); [reflexivity|lra].
    - intros z. cbn [apply]. intros [= X]. destruct (atan_bound z) as [A B].
      assert (Y : atan z = - (PI / 2)).
      { apply (Rmult_eq_reg_l (/ PI)); [|apply Rgt_not_eq, Rinv_0_lt_compat; lra].
        replace (/ PI * - (PI / 2)) with (- (1/2)) by (field; lra).
        replace (/ PI * atan z) with ((1 - 0) / PI * atan z) by (field; lra). lra. }
      lra.
  Qed.
  Print Assumptions C68_arctan_pole_refuted.
End Moves.

(** C127: the team pursuit. *)
From Coq Require Import Bool Arith List ZArith QArith Lia Lqa Sorting.Permutation.
From Verif Require Import Model.Prelude Model.MultiValue Model.Cycling Spec.Cycling Proofs.MultiValue Proofs.Cycling.
Import ListNotations.
Open Scope nat_scope.
Open Scope list_scope.

Section Race.
  Variable V : Type.
  Variable v0 : V.
  Variable pace_motion : V -> nat -> Q -> result (Q * V).
  Variable follow_motion : V -> nat -> Q -> Q -> result (Q * V).
  Notation simulate := (simulate V v0 pace_motion follow_motion).
  Notation segments := (segments V pace_motion follow_motion).
  Notation team_pursuit_simulation := (team_pursuit_simulation V v0 pace_motion follow_motion).

  (** a team as built by the code, whatever happened to it since: starting positions 1, 2, ... *)
  Definition is_team (men : bool) (team : list (rider V)) : Prop :=
    map (r_start V) team = seq 1 (if men then 4 else 3) /\ Forall (fun r => (0 < r_total V r)%Q) team.

  Lemma simulate_ok men fuel team tr pacing s : simulate men fuel team tr pacing = Ok s ->
    List.length tr = race_segments men - 1 /\ List.length pacing = race_segments men /\
    Forall (fun p => (200 <= p)%Q /\ (p <= 1200)%Q) pacing /\
    segments men fuel (race_segments men) (race_distance men) tr 0 pacing (Sim V (map (reset V v0) team) (Some 0%Q) 0 [] []) = Ok s.
  Proof.
    unfold Cycling.simulate. destruct (Nat.eqb_spec (List.length tr) (race_segments men - 1)); cbn [negb]; [|easy].
    destruct (Nat.eqb_spec (List.length pacing) (race_segments men)); cbn [negb]; [|easy].
    destruct (existsb _ pacing) eqn:E; [easy|]. intros H. split; [easy|]. split; [easy|]. split; [|easy].
    rewrite Forall_forall. intros p I.
    assert (X : qlt 1200 p || qlt p 200 = false).
    { destruct (qlt 1200 p || qlt p 200) eqn:X; [|easy]. exfalso.
      assert (existsb (fun p => qlt 1200 p || qlt p 200) pacing = true) by (apply existsb_exists; now exists p). congruence. }
    apply orb_false_iff in X as [X1 X2]. apply qlt_false in X1, X2. now split.
  Qed.
  Lemma start_inv men team : is_team men team -> inv V men (map (reset V v0) team).
  Proof.
    intros [E F]. exists (seq 1 (if men then 4 else 3)).
    assert (P : positions V (map (reset V v0) team) = seq 1 (if men then 4 else 3)) by (unfold positions; rewrite map_map; exact E).
    split; [destruct men; cbn; auto|]. split; [rewrite map_length, <- (map_length (r_start V)); now rewrite E|].
    assert (A : forall b, fits b (seq 1 (if men then 4 else 3)) = true).
    { intros b. unfold fits. apply forallb_forall. intros [a p] I. apply in_combine_r in I. apply in_seq in I. cbn [fst snd].
      destruct (Nat.ltb_spec 0 p); [now rewrite orb_true_r|lia]. }
    split; [apply A|]. now rewrite P.
  Qed.

  (** C127: whatever the motions, a simulation never fails for lack of a leader or of a drafting coefficient: it ends with a result, is
      refused because of the strategies, or fails in the motions; when it gives a result, the riders in the race hold the positions 1
      to k (at least 3) at the start of every segment, and after i segments the fatigue is at most 2 i *)
  Theorem C127_formation men fuel team tr pacing : is_team men team ->
    match simulate men fuel team tr pacing with
    | Ok s => forall i e, nth_error (s_log V s) i = Some e ->
        (exists k, 3 <= k /\ formation k (map fst e)) /\ Forall (fun pf => snd pf <= 2 * i) e
    | Err e => e = ValueError \/ e = OutOfFuel \/
        (exists v f p, pace_motion v f p = Err e) \/ (exists v f c d, follow_motion v f c d = Err e)
    end.
  Proof.
    intros T. unfold Cycling.simulate. destruct (negb _); [now left|]. destruct (negb _); [now left|]. destruct (existsb _ _); [now left|].
    pose proof (segments_inv V pace_motion follow_motion men fuel (race_segments men) (race_distance men) tr pacing 0
      (Sim V (map (reset V v0) team) (Some 0%Q) 0 [] [])) as H.
    cbn [s_team s_log] in H. specialize (H (start_inv _ _ T)).
    assert (G : good_log []) by (intros [|i] e E; discriminate). specialize (H G eq_refl).
    assert (F : Forall (fun f => f <= 2 * 0) (map (r_fatigue V) (map (reset V v0) team))).
    { rewrite map_map, Forall_map, Forall_forall. cbn. lia. }
    specialize (H F). destruct (segments _ _ _ _ _ _ _ _) as [s|e].
    - destruct H as [_ H]. exact H.
    - right. exact H.
  Qed.

  Lemma ridden_all men i vs : List.length vs + i = race_segments men -> forall ws, vs = map Some ws ->
    (ridden (race_segments men) i vs == ridden (race_segments men) i (repeat (Some 0%Q) (List.length vs)))%Q.
  Proof.
    revert i. induction vs as [|v vs IH]; intros i L ws E; [reflexivity|]. destruct ws as [|w ws]; [easy|]. injection E as -> E.
    cbn [ridden List.length repeat]. rewrite (IH (S i)) with (ws := ws); [reflexivity|cbn in L; lia|easy].
  Qed.
  Lemma ridden_le n vs : forall i, (ridden n i vs <= ridden n i (repeat (Some 0%Q) (List.length vs)))%Q /\
    (In None vs -> (ridden n i vs < ridden n i (repeat (Some 0%Q) (List.length vs)))%Q).
  Proof.
    induction vs as [|v vs IH]; intros i; [split; [apply Qle_refl|easy]|]. destruct (IH (S i)) as [A B]. cbn [ridden List.length repeat].
    pose proof (length_of_pos n i) as P. split.
    - destruct v; lra.
    - intros [->|I]; [lra|]. specialize (B I). destruct v; lra.
  Qed.
  Lemma ridden_total men : (ridden (race_segments men) 0 (repeat (Some 0%Q) (race_segments men)) == race_distance men)%Q.
  Proof. destruct men; reflexivity. Qed.
  Lemma taken_count l : forall i tr, (forall j, j < List.length l -> takes tr (i + j) = nth j l false) ->
    taken tr i (List.length l) = transitions l.
  Proof.
    induction l as [|b l IH]; intros i tr H; [easy|]. cbn [List.length taken transitions count_occ].
    pose proof (H 0) as H0. rewrite Nat.add_0_r in H0. rewrite H0 by (cbn; lia). cbn [nth].
    rewrite (IH (S i) tr) by (intros j J; specialize (H (S j)); cbn [List.length nth] in H; rewrite <- H by lia; f_equal; lia).
    unfold transitions. cbn. destruct b; cbn; [destruct (bool_dec true true); [easy|congruence]|destruct (bool_dec false true); [congruence|easy]].
  Qed.

  (** C127: either the race is finished: the whole distance is done, every segment has a velocity, and the time is the one these
      velocities take plus 0.12s per transition; or it is not: the time is infinite, some segment has no velocity, and less than the
      whole distance is done *)
  Theorem C127_result men fuel team tr pacing s : simulate men fuel team tr pacing = Ok s ->
    List.length (s_profile V s) = race_segments men /\
    match s_time V s with
    | Some t => (s_prop V s == 1)%Q /\ exists vs, s_profile V s = map Some vs /\ Forall (fun v => (0 < v)%Q) vs /\
        (t == riding_time (race_segments men) 0 vs + 0.12 * qnat (transitions tr))%Q
    | None => (s_prop V s < 1)%Q /\ In None (s_profile V s)
    end.
  Proof.
    intros H. apply simulate_ok in H as (Lt & Lp & _ & H).
    assert (Rp : (0 < race_distance men)%Q) by (destruct men; reflexivity).
    destruct (segments_time V v0 pace_motion follow_motion men fuel _ _ tr pacing Rp 0 _ _ H) as (vs & E1 & E2 & E3 & E4 & E5).
    cbn [s_profile s_prop s_time List.app] in *. rewrite E1. split; [congruence|].
    pose proof (ridden_total men) as Tot. rewrite Lp in E2. rewrite <- E2 in Tot at 2.
    destruct (s_time V s) as [t|].
    - destruct (E5 t eq_refl) as (t0 & ws & A & B & C & D). injection A as <-. split.
      + rewrite E3, (ridden_all men 0 vs) with (ws := ws); [|lia|easy]. rewrite Tot. field. lra.
      + exists ws. split; [easy|]. split; [easy|]. rewrite D. rewrite Lp.
        assert (K : taken tr 0 (race_segments men) = transitions tr).
        { replace (race_segments men) with (S (List.length tr)) by (destruct men; cbn in *; lia). cbn [taken takes Nat.add].
          apply taken_count. intros j J. reflexivity. }
        rewrite K. ring.
    - assert (I : In None vs) by (destruct (proj1 E4 eq_refl); [discriminate|easy]). split; [|easy].
      destruct (ridden_le (race_segments men) vs 0) as [_ L]. specialize (L I). rewrite Tot in L.
      rewrite E3. assert (X : (ridden (race_segments men) 0 vs / race_distance men < 1)%Q) by (apply Qlt_shift_div_r; [easy|lra]). lra.
  Qed.

  (** C127: the strategies are accepted exactly with the right lengths and powers between 200 and 1200 W *)
  Theorem C127_refused men fuel team tr pacing :
    ~ (List.length tr = race_segments men - 1 /\ List.length pacing = race_segments men /\
       Forall (fun p => (200 <= p)%Q /\ (p <= 1200)%Q) pacing) ->
    simulate men fuel team tr pacing = Err ValueError.
  Proof.
    intros H. unfold Cycling.simulate. destruct (Nat.eqb_spec (List.length tr) (race_segments men - 1)); cbn [negb]; [|easy].
    destruct (Nat.eqb_spec (List.length pacing) (race_segments men)); cbn [negb]; [|easy].
    destruct (existsb _ pacing) eqn:E; [easy|]. exfalso. apply H. split; [easy|]. split; [easy|].
    rewrite Forall_forall. intros p I.
    assert (X : qlt 1200 p || qlt p 200 = false).
    { destruct (qlt 1200 p || qlt p 200) eqn:X; [|easy]. exfalso.
      assert (existsb (fun p => qlt 1200 p || qlt p 200) pacing = true) by (apply existsb_exists; now exists p). congruence. }
    apply orb_false_iff in X as [X1 X2]. apply qlt_false in X1, X2. now split.
  Qed.

  (** C127: a simulation does not depend on what the team did before *)
  Theorem C127_again men fuel team team' tr pacing :
    map (r_start V) team = map (r_start V) team' -> map (r_total V) team = map (r_total V) team' ->
    simulate men fuel team tr pacing = simulate men fuel team' tr pacing.
  Proof.
    intros A B. assert (E : map (reset V v0) team = map (reset V v0) team').
    { revert team' A B. induction team as [|r team IH]; intros [|r' team'] A B; try easy. cbn in *. injection A as A1 A2. injection B as B1 B2.
      rewrite (IH team' A2 B2). unfold reset. now rewrite A1, B1. }
    unfold Cycling.simulate. now rewrite E.
  Qed.

  (** C127: the values of the six parametrizations (22, 30 transitions; 23, 31 powers; both) are always accepted, and their cost is the
      time of the race, 10000 when it is longer or not finished *)
  Definition proposed (x : strategy) : Prop :=
    match x with
    | Transitions l => List.length l = 22 \/ List.length l = 30
    | Pacing l => (List.length l = 23 \/ List.length l = 31) /\ Forall (fun p => (200 <= p)%Q /\ (p <= 1200)%Q) l
    | Both tr pa => ((List.length tr = 22 /\ List.length pa = 23) \/ (List.length tr = 30 /\ List.length pa = 31)) /\
                    Forall (fun p => (200 <= p)%Q /\ (p <= 1200)%Q) pa
    end.
  Definition of_men (x : strategy) : bool :=
    match x with Transitions l => List.length l =? 30 | Pacing l => List.length l =? 31 | Both _ pa => List.length pa =? 31 end.
  Lemma alternate_length n : List.length (alternate n) = 2 * n.
  Proof. induction n as [|n IH]; [easy|]. cbn [alternate List.length]. lia. Qed.
  Lemma forall_repeat (P : Q -> Prop) x n : P x -> Forall P (repeat x n).
  Proof. intros H. induction n; constructor; auto. Qed.
  Theorem C127_cost fuel x : proposed x -> exists tr pa,
    (match x with
     | Transitions l => tr = l /\ Forall (fun p => p = if of_men x then 550%Q else 400%Q) pa
     | Pacing l => pa = l /\ forall i, i < List.length tr -> nth_error tr i = Some (Nat.even i)
     | Both t p => tr = t /\ pa = p
     end) /\
    List.length tr = race_segments (of_men x) - 1 /\ List.length pa = race_segments (of_men x) /\
    Forall (fun p => (200 <= p)%Q /\ (p <= 1200)%Q) pa /\
    match simulate (of_men x) fuel (new_team V v0 (of_men x)) tr pa with
    | Err e => team_pursuit_simulation fuel x = Err e
    | Ok s => exists c, team_pursuit_simulation fuel x = Ok c /\ (c <= 10000)%Q /\
        match s_time V s with
        | None => c = 10000%Q
        | Some t => ((t <= 10000)%Q -> c = t) /\ ((10000 < t)%Q -> c = 10000%Q)
        end
    end.
  Proof.
    intros P.
    assert (S : exists tr pa, strategies x = Ok (tr, pa) /\ (match x with
     | Transitions l => tr = l /\ Forall (fun p => p = if of_men x then 550%Q else 400%Q) pa
     | Pacing l => pa = l /\ forall i, i < List.length tr -> nth_error tr i = Some (Nat.even i)
     | Both t p => tr = t /\ pa = p
     end) /\ List.length tr = race_segments (of_men x) - 1 /\ List.length pa = race_segments (of_men x) /\
       Forall (fun p => (200 <= p)%Q /\ (p <= 1200)%Q) pa).
    { assert (Alt : forall n i, i < 2 * n -> nth_error (alternate n) i = Some (Nat.even i)).
      { induction n as [|n IH]; intros i I; [lia|]. destruct i as [|[|i]]; [easy|easy|]. cbn [alternate nth_error]. rewrite IH by lia. easy. }
      destruct x as [l|l|tr pa]; cbn [strategies of_men proposed] in *.
      - destruct P as [L|L]; rewrite L; cbn [Nat.eqb orb]; (eexists _, _; split; [reflexivity|]); rewrite repeat_length;
          (split; [split; [easy|now apply forall_repeat]|]); (split; [easy|]); (split; [easy|]); apply forall_repeat; split; lra.
      - destruct P as [[L|L] F]; rewrite L; cbn [Nat.eqb orb]; (eexists _, _; split; [reflexivity|]);
          (split; [split; [easy|intros i I; apply Alt; now rewrite alternate_length in I]|]); rewrite alternate_length; auto.
      - destruct P as [[[L1 L2]|[L1 L2]] F]; (exists tr, pa; split; [easy|]); rewrite L1, L2; auto. }
    destruct S as (tr & pa & S & D & L1 & L2 & F). exists tr, pa. split; [easy|]. split; [easy|]. split; [easy|]. split; [easy|].
    unfold Cycling.team_pursuit_simulation. rewrite S. cbn [bind fst snd].
    assert (M : negb (List.length pa =? 23) = of_men x) by (rewrite L2; destruct (of_men x); reflexivity).
    assert (N : negb ((List.length pa =? 23) || (List.length pa =? 31)) = false) by (rewrite L2; destruct (of_men x); reflexivity).
    rewrite M, N. destruct (simulate _ _ _ _ _) as [s|e]; cbn [bind]; [|easy]. destruct (s_time V s) as [t|].
    - eexists. split; [reflexivity|]. destruct (qlt 10000 t) eqn:E.
      + apply qlt_iff in E. split; [lra|]. split; [intros H; lra|easy].
      + apply qlt_false in E. split; [easy|]. split; [easy|]. intros H. lra.
    - eexists. split; [reflexivity|]. split; [lra|easy].
  Qed.
  (** C127: a rider is rested at the start; after each segment the leader has two more of fatigue, those behind one less, and a rider out of the
      race the same *)
  Theorem C127_fatigue men fuel team tr pacing s : is_team men team -> simulate men fuel team tr pacing = Ok s ->
    (forall e, nth_error (s_log V s) 0 = Some e -> Forall (fun pf => snd pf = 0) e) /\
    forall i e e', nth_error (s_log V s) i = Some e -> nth_error (s_log V s) (S i) = Some e' ->
      Forall2 (fun pf pf' => snd pf' = fatigue_after (fst pf) (snd pf)) e e'.
  Proof.
    intros T H. apply simulate_ok in H as (_ & _ & _ & H).
    apply segments_fatigue in H as [C S0]; [| | | |].
    - split; [exact S0|]. intros i e e' E E'. specialize (C i e e' E E'). clear - C. revert e' C.
      induction e as [|x e IH]; intros [|y e'] C; inversion C; subst; constructor; auto.
    - now apply start_inv.
    - intros [|i] e e' E; discriminate.
    - intros e E; discriminate.
    - cbn. rewrite map_map, Forall_map, Forall_forall. easy.
  Qed.

  (** C127: a segment lasts a tenth of a second for each of the steps of the leader, as many as it takes to ride its distance and no more *)
  Theorem C127_segment fuel li power dist team t team' : ride V pace_motion follow_motion fuel li power dist 0 0 team = Ok (t, team') ->
    exists ds, (t == (1#10) * qnat (List.length ds))%Q /\ (dist <= total ds)%Q /\
      (forall k, k < List.length ds -> (total (firstn k ds) < dist)%Q) /\
      Forall (fun d => exists v f v', pace_motion v f power = Ok (d, v')) ds.
  Proof.
    intros H. apply ride_steps in H as (ds & A & B & C & F). exists ds. split; [rewrite A; ring|]. split; [lra|]. split; [|exact F].
    intros k K. specialize (C k K). lra.
  Qed.
End Race.
Print Assumptions C127_fatigue.
Print Assumptions C127_segment.
Print Assumptions C127_formation.
Print Assumptions C127_result.
Print Assumptions C127_refused.
Print Assumptions C127_again.
Print Assumptions C127_cost.

(** C127: a tenth of a second costs a tenth of the power, until the energy is 0; so the energy of the leader, whose power is positive, never
    increases *)
Theorem C127_leader_energy V (pm : V -> nat -> Q -> result (Q * V)) r power d r' :
  set_pace V pm r power = Ok (d, r') -> (0 <= power)%Q -> (0 <= r_energy V r)%Q ->
  ((power * (1#10) < r_energy V r)%Q -> (r_energy V r' == r_energy V r - power * (1#10))%Q) /\
  ((r_energy V r <= power * (1#10))%Q -> (r_energy V r' == 0)%Q) /\
  (0 <= r_energy V r')%Q /\ (r_energy V r' <= r_energy V r)%Q.
Proof.
  unfold set_pace. destruct (pm _ _ _) as [[d' v]|e]; cbn [bind fst snd]; [|easy]. intros [= <- <-] P E. cbn [r_energy]. unfold burn.
  destruct (qlt _ _) eqn:X; [apply qlt_iff in X|apply qlt_false in X]; repeat split; lra.
Qed.
Theorem C127_follower_energy V (fm : V -> nat -> Q -> Q -> result (Q * V)) r d r' : follow V fm r d = Ok r' -> 2 <= r_pos V r ->
  exists c power v, nth_error [75#100; 65#100; 55#100]%Q (r_pos V r - 2) = Some c /\ fm (r_vel V r) (r_fatigue V r) c d = Ok (power, v) /\
  ((power * (1#10) < r_energy V r)%Q -> (r_energy V r' == r_energy V r - power * (1#10))%Q) /\
  ((r_energy V r <= power * (1#10))%Q -> (r_energy V r' == 0)%Q).
Proof.
  unfold follow, drafting_coefficients. destruct (nth_error _ _) as [c|] eqn:N; [|easy]. destruct (fm _ _ _ _) as [[p v]|e] eqn:F; cbn [bind fst snd]; [|easy].
  intros [= <-] _. exists c, p, v. split; [easy|]. split; [exact F|]. cbn [r_energy]. unfold burn.
  destruct (qlt _ _) eqn:X; [apply qlt_iff in X|apply qlt_false in X]; split; lra.
Qed.
Print Assumptions C127_follower_energy.
Print Assumptions C127_leader_energy.

(** C127, refuted: the energy of a follower may increase: braking behind the leader gives energy back, even to an exhausted rider *)
Theorem C127_follower_energy_refuted :
  let fm (v : Q) (f : nat) (c d : Q) := Ok (follow_power (1#4) (6#5) (827#10) f c v d, (2 * d / (1#10) - v)%Q) in
  exists r r', r_pos Q r = 2 /\ (r_energy Q r == 0)%Q /\ (0 < r_vel Q r)%Q /\
    follow Q fm r (16#100) = Ok r' /\ (0 < r_vel Q r')%Q /\ (0 < r_energy Q r')%Q.
Proof.
  cbv zeta. eexists (Rider Q 2 100 2 0 0 (22#10)), _. split; [easy|]. split; [reflexivity|]. split; [reflexivity|].
  split; [reflexivity|]. split; reflexivity.
Qed.
Print Assumptions C127_follower_energy_refuted.

(** C127, a case: everyone rides 25 m per step; followers spend 100 W, the leader the power: the men's race is finished, the fourth
    rider dropped after some segments when it has little energy *)
Definition c127_pm (v : unit) (f : nat) (p : Q) : result (Q * unit) := Ok (25%Q, tt).
Definition c127_fm (v : unit) (f : nat) (c d : Q) : result (Q * unit) := Ok (100%Q, tt).
Example C127_case :
  is_team unit true (new_team unit tt true) /\ proposed (Transitions (repeat true 22)) /\
  (exists c, team_pursuit_simulation unit tt c127_pm c127_fm 20 (Transitions (repeat true 22)) = Ok c /\ (c == 14.74)%Q) /\
  (* a team whose first leader is exhausted in the first segment: the three others go on *)
  (exists s, simulate unit tt c127_pm c127_fm true 20
     [Rider unit 1 100 0 0 0 tt; Rider unit 2 100000 0 0 0 tt; Rider unit 3 100000 0 0 0 tt; Rider unit 4 100000 0 0 0 tt]
     (repeat false 30) (repeat 550%Q 31) = Ok s /\
     map (map fst) (firstn 3 (s_log unit s)) = [[1;2;3;4]; [0;1;2;3]; [0;1;2;3]] /\ exists t, s_time unit s = Some t).
Proof.
  split; [split; [easy|]; cbn; repeat constructor|]. split; [left; reflexivity|]. split.
  - eexists. split; [vm_compute; reflexivity|]. vm_compute. reflexivity.
  - eexists. split; [vm_compute; reflexivity|]. split; [vm_compute; reflexivity|]. eexists. vm_compute. reflexivity.
Qed.

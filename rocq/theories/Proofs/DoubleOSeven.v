(** Lemmas on the 007 game. *)
From Coq Require Import List Arith QArith Bool Lia Lqa.
From Verif.Model Require Import Prelude MultiValue DoubleOSeven.
From Verif.Spec Require Import DoubleOSeven.
Import ListNotations.
Open Scope nat_scope.

Lemma valid_action i : i < 3 -> exists a, action_at i = Ok a.
Proof. intros H. destruct i as [|[|[|i]]]; cbn; eauto. lia. Qed.

Lemma update_ok a h : update_with_action (possible (mkPlayer (ammo h) (guards h)) a) (mkPlayer (ammo h) (guards h))
  = Ok (mkPlayer (ammo (a :: h)) (guards (a :: h))).
Proof.
  unfold possible, update_with_action. destruct a; cbn [is_action andb ammunitions consecutive_protect].
  - destruct (ammo h) as [|n] eqn:E; cbn; rewrite E; [reflexivity|]. now rewrite Nat.sub_0_r.
  - cbn. now rewrite Nat.add_1_r.
  - cbn. now rewrite Nat.add_1_r.
Qed.
Lemma possible_fire a h : is_action (possible (mkPlayer (ammo h) (guards h)) a) Fire = true <-> shot (a :: h).
Proof.
  unfold possible, shot. destruct a; cbn; [|split; [discriminate|contradiction]..].
  destruct (ammo h); cbn; split; try discriminate; try lia; auto.
Qed.
Lemma possible_reload a h : is_action (possible (mkPlayer (ammo h) (guards h)) a) Reload = true <-> reloaded (a :: h).
Proof.
  unfold possible, reloaded. destruct a; cbn.
  - destruct (ammo h); cbn; split; try discriminate; auto.
  - split; [discriminate|contradiction].
  - split; auto.
Qed.
Lemma shot_guards h : shot h -> guards h = 0.
Proof. destruct h as [|[] h]; cbn; auto; contradiction. Qed.
Lemma reloaded_guards h : reloaded h -> guards h = 0.
Proof. destruct h as [|[] h]; cbn; auto; contradiction. Qed.
Lemma shot_reloaded h : shot h -> reloaded h -> False.
Proof. destruct h as [|[] h]; cbn; auto. lia. Qed.

Definition even_guards (h0 h1 : list action) : Prop := (guards h0 <= 4 /\ guards h1 <= 4) \/ guards h0 = guards h1.
Definition state_of (h0 h1 : list action) : game :=
  mkGame (mkPlayer (ammo h0) (guards h0)) (mkPlayer (ammo h1) (guards h1)) (length h0).

Lemma step_rules h0 h1 i0 i1 a0 a1 : action_at i0 = Ok a0 -> action_at i1 = Ok a1 -> even_guards h0 h1 ->
  length h0 = length h1 ->
  exists out, game_step i0 i1 (state_of h0 h1) = Ok (state_of (a0 :: h0) (a1 :: h1), out)
    /\ o_first out = [ammo (a0 :: h0); guards (a0 :: h0); ammo (a1 :: h1); guards (a1 :: h1)]
    /\ o_second out = [ammo (a1 :: h1); guards (a1 :: h1); ammo (a0 :: h0); guards (a0 :: h0)]
    /\ (fst (o_rewards out) = 1 <-> wins (a0 :: h0) (a1 :: h1))
    /\ (snd (o_rewards out) = 1 <-> wins (a1 :: h1) (a0 :: h0))
    /\ fst (o_rewards out) + snd (o_rewards out) <= 1
    /\ (o_done out = true <-> S (length h0) = 100 \/ fst (o_rewards out) + snd (o_rewards out) = 1)
    /\ (o_done out = false -> even_guards (a0 :: h0) (a1 :: h1)).
Proof.
  intros E0 E1 EG L. unfold game_step. rewrite E0, E1. cbn [bind]. cbv zeta. unfold state_of. cbn [first_player second_player g_step].
  rewrite !update_ok. cbn [bind]. unfold view; cbn [ammunitions consecutive_protect existsb].
  set (H0 := a0 :: h0) in *. set (H1 := a1 :: h1) in *.
  eexists. split; [rewrite Nat.add_1_r; reflexivity|].
  cbn [o_first o_second o_rewards o_done].
  split; [reflexivity|]. split; [reflexivity|].
  pose proof (possible_fire a0 h0) as F0. pose proof (possible_fire a1 h1) as F1.
  pose proof (possible_reload a0 h0) as R0. pose proof (possible_reload a1 h1) as R1.
  fold H0 in F0, R0. fold H1 in F1, R1.
  destruct (is_action (possible _ a0) Fire), (is_action (possible _ a0) Reload),
    (is_action (possible _ a1) Fire), (is_action (possible _ a1) Reload);
  repeat match goal with
  | K : true = true <-> _ |- _ => destruct K as [K _]; specialize (K eq_refl)
  | K : false = true <-> ?P |- _ => assert (~ P) by (intros ?; destruct K as [_ K]; discriminate (K ltac:(assumption))); clear K
  end;
  try solve [exfalso; eauto using shot_reloaded];
  cbn [andb]; rewrite orb_false_r; unfold max_consecutive_protect;
  assert (G : even_guards H0 H1 \/ (4 < guards H0 /\ guards H1 <= 4) \/ (4 < guards H1 /\ guards H0 <= 4))
    by (unfold even_guards, H0, H1 in *; destruct a0, a1; cbn [guards]; lia);
  unfold wins;
  repeat match goal with
  | K : shot ?h |- _ => lazymatch goal with _ : guards h = 0 |- _ => fail | _ => pose proof (shot_guards h K) end
  | K : reloaded ?h |- _ => lazymatch goal with _ : guards h = 0 |- _ => fail | _ => pose proof (reloaded_guards h K) end
  end;
  destruct (Nat.ltb_spec 4 (guards H0)), (Nat.ltb_spec 4 (guards H1)),
    (Nat.ltb_spec (guards H0) (guards H1)), (Nat.ltb_spec (guards H1) (guards H0)); cbn [orb fst snd Nat.add];
  unfold even_guards in *; try (exfalso; lia);
  (split; [split; [intros; try discriminate; intuition lia|intuition (try lia; try contradiction)]|];
   split; [split; [intros; try discriminate; intuition lia|intuition (try lia; try contradiction)]|];
   split; [lia|];
   split; [rewrite orb_true_iff, Nat.eqb_eq, Nat.ltb_lt; lia|];
   intros D; apply orb_false_iff in D; destruct D as [D1 D2]; try discriminate; lia).
Qed.

Lemma goes_inv h0 h1 g : goes h0 h1 g ->
  g = state_of h0 h1 /\ even_guards h0 h1 /\ length h0 = length h1 /\ length h0 < 100.
Proof.
  induction 1 as [|h0 h1 g i0 i1 a0 a1 g' out G IH E0 E1 E D].
  - repeat split; cbn; try lia. left; cbn; lia.
  - destruct IH as (-> & EG & L & B).
    destruct (step_rules h0 h1 i0 i1 a0 a1 E0 E1 EG L) as (out' & E' & _ & _ & _ & _ & _ & Hd & He).
    rewrite E in E'. inversion E'; subst. split; [reflexivity|]. split; [auto|]. split; [cbn; lia|].
    cbn. assert (S (length h0) <> 100); [|lia]. intros K. assert (o_done out' = true) by (apply Hd; auto). congruence.
Qed.

Section Run.
  Context {S0 S1 : Type}.
  Variable act0 : S0 -> outcome -> S0 * nat.
  Variable act1 : S1 -> outcome -> S1 * nat.
  Hypothesis Fair0 : fair act0.
  Hypothesis Fair1 : fair act1.

  (** the loop, from a game which goes on *)
  Lemma play_going mx : forall fuel h0 h1 g s0 s1 o, goes h0 h1 g -> 100 <= length h0 + fuel ->
    (forall m, mx = Some m -> length h0 <= m) ->
    exists t0 t1 r0 r1 n, play act0 act1 fuel mx (length h0) g s0 s1 o false (0, 0) = Ok (t0, t1, (r0, r1), n)
      /\ r0 + r1 <= 1 /\ length h0 <= n <= 100 /\ (forall m, mx = Some m -> n <= m)
      /\ (r0 + r1 = 0 -> n = 100 \/ mx = Some n).
  Proof.
    induction fuel as [|fuel IH]; intros h0 h1 g s0 s1 o G F M;
      destruct (goes_inv h0 h1 g G) as (Eg & EG & L & B).
    - lia.
    - cbn [play]. rewrite andb_true_r. destruct (within (length h0) mx) eqn:W.
      + destruct (act0 s0 (fst o)) as [s0' i0] eqn:A0. destruct (act1 s1 (snd o)) as [s1' i1] eqn:A1.
        pose proof (Fair0 s0 (fst o)) as V0. pose proof (Fair1 s1 (snd o)) as V1. rewrite A0 in V0. rewrite A1 in V1.
        destruct (valid_action i0 V0) as (a0 & E0). destruct (valid_action i1 V1) as (a1 & E1).
        destruct (step_rules h0 h1 i0 i1 a0 a1 E0 E1 EG L) as (out & E & _ & _ & _ & _ & R & D & _).
        rewrite <- Eg in E. rewrite E. cbn [bind].
        destruct (o_done out) eqn:Dn.
        * destruct (o_rewards out) as [r0 r1] eqn:Er. cbn [fst snd] in *.
          destruct fuel; cbn [play]; rewrite andb_false_r; cbn [fst snd Nat.add];
            eexists _, _, r0, r1, (length h0 + 1); (split; [reflexivity|]); (split; [exact R|]);
            (split; [lia|]); (split; [intros m ->; unfold within in W; apply Nat.ltb_lt in W; lia|]);
            intros Z; destruct D as [D _]; specialize (D eq_refl); lia.
        * assert (G' : goes (a0 :: h0) (a1 :: h1) (state_of (a0 :: h0) (a1 :: h1))).
          { apply (goes_more h0 h1 g i0 i1 a0 a1 _ out); auto. }
          assert (Z : o_rewards out = (0, 0)).
          { destruct (o_rewards out) as [r0 r1]. cbn [fst snd] in *. destruct D as [_ D].
            destruct r0 as [|[|]], r1 as [|[|]]; try lia; try reflexivity; discriminate (D (or_intror eq_refl)). }
          rewrite Z. cbn [fst snd Nat.add].
          destruct (IH (a0 :: h0) (a1 :: h1) _ s0' s1' (of_step out) G') as (t0 & t1 & r0 & r1 & n & K & K1 & K2 & K3 & K4).
          { cbn; lia. }
          { intros m ->. unfold within in W. apply Nat.ltb_lt in W. cbn. lia. }
          exists t0, t1, r0, r1, n. rewrite Nat.add_1_r. cbn [length] in K. rewrite K. split; [reflexivity|].
          split; [exact K1|]. cbn in K2. split; [lia|]. auto.
      + eexists _, _, 0, 0, (length h0). split; [reflexivity|]. split; [lia|]. split; [lia|].
        split; [exact M|]. intros _. right. destruct mx as [m|]; cbn in W; [|discriminate].
        apply Nat.ltb_ge in W. f_equal. specialize (M m eq_refl). lia.
  Qed.

  (** the same loop, seen from the environment in which the second player is fixed *)
  Lemma play_fixed mx : forall fuel step g s0 s1 o over sums, over = done (fst o) ->
    match play act0 act1 fuel mx step g s0 s1 o over sums with
    | Ok (t0, t1, rs, n) =>
        exists e, play_single act0 act1 fuel mx step (mkFixed g s1 (Some (snd o))) s0 (fst o) (fst sums)
                  = Ok (t0, e, fst rs, n) /\ exists last, t1 = fst (act1 (f_agent e) last)
    | Err x => play_single act0 act1 fuel mx step (mkFixed g s1 (Some (snd o))) s0 (fst o) (fst sums) = Err x
    end.
  Proof.
    induction fuel as [|fuel IH]; intros step g s0 s1 o over sums ->; cbn [play play_single].
    - destruct (within step mx && negb (done (fst o))); [reflexivity|].
      eexists; split; [reflexivity|]. exists (snd o). reflexivity.
    - destruct (within step mx && negb (done (fst o))).
      + destruct (act0 s0 (fst o)) as [s0' i0]. unfold fixed_step. cbn [f_outcome f_agent f_game].
        destruct (act1 s1 (snd o)) as [s1' i1].
        destruct (game_step i0 i1 g) as [[g' out]|e]; cbn [bind]; [|reflexivity].
        specialize (IH (step + 1) g' s0' s1' (of_step out) (o_done out)
          (fst sums + fst (o_rewards out), snd sums + snd (o_rewards out)) eq_refl). exact IH.
      + eexists; split; [reflexivity|]. exists (snd o). reflexivity.
  Qed.

  Variable reset0 : S0 -> S0.
  Variable reset1 : S1 -> S1.
  Lemma run_once_ok fuel mx s0 s1 : 100 <= fuel ->
    exists t0 t1 r0 r1 n, run_once act0 act1 reset0 reset1 fuel mx s0 s1 = Ok (t0, t1, (r0, r1), n)
      /\ r0 + r1 <= 1 /\ n <= 100 /\ (forall m, mx = Some m -> n <= m) /\ (r0 + r1 = 0 -> n = 100 \/ mx = Some n).
  Proof.
    intros F. unfold run_once.
    destruct (play_going mx fuel [] [] new_game (reset0 s0) (reset1 s1) (of_reset new_game) goes_start F)
      as (t0 & t1 & r0 & r1 & n & K & K1 & K2 & K3 & K4); [intros; cbn; lia|].
    exists t0, t1, r0, r1, n. cbn [length] in K. repeat split; auto. lia.
  Qed.
  Lemma repeat_ok fuel mx : 100 <= fuel -> forall n s0 s1 sums,
    exists r0 r1, repeat_run act0 act1 reset0 reset1 n fuel mx s0 s1 sums = Ok (r0, r1)
      /\ r0 + r1 <= fst sums + snd sums + n.
  Proof.
    intros F. induction n as [|n IH]; intros s0 s1 sums; cbn [repeat_run].
    - exists (fst sums), (snd sums). split; [now destruct sums|lia].
    - destruct (run_once_ok fuel mx s0 s1 F) as (t0 & t1 & r0 & r1 & k & K & K1 & _). rewrite K. cbn [bind fst snd].
      destruct (IH t0 t1 (fst sums + r0, snd sums + r1)) as (q0 & q1 & E & B). exists q0, q1. split; [exact E|].
      cbn [fst snd] in B. lia.
  Qed.
End Run.

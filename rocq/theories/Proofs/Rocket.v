(** Lemmas for C129. *)
From Coq Require Import Bool Arith List Reals Lra Lia Sorting.Sorted.
From Verif Require Import Model.Prelude Model.Rocket Spec.Rocket.
Import ListNotations.
Open Scope R_scope.
Open Scope list_scope.

Lemma impulse_dot a : forall d, rsum (multiply a d) = impulse a d.
Proof. unfold rsum, multiply. induction a as [|x a IH]; intros [|y d]; cbn; try reflexivity. now rewrite IH. Qed.
Lemma impulse_scale c a : forall d, impulse (map (fun t => t * c) a) d = c * impulse a d.
Proof. induction a as [|x a IH]; intros [|y d]; cbn; try ring. rewrite IH. ring. Qed.
Lemma multiply_length a b : List.length (multiply a b) = Nat.min (List.length a) (List.length b).
Proof. unfold multiply. now rewrite map_length, combine_length. Qed.
Lemma impulse_nonneg a : forall d, Forall (fun x => 0 <= x) a -> Forall (fun x => 0 < x) d -> 0 <= impulse a d.
Proof.
  induction a as [|x a IH]; intros [|y d] F G; cbn; try lra. apply Forall_cons_iff in F as [F1 F2], G as [G1 G2].
  specialize (IH d F2 G2). assert (0 <= x * y) by (apply Rmult_le_pos; lra). lra.
Qed.
Lemma impulse_pos a : forall d, Forall (fun x => 0 <= x) a -> Forall (fun x => 0 < x) d -> (List.length a <= List.length d)%nat ->
  Exists (fun x => 0 < x) a -> 0 < impulse a d.
Proof.
  induction a as [|x a IH]; intros [|y d] F G L X; cbn in *; try (exfalso; lia); try now inversion X.
  apply Forall_cons_iff in F as [F1 F2], G as [G1 G2]. inversion X as [? ? X1|? ? X1]; subst.
  - pose proof (impulse_nonneg a d F2 G2). assert (0 < x * y) by (apply Rmult_lt_0_compat; lra). lra.
  - specialize (IH d F2 G2 ltac:(lia) X1). assert (0 <= x * y) by (apply Rmult_le_pos; lra). lra.
Qed.

Lemma durations_value : durations =
  map (fun n => n / 1000) [31; 61; 47; 53; 17; 22; 17; 44; 78; 105; 196; 31; 21; 127; 213; 148; 31; 61; 165; 188; 165; 13; 13; 13].
Proof. unfold durations, times, engine. cbn [map snd differences]. repeat (apply f_equal2; [lra|]). reflexivity. Qed.
Lemma durations_pos : Forall (fun x => 0 < x) durations.
Proof. rewrite durations_value. cbn [map]. repeat constructor; lra. Qed.
Lemma durations_length : List.length durations = 24%nat.
Proof. now rewrite durations_value. Qed.
Lemma base_value : exists l, base = 0 :: l /\ Forall (fun x => 0 < x) l /\ List.length l = 23%nat.
Proof. unfold base, engine. cbn [removelast map fst]. eexists. split; [reflexivity|]. split; [|reflexivity]. repeat constructor; lra. Qed.
Lemma base_nonneg : Forall (fun x => 0 <= x) base.
Proof.
  destruct base_value as (l & -> & F & _). constructor; [lra|]. revert F. apply Forall_impl. intros a H. lra.
Qed.
Lemma total_pos : 0 < total_thrust.
Proof.
  unfold total_thrust. rewrite impulse_dot. apply impulse_pos; [apply base_nonneg|apply durations_pos| |].
  - rewrite durations_length. destruct base_value as (l & -> & _ & L). cbn. lia.
  - destruct base_value as (l & -> & F & L). destruct l as [|a l]; [easy|]. apply Exists_cons_tl, Exists_cons_hd. now inversion F.
Qed.

(** the thrusts before the normalization *)
Lemma raw_spec bias : List.length bias = 24%nat -> let l := multiply base (map exp bias) in
  List.length l = 24%nat /\ Forall (fun x => 0 <= x) l /\ 0 < impulse l durations /\ exists l', l = 0 :: l' /\ Forall (fun x => 0 < x) l'.
Proof.
  intros L l. assert (L1 : List.length l = 24%nat).
  { unfold l. rewrite multiply_length, map_length, L. destruct base_value as (b & -> & _ & Lb). cbn [List.length]. lia. }
  assert (X : exists l', l = 0 :: l' /\ Forall (fun x => 0 < x) l').
  { unfold l. destruct base_value as (b & -> & F & Lb). destruct bias as [|x bias]; [easy|]. cbn. exists (multiply b (map exp bias)). split; [f_equal; ring|].
    clear - F. revert bias. induction F as [|a b H F IH]; intros [|x bias]; cbn; constructor.
    - apply Rmult_lt_0_compat; [easy|]. apply exp_pos.
    - apply IH. }
  split; [easy|]. destruct X as (l' & E & F). assert (N : Forall (fun x => 0 <= x) l).
  { rewrite E. constructor; [lra|]. revert F. apply Forall_impl. intros; lra. }
  split; [easy|]. split; [|eauto]. apply impulse_pos; [easy|apply durations_pos| |].
  - rewrite durations_length. lia.
  - rewrite E in *. destruct l' as [|a l']; [cbn in L1; lia|]. apply Exists_cons_tl, Exists_cons_hd. now inversion F.
Qed.
Lemma modified_scaled bias : modified bias =
  map (fun t => t * (total_thrust / impulse (multiply base (map exp bias)) durations)) (multiply base (map exp bias)).
Proof. unfold modified. rewrite impulse_dot. apply map_ext. intros a. unfold Rdiv. ring. Qed.
Lemma modified_spec bias : List.length bias = 24%nat -> List.length (modified bias) = 24%nat /\ Forall (fun x => 0 <= x) (modified bias) /\
  impulse (modified bias) durations = total_thrust /\ exists l', modified bias = 0 :: l' /\ Forall (fun x => 0 < x) l'.
Proof.
  intros L. destruct (raw_spec bias L) as (L1 & N & P & l' & E & F). rewrite modified_scaled. set (c := total_thrust / _).
  assert (C : 0 < c) by (apply Rdiv_lt_0_compat; [apply total_pos|exact P]).
  split; [now rewrite map_length|]. split; [|split].
  - rewrite Forall_map. revert N. apply Forall_impl. intros a H. apply Rmult_le_pos; lra.
  - rewrite impulse_scale. unfold c. field. lra.
  - rewrite E. cbn [map]. eexists. split; [f_equal; ring|]. rewrite Forall_map. revert F. apply Forall_impl. intros a H. now apply Rmult_lt_0_compat.
Qed.
Lemma multiply_exp_shift c a : forall bias, multiply a (map exp (map (Rplus c) bias)) = map (fun t => t * exp c) (multiply a (map exp bias)).
Proof.
  unfold multiply. induction a as [|x a IH]; intros [|y bias]; cbn; try reflexivity. rewrite IH, exp_plus. f_equal. ring.
Qed.
Lemma modified_shift c bias : List.length bias = 24%nat -> modified (map (Rplus c) bias) = modified bias.
Proof.
  intros L. destruct (raw_spec bias L) as (_ & _ & P & _). rewrite !modified_scaled, multiply_exp_shift, map_map, impulse_scale. apply map_ext.
  intros a. pose proof (exp_pos c). field. lra.
Qed.
Lemma modified_first x y bias : modified (x :: bias) = modified (y :: bias).
Proof.
  unfold modified. destruct base_value as (b & -> & _). cbn [map].
  assert (E : forall z, multiply (0 :: b) (exp z :: map exp bias) = 0 :: multiply b (map exp bias)).
  { intros z. unfold multiply. cbn. f_equal. ring. }
  now rewrite !E.
Qed.

(** ** Masses *)
Lemma masses_spec total : 0 < total -> forall rows reman, 0 <= reman -> Forall (fun t => 0 <= t <= total) rows ->
  exists ms, masses total reman rows = Ok ms /\ List.length ms = List.length rows /\ never_increasing (roc_mass + reman :: ms) /\
    Forall (fun m => roc_mass <= m) ms /\
    (last ms (roc_mass + reman) - roc_mass) * (1 + rsum rows / total) <= reman.
Proof.
  intros T. induction rows as [|t rows IH]; intros reman R0 F; cbn [masses].
  - exists []. cbn. split; [easy|]. split; [easy|]. split; [repeat constructor|]. split; [constructor|]. unfold Rdiv. rewrite Rmult_0_l. lra.
  - apply Forall_cons_iff in F as [[F1 F2] F3].
    assert (P : 0 <= t / total <= 1).
    { split; [apply Rmult_le_pos; [lra|]; left; now apply Rinv_0_lt_compat|]. apply Rmult_le_reg_r with total; [easy|]. unfold Rdiv.
      rewrite Rmult_assoc, Rinv_l by lra. lra. }
    set (p := t / total) in *. destruct (Rlt_dec p (- (1 / 100000))); [lra|]. destruct (Rlt_dec 1 p); [lra|].
    assert (Q1 : 0 <= reman - reman * p).
    { replace (reman - reman * p) with (reman * (1 - p)) by ring. apply Rmult_le_pos; lra. }
    assert (Q2 : reman - reman * p <= reman) by (assert (0 <= reman * p) by (apply Rmult_le_pos; lra); lra).
    destruct (IH _ Q1 F3) as (ms & -> & L & S & B & V). cbn [bind]. eexists. split; [reflexivity|]. split; [cbn; now rewrite L|]. split; [|split].
    + constructor; [exact S|]. constructor; [lra|]. inversion S as [|? ? S1 S2]; subst. revert S2. apply Forall_impl. intros; lra.
    + constructor; [lra|exact B].
    + assert (La : forall d, last (roc_mass + (reman - reman * p) :: ms) d = last ms (roc_mass + (reman - reman * p))).
      { intros d. clear. set (a := roc_mass + (reman - reman * p)). clearbody a. revert a. induction ms as [|m ms IH]; intros a; [easy|].
        change (last (a :: m :: ms) d) with (last (m :: ms) d). rewrite IH. destruct ms; [easy|].
        change (last (m :: r :: ms) a) with (last (r :: ms) a). clear. revert r. induction ms as [|s ms IH]; intros r; [easy|].
        change (last (s :: ms) m = last (s :: ms) a). apply IH. }
      rewrite La. set (z := last ms _) in *.
      change (rsum (t :: rows)) with (t + rsum rows).
      assert (Z : 0 <= z - roc_mass).
      { unfold z. clear - B Q1. destruct ms as [|m ms]; [cbn; lra|]. assert (I : In (last (m :: ms) (roc_mass + (reman - reman * p))) (m :: ms)).
        { clear. set (d := roc_mass + (reman - reman * p)). clearbody d. revert m. induction ms as [|a ms IH]; intros m; [now left|]. right.
          change (last (m :: a :: ms) d) with (last (a :: ms) d). apply IH. }
        rewrite Forall_forall in B. specialize (B _ I). lra. }
      replace ((t + rsum rows) / total) with (p + rsum rows / total) by (unfold p; field; lra).
      set (q := rsum rows / total) in *. assert (Q0 : 0 <= q).
      { unfold q. apply Rmult_le_pos; [|left; now apply Rinv_0_lt_compat]. clear - F3. induction F3 as [|a l [H _] F IH]; cbn; [lra|]. unfold rsum in *. lra. }
      (* z(1+p+q) <= z(1+p)(1+q) <= reman(1-p)(1+p) <= reman *)
      assert (A1 : (z - roc_mass) * (1 + (p + q)) <= (z - roc_mass) * (1 + q) * (1 + p)).
      { replace ((z - roc_mass) * (1 + q) * (1 + p)) with ((z - roc_mass) * (1 + (p + q)) + (z - roc_mass) * (q * p)) by ring.
        assert (0 <= (z - roc_mass) * (q * p)) by (apply Rmult_le_pos; [lra|apply Rmult_le_pos; lra]). lra. }
      assert (A2 : (z - roc_mass) * (1 + q) * (1 + p) <= (reman - reman * p) * (1 + p)) by (apply Rmult_le_compat_r; lra).
      assert (A3 : (reman - reman * p) * (1 + p) = reman - reman * (p * p)) by ring.
      assert (0 <= reman * (p * p)) by (apply Rmult_le_pos; [lra|apply Rmult_le_pos; lra]). lra.
Qed.
Lemma rsum_bound l : Forall (fun x => 0 <= x) l -> 0 <= rsum l /\ Forall (fun x => 0 <= x <= rsum l) l.
Proof.
  unfold rsum. induction 1 as [|a l H F [A B]]; [split; [cbn; lra|constructor]|]. cbn [fold_right]. split; [lra|]. constructor; [lra|].
  revert B. apply Forall_impl. intros x. lra.
Qed.
Lemma rsum_app a b : rsum (a ++ b) = rsum a + rsum b.
Proof. unfold rsum. induction a as [|x a IH]; cbn; [lra|]. rewrite IH. lra. Qed.
Lemma mass_list_spec bias : List.length bias = 24%nat -> exists ms, mass_list bias = Ok ms /\ List.length ms = 25%nat /\
  never_increasing (roc_mass + eng_mass_initial :: ms) /\ Forall (fun m => roc_mass <= m) ms /\ last ms 0 < final_roc_mass.
Proof.
  intros L. destruct (modified_spec bias L) as (L1 & N & _ & l' & E & F). unfold mass_list.
  destruct (rsum_bound _ N) as [R1 R2].
  assert (T : 0 < rsum (modified bias)).
  { rewrite E in *. destruct l' as [|a l']; [cbn in L1; lia|]. inversion F; subst. apply Forall_cons_iff in N as [_ N]. apply Forall_cons_iff in N as [_ N].
    destruct (rsum_bound _ N) as [R3 _]. unfold rsum in *. cbn [fold_right]. lra. }
  destruct (masses_spec _ T (modified bias ++ [0]) eng_mass_initial) as (ms & M1 & M2 & M3 & M4 & M5).
  - unfold eng_mass_initial. lra.
  - rewrite Forall_app. split; [exact R2|]. repeat constructor; lra.
  - exists ms. rewrite app_length, L1 in M2. cbn in M2. split; [exact M1|]. split; [lia|]. split; [exact M3|]. split; [exact M4|].
    rewrite rsum_app in M5. change (rsum [0]) with (0 + 0) in M5. set (total := rsum (modified bias)) in *.
    replace ((total + (0 + 0)) / total) with 1 in M5 by (field; lra).
    destruct ms as [|m ms]; [easy|]. assert (D : forall d d', last (m :: ms) d = last (m :: ms) d').
    { clear. revert m. induction ms as [|a ms IH]; intros m d d'; [easy|]. change (last (a :: ms) d = last (a :: ms) d'). apply IH. }
    rewrite (D _ 0) in M5. unfold final_roc_mass, eng_mass_initial, eng_mass_final in *. lra.
Qed.

Lemma maximum_start z zs : z <= maximum z zs.
Proof. unfold maximum. induction zs as [|x zs IH]; cbn; [lra|]. eapply Rle_trans; [exact IH|apply Rmax_r]. Qed.
Lemma falling_err force norm rnd dx dy dz fuel : forall b r r0 zs e, falling force norm rnd dx dy dz fuel b r r0 zs = Err e -> e = OutOfFuel.
Proof.
  induction fuel as [|fuel IH]; intros b r r0 zs e; cbn [falling]; destruct (Rlt_dec r0 r); try easy; [now intros [= <-]|]. apply IH.
Qed.

(** ** Motion *)
Definition drow (q : R * R * (R * R)) : R := snd (snd q) - fst (snd q).
Lemma firing_velocity norm rnd dx dy dz rows : forall b r zs,
  let p := impulse (map (fun q => fst (fst q) / snd (fst q)) rows) (map drow rows) in
  let b' := fst (fst (firing (fun _ _ => (0, 0, 0)) norm rnd dx dy dz rows b r zs)) in
  b_vx b' = b_vx b + dx * p /\ b_vy b' = b_vy b + dy * p /\ b_vz b' = b_vz b + dz * p.
Proof.
  cbv zeta. induction rows as [|[[t m] [a n]] rows IH]; intros b r zs; cbn [firing map impulse fst snd]; [lra|].
  match goal with |- context [firing _ _ _ _ _ _ rows ?b1 ?r1 ?z1] => destruct (IH b1 r1 z1) as (A & B & C) end.
  rewrite A, B, C. unfold euler, drow. cbn [b_vx b_vy b_vz fst snd]. unfold Rdiv. repeat split; ring.
Qed.
Lemma firing_position norm rnd rows : forall b r zs,
  let T := rsum (map (fun q => fst (snd q)) rows) in
  let b' := fst (fst (firing (fun _ _ => (0, 0, 0)) norm rnd 0 0 0 rows b r zs)) in
  b_x b' = b_x b + b_vx b * T /\ b_y b' = b_y b + b_vy b * T /\ b_z b' = b_z b + b_vz b * T.
Proof.
  cbv zeta. unfold rsum. induction rows as [|[[t m] [a n]] rows IH]; intros b r zs; cbn [firing map fold_right fst snd]; [lra|].
  match goal with |- context [firing _ _ _ _ _ _ rows ?b1 ?r1 ?z1] => destruct (IH b1 r1 z1) as (A & B & C) end.
  rewrite A, B, C. unfold euler. cbn [b_x b_y b_z b_vx b_vy b_vz fst snd]. unfold Rdiv. repeat split; ring.
Qed.
Lemma falling_spec norm rnd dx dy dz fx fy fz fuel : forall b r r0 zs zs',
  falling (fun _ _ => (fx, fy, fz)) norm rnd dx dy dz fuel b r r0 zs = Ok zs' ->
  exists k, zs' = rev (map (fun j => rnd (b_z b + b_vz b * (INR j / 20) + fz / final_roc_mass * (INR j * (INR j - 1) / 800))) (seq 1 k)) ++ zs.
Proof.
  induction fuel as [|fuel IH]; intros b r r0 zs zs'; cbn [falling]; destruct (Rlt_dec r0 r); try easy;
    try (intros [= <-]; exists 0%nat; reflexivity).
  intros H. apply IH in H as [k ->]. exists (S k). cbn [seq map rev].
  rewrite <- app_assoc. cbn [app]. f_equal.
  - f_equal. rewrite <- (seq_shift k 1), map_map. apply map_ext. intros j. f_equal. unfold euler. cbn [b_z b_vz]. rewrite S_INR. field.
    unfold final_roc_mass, roc_mass, eng_mass_final. lra.
  - f_equal. f_equal. unfold euler. cbn [b_z b_vz INR]. field. unfold final_roc_mass, roc_mass, eng_mass_final. lra.
Qed.
Lemma differences_pairs l : differences l = map (fun p => snd p - fst p) (combine l (tl l)).
Proof. induction l as [|a [|b l] IH]; [reflexivity..|]. change (differences (a :: b :: l)) with ((b - a) :: differences (b :: l)). rewrite IH. reflexivity. Qed.
Lemma rows_impulse n : forall (tm : list (R * R)) (l : list (R * R)),
  impulse (map (fun q => fst (fst q) / snd (fst q)) (firstn n (combine tm l))) (map drow (firstn n (combine tm l))) =
  impulse (map (fun q => fst q / snd q) (firstn n tm)) (firstn n (map (fun p => snd p - fst p) l)).
Proof. induction n as [|n IH]; intros [|a tm] [|b l]; cbn; try reflexivity. now rewrite IH. Qed.
Lemma rows_times n : forall (tm : list (R * R)) (l : list (R * R)), (n <= List.length tm)%nat ->
  map (fun q => fst (snd q)) (firstn n (combine tm l)) = map fst (firstn n l).
Proof. induction n as [|n IH]; intros [|a tm] [|b l] H; cbn in *; try reflexivity; try lia. rewrite IH by lia. reflexivity. Qed.
Lemma times_sum : rsum (map fst (firstn 23 (combine times (tl times)))) = 16823 / 1000.
Proof. unfold times, engine, rsum. cbn [map snd fst tl combine firstn fold_right]. lra. Qed.
Lemma firing_flat force rnd dx dy dz rows : forall b zs, snd (fst (firing force (fun _ _ _ => 1) rnd dx dy dz rows b 1 zs)) = 1.
Proof. induction rows as [|[[t m] [a n]] rows IH]; intros b zs; cbn [firing]; [reflexivity|]. apply IH. Qed.
Lemma flat_flight force rnd dx dy dz x0 y0 z0 fuel bias : List.length bias = 24%nat ->
  exists l, rocket force (fun _ _ _ => 1) rnd dx dy dz x0 y0 z0 fuel bias = Ok l.
Proof.
  intros L. unfold rocket. rewrite L. cbn [Nat.eqb negb]. destruct (mass_list_spec bias L) as (ms & -> & _). cbn [bind].
  set (rows := firstn 23 _). clearbody rows. pose proof (firing_flat force rnd dx dy dz rows (Body x0 y0 z0 0 0 0) []) as F.
  destruct (firing _ _ _ _ _ _ _ _ _ _) as [[b r] zs]. cbn [fst snd] in F. rewrite F. destruct fuel; cbn [falling]; destruct (Rlt_dec 1 1); try lra; cbn [bind]; eauto.
Qed.

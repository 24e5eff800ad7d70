(** C129: the rocket simulation. *)
From Coq Require Import Bool Arith List Reals Lra Lia Sorting.Sorted.
From Verif Require Import Model.Prelude Model.Rocket Spec.Rocket Proofs.Rocket.
Import ListNotations.
Open Scope R_scope.
Open Scope list_scope.

(** C129: 24 variables *)
Theorem C129_length force norm rnd dx dy dz x0 y0 z0 fuel bias : List.length bias <> 24%nat ->
  rocket force norm rnd dx dy dz x0 y0 z0 fuel bias = Err AssertionError.
Proof. intros H. unfold rocket. destruct (Nat.eqb_spec (List.length bias) 24); [easy|]. reflexivity. Qed.
Print Assumptions C129_length.

(** C129: the thrusts are not negative and have the impulse of the engine *)
Theorem C129_impulse bias : List.length bias = 24%nat ->
  List.length (modified bias) = 24%nat /\ Forall (fun t => 0 <= t) (modified bias) /\
  impulse (modified bias) durations = impulse (map fst (firstn 24 engine)) durations /\
  impulse (map fst (firstn 24 engine)) durations > 0.
Proof.
  intros L. destruct (modified_spec bias L) as (A & B & C & _). split; [exact A|]. split; [exact B|]. rewrite C.
  assert (E : impulse (map fst (firstn 24 engine)) durations = total_thrust) by (unfold total_thrust; rewrite impulse_dot; reflexivity).
  rewrite E. split; [reflexivity|apply total_pos].
Qed.
Print Assumptions C129_impulse.

(** C129: the null point is the engine as it is *)
Theorem C129_zero : modified (repeat 0 24) = map fst (firstn 24 engine).
Proof.
  assert (E : multiply base (map exp (repeat 0 24)) = base).
  { assert (X : map exp (repeat 0 24) = repeat 1 24) by (cbn; now rewrite !exp_0). rewrite X. unfold multiply, base, engine. cbn.
    repeat (apply f_equal2; [ring|]). reflexivity. }
  rewrite modified_scaled, E. pose proof total_pos as T. unfold total_thrust in *. rewrite impulse_dot in *.
  replace (impulse base durations / impulse base durations) with 1 by (field; lra).
  replace (map (fun t => t * 1) base) with (map (fun t : R => t) base) by (apply map_ext; intros; ring). rewrite map_id. reflexivity.
Qed.
Print Assumptions C129_zero.

(** C129: adding the same number to all the variables changes nothing, nor does the first variable *)
Theorem C129_shift force norm rnd dx dy dz x0 y0 z0 fuel bias c :
  rocket force norm rnd dx dy dz x0 y0 z0 fuel (map (Rplus c) bias) = rocket force norm rnd dx dy dz x0 y0 z0 fuel bias.
Proof.
  unfold rocket. rewrite map_length. destruct (Nat.eqb_spec (List.length bias) 24) as [L|L]; cbn [negb]; [|reflexivity].
  unfold mass_list. now rewrite (modified_shift c bias L).
Qed.
Print Assumptions C129_shift.
Theorem C129_first force norm rnd dx dy dz x0 y0 z0 fuel a b bias :
  rocket force norm rnd dx dy dz x0 y0 z0 fuel (a :: bias) = rocket force norm rnd dx dy dz x0 y0 z0 fuel (b :: bias).
Proof. unfold rocket, mass_list. now rewrite (modified_first a b bias). Qed.
Print Assumptions C129_first.

(** C129: the mass of the rocket never increases while the engine is firing, and is at least that of the rocket without its engine; the
    checks of the percentages never fail. But at the end the rocket is always lighter than with its empty engine, with which it then falls:
    the mass jumps up *)
Theorem C129_masses bias : List.length bias = 24%nat -> exists ms, mass_list bias = Ok ms /\ List.length ms = 25%nat /\
  never_increasing (roc_mass + eng_mass_initial :: ms) /\ Forall (fun m => roc_mass <= m) ms.
Proof. intros L. destruct (mass_list_spec bias L) as (ms & A & B & C & D & _). eauto 6. Qed.
Print Assumptions C129_masses.
Theorem C129_empty_refuted bias : List.length bias = 24%nat -> exists ms m, mass_list bias = Ok (ms ++ [m]) /\ m < roc_mass + eng_mass_final.
Proof.
  intros L. destruct (mass_list_spec bias L) as (ms & A & B & _ & _ & E). destruct ms as [|a ms]; [easy|].
  exists (removelast (a :: ms)), (last (a :: ms) 0). split; [|exact E]. rewrite A. f_equal. now apply app_removelast_last.
Qed.
Print Assumptions C129_empty_refuted.

(** C129, refuted: "the impulse given to the rocket does not depend on the variables": the last thrust is never used *)
Theorem C129_given_refuted bias : List.length bias = 24%nat ->
  impulse (firstn 23 (modified bias)) (firstn 23 durations) < impulse (modified bias) durations.
Proof.
  intros L. destruct (modified_spec bias L) as (L1 & N & _ & l' & E & F). rewrite E in *. pose proof durations_pos as D. pose proof durations_length as LD.
  assert (G : forall n a d, List.length a = S n -> List.length d = S n -> Forall (fun x => 0 < x) d -> Forall (fun x => 0 < x) (skipn n a) ->
              impulse (firstn n a) (firstn n d) < impulse a d).
  { clear. induction n as [|n IH]; intros [|x a] [|y d] La Ld D F; try easy.
    - destruct a, d; try easy. cbn in *. inversion D; inversion F; subst. assert (0 < x * y) by now apply Rmult_lt_0_compat. lra.
    - cbn. apply Rplus_lt_compat_l. apply IH; cbn in *; try lia; [now inversion D|exact F]. }
  apply G; [exact L1|exact LD|exact D|]. cbn [skipn].
  revert F. clear. assert (S : forall n (l : list R), Forall (fun x => 0 < x) l -> Forall (fun x => 0 < x) (skipn n l)).
  { induction n as [|n IH]; intros l F; [easy|]. destruct F; [constructor|]. now apply IH. }
  apply (S 22%nat).
Qed.
Print Assumptions C129_given_refuted.

(** C129: the loss is at most that of a rocket which stays where it is, and the only possible failure is a flight which does not end *)
Theorem C129_loss force norm rnd dx dy dz x0 y0 z0 fuel bias : List.length bias = 24%nat ->
  match rocket force norm rnd dx dy dz x0 y0 z0 fuel bias with
  | Ok l => l <= 1 - z0 / height
  | Err e => e = OutOfFuel
  end.
Proof.
  intros L. unfold rocket. rewrite L. cbn [Nat.eqb negb]. destruct (mass_list_spec bias L) as (ms & -> & _). cbn [bind].
  destruct (firing _ _ _ _ _ _ _ _ _ _) as [[b r] zs]. destruct (falling _ _ _ _ _ _ _ _ _ _ _) as [zs'|e] eqn:F; cbn [bind].
  - pose proof (maximum_start z0 zs') as M. assert (H : 0 < / height) by (apply Rinv_0_lt_compat; unfold height; lra).
    unfold Rdiv. apply Rplus_le_compat_l, Ropp_le_contravar. apply Rmult_le_compat_r; lra.
  - now apply falling_err in F.
Qed.
Print Assumptions C129_loss.

(** C129: a higher flight is better *)
Theorem C129_higher z zs zs' : (forall x, In x zs -> exists y, In y zs' /\ x <= y) -> 1 - maximum z zs' / height <= 1 - maximum z zs / height.
Proof.
  intros H. assert (H0 : 0 < / height) by (apply Rinv_0_lt_compat; unfold height; lra).
  unfold Rdiv. apply Rplus_le_compat_l, Ropp_le_contravar. apply Rmult_le_compat_r; [lra|].
  induction zs as [|x zs IH]; [apply maximum_start|]. cbn. apply Rmax_lub; [|apply IH; intros w I; apply H; now right].
  destruct (H x (or_introl eq_refl)) as (y & I & L). eapply Rle_trans; [exact L|]. clear - I. unfold maximum. induction zs' as [|a l IH]; [easy|].
  cbn. destruct I as [->|I]; [apply Rmax_l|]. eapply Rle_trans; [now apply IH|apply Rmax_r].
Qed.
Print Assumptions C129_higher.

(** C129, case: a flight without gravity, in a world where the rocket is never above its start *)
Example C129_case : exists l, rocket (fun _ _ => (0, 0, 0)) (fun _ _ _ => 1) (fun x => x) 0 0 0 0 0 5 0 (repeat 0 24) = Ok l /\ l <= 1 - 5 / height.
Proof.
  destruct (flat_flight (fun _ _ => (0, 0, 0)) (fun x => x) 0 0 0 0 0 5 0 (repeat 0 24)) as [l E]; [reflexivity|]. exists l. split; [exact E|].
  pose proof (C129_loss (fun _ _ => (0, 0, 0)) (fun _ _ _ => 1) (fun x => x) 0 0 0 0 0 5 0 (repeat 0 24)) as H. rewrite E in H. now apply H.
Qed.

(** C129: where the rocket is never above its start once the engine is off, the loss is that of the heights of the first 23 rows: the
    thrust of row 24 is never fired *)
Theorem C129_fired force rnd dx dy dz x0 y0 z0 fuel bias ms : List.length bias = 24%nat -> mass_list bias = Ok ms ->
  let rows := firstn 23 (combine (combine (modified bias) ms) (combine times (tl times))) in
  let zs := snd (firing force (fun _ _ _ => 1) rnd dx dy dz rows (Body x0 y0 z0 0 0 0) 1 []) in
  rocket force (fun _ _ _ => 1) rnd dx dy dz x0 y0 z0 fuel bias = Ok (1 - fold_right Rmax z0 zs / (3032708353202 / 1000000)).
Proof.
  intros L M rows zs. unfold rocket. rewrite L, M. cbn [Nat.eqb negb bind]. fold rows.
  pose proof (firing_flat force rnd dx dy dz rows (Body x0 y0 z0 0 0 0) []) as F. unfold zs. clear zs. clearbody rows.
  destruct (firing _ _ _ _ _ _ _ _ _ _) as [[b r] zs]. cbn [fst snd] in *. rewrite F.
  destruct fuel; cbn [falling]; destruct (Rlt_dec 1 1); try lra; reflexivity.
Qed.
Print Assumptions C129_fired.

(** C129: without gravity and drag, the velocity given by the engine is the sum of thrust / mass x duration, in the direction of the launch,
    over the first 23 rows *)
Theorem C129_velocity norm rnd dx dy dz x0 y0 z0 bias ms : List.length bias = 24%nat -> mass_list bias = Ok ms ->
  let rows := firstn 23 (combine (combine (modified bias) ms) (combine times (tl times))) in
  let p := impulse (map (fun tm => fst tm / snd tm) (firstn 23 (combine (modified bias) ms))) (firstn 23 durations) in
  let b := fst (fst (firing (fun _ _ => (0, 0, 0)) norm rnd dx dy dz rows (Body x0 y0 z0 0 0 0) (norm x0 y0 z0) [])) in
  b_vx b = dx * p /\ b_vy b = dy * p /\ b_vz b = dz * p.
Proof.
  intros L M. cbv zeta. destruct (mass_list_spec bias L) as (ms' & M' & Lm & _). rewrite M in M'. injection M' as <-.
  destruct (modified_spec bias L) as (Lt & _).
  match goal with |- context [firing ?f norm rnd dx dy dz ?rows ?b ?r ?z] => pose proof (firing_velocity norm rnd dx dy dz rows b r z) as H; cbv zeta in H end.
  rewrite (proj1 H), (proj1 (proj2 H)), (proj2 (proj2 H)). cbn [b_vx b_vy b_vz]. rewrite !Rplus_0_l.
  rewrite rows_impulse, <- differences_pairs. easy.
Qed.
Print Assumptions C129_velocity.

(** C129, refuted: "during the firing the rocket moves for as long as the firing lasts": positions are moved by the time since the launch
    instead of the time since the last step, so that at a constant velocity it moves nine times too far *)
Theorem C129_distance_refuted norm rnd bias ms b r zs : List.length bias = 24%nat -> mass_list bias = Ok ms ->
  let rows := firstn 23 (combine (combine (modified bias) ms) (combine times (tl times))) in
  let b' := fst (fst (firing (fun _ _ => (0, 0, 0)) norm rnd 0 0 0 rows b r zs)) in
  b_vz b' = b_vz b /\ b_z b' = b_z b + b_vz b * (16823 / 1000) /\ rsum (firstn 23 durations) = 1847 / 1000.
Proof.
  intros L M. cbv zeta. destruct (mass_list_spec bias L) as (ms' & M' & Lm & _). rewrite M in M'. injection M' as <-.
  destruct (modified_spec bias L) as (Lt & _). split; [|split].
  - rewrite (proj2 (proj2 (firing_velocity norm rnd 0 0 0 _ b r zs))). ring.
  - rewrite (proj2 (proj2 (firing_position norm rnd _ b r zs))). f_equal. f_equal.
    rewrite rows_times by (rewrite combine_length, Lt, Lm; cbn; lia). apply times_sum.
  - rewrite durations_value. unfold rsum. cbn [map firstn fold_right]. lra.
Qed.
Print Assumptions C129_distance_refuted.

(** C129: when the engine is off, with a constant force the heights are those of steps of 1/20 with the mass of the rocket and its empty engine *)
Theorem C129_fall norm rnd dx dy dz fx fy fz fuel b r r0 zs : falling (fun _ _ => (fx, fy, fz)) norm rnd dx dy dz fuel b r r0 [] = Ok zs ->
  exists k, rev zs = map (fun j => rnd (b_z b + b_vz b * (INR j / 20) + fz / (roc_mass + eng_mass_final) * (INR j * (INR j - 1) / 800))) (seq 1 k).
Proof. intros H. apply falling_spec in H as [k ->]. exists k. now rewrite app_nil_r, rev_involutive. Qed.
Print Assumptions C129_fall.

(** C66: the self-adaptation of the (1+1) optimizers. *)
From Coq Require Import Arith ZArith QArith Qround Bool Lia Lqa List.
From Verif.Model Require Import Prelude MultiValue OnePlusOne.
From Verif.Spec Require Import OnePlusOne.
From Verif.Proofs Require Import MultiValue Mutator OnePlusOne.
Import ListNotations.
Open Scope nat_scope.

Section S.
Variables (m : mutation) (annealing : bool) (dimension arity memory_size : nat).
Notation tell := (opo_tell m annealing dimension arity memory_size).
Notation run := (opo_run m annealing dimension arity memory_size).

(** Step size, without noise: two to the number of records times 0.84 to the number of losses above the record
    (the first loss is a record; ties change nothing) *)
Theorem C66_sigma (velocity : list Q) (g : Q) (ts : list told) (s : oneplusone) :
  run ts (opo_init dimension velocity g) = Ok s -> noise_free ts ->
  (o_sigma s == Qpower 2 (Z.of_nat (records (map t_loss ts))) * Qpower (84 # 100) (Z.of_nat (setbacks (map t_loss ts))))%Q.
Proof.
  intros E F. destruct (sigma_run m annealing dimension arity memory_size (opo_init dimension velocity g) eq_refl ts s E F) as [_ S]. rewrite S. cbn [opo_init o_sigma]. ring.
Qed.
(** ... so it is always positive *)
Theorem C66_sigma_positive (velocity : list Q) (g : Q) (ts : list told) (s : oneplusone) :
  run ts (opo_init dimension velocity g) = Ok s -> (0 < o_sigma s)%Q.
Proof.
  revert s. induction ts as [|t ts IH] using rev_ind; intros s E; [cbn in E; injection E as <-; reflexivity|].
  apply run_snoc in E as (s1 & E1 & E). specialize (IH s1 E1). rewrite (tell_sigma _ _ _ _ _ _ _ _ E).
  destruct (different _ _); [|exact IH]. destruct (below _ _); lra.
Qed.

(** Adaptive mutation: the rate stays in (0, 1] and the number of coordinates aimed at between one and the dimension *)
Theorem C66_adaptive (velocity : list Q) (g : Q) (ts : list told) (s : oneplusone) :
  run ts (opo_init dimension velocity g) = Ok s -> 1 <= dimension ->
  (0 < o_mr s <= 1)%Q /\ 1 <= adaptive_intensity dimension s <= dimension.
Proof.
  intros E D. assert (0 < o_mr s <= 1)%Q as H.
  { refine (adaptive_run m annealing dimension arity memory_size _ _ ts s E). cbn. lra. }
  split; [exact H|]. unfold adaptive_intensity. split; [lia|]. apply Nat.max_lub; [exact D|].
  assert (0 <= inject_Z (Z.of_nat dimension))%Q as P by (change 0%Q with (inject_Z 0); rewrite <- Zle_Qle; lia).
  assert (Qfloor (o_mr s * inject_Z (Z.of_nat dimension)) <= Z.of_nat dimension)%Z; [|lia].
  rewrite <- (Qfloor_Z (Z.of_nat dimension)) at 2. apply Qfloor_resp_le.
  apply Qle_trans with (1 * inject_Z (Z.of_nat dimension))%Q; [apply Qmult_le_compat_r; [apply H|exact P]|lra].
Qed.
(** ... growing on each loss at least as good as the best, shrinking otherwise *)
Theorem C66_adaptive_step (t : told) (s s' : oneplusone) : m = Adaptive -> (0 < o_mr s <= 1)%Q -> tell t s = Ok s' ->
  (o_prev s = None \/ (exists b, o_prev s = Some b /\ (t_loss t <= b)%Q) -> (o_mr s <= o_mr s')%Q) /\
  ((exists b, o_prev s = Some b /\ (b < t_loss t)%Q) -> (o_mr s' < o_mr s)%Q).
Proof.
  intros M H E. rewrite (tell_mr _ _ _ _ _ _ _ _ E), M. split; intros C.
  - assert (below_eq (t_loss t) (o_prev s) = true) as ->.
    { destruct C as [-> |(b & -> & C)]; [reflexivity|]. apply qle_iff. exact C. }
    apply qmin_glb; lra.
  - destruct C as (b & Eb & C). assert (below_eq (t_loss t) (o_prev s) = false) as ->.
    { rewrite Eb. cbn. destruct (qle (t_loss t) b) eqn:Q; [apply qle_iff in Q; lra|reflexivity]. }
    eapply Qle_lt_trans; [apply qmin_le_r|]. lra.
Qed.

(** Coordinatewise mutation: the velocities stay in [0, arity / 4], and above min(1, arity / 4) after one tell *)
Theorem C66_velocity (velocity : list Q) (g : Q) (ts : list told) (s : oneplusone) :
  Forall (fun v => 0 <= v <= inject_Z (Z.of_nat arity) / 4)%Q velocity ->
  run ts (opo_init dimension velocity g) = Ok s ->
  length (o_velocity s) = length velocity /\ Forall (fun v => 0 <= v <= inject_Z (Z.of_nat arity) / 4)%Q (o_velocity s) /\
  (m = Coordinatewise -> ts <> [] -> Forall (fun v => 1 <= v \/ inject_Z (Z.of_nat arity) / 4 <= v)%Q (o_velocity s)).
Proof.
  intros F E. destruct (velocity_run m annealing dimension arity memory_size (opo_init dimension velocity g) F ts s E) as (L & B & C).
  split; [exact L|]. split; [exact B|]. intros M N. specialize (C M N). eapply Forall_impl; [|exact C]. cbv beta. intros v Hv.
  destruct (qmin_or 1 (inject_Z (Z.of_nat arity) / 4)) as [X|X]; rewrite X in Hv; tauto.
Qed.
(** they are all updated alike: a coordinate never overtakes another one, and two equal velocities remain equal,
    whichever coordinates were mutated *)
Theorem C66_velocities_alike (velocity : list Q) (g : Q) (ts : list told) (s : oneplusone) (i j : nat) :
  i < length velocity -> j < length velocity -> (nth i velocity 0 <= nth j velocity 0)%Q ->
  run ts (opo_init dimension velocity g) = Ok s -> (nth i (o_velocity s) 0 <= nth j (o_velocity s) 0)%Q.
Proof. intros Hi Hj H E. exact (proj2 (velocity_order m annealing dimension arity memory_size (opo_init dimension velocity g) i j Hi Hj H ts s E)). Qed.

(** Log-normal mutation: the common rate is that of the first best tell of the last complete window, the windows
    being consecutive blocks of [memory_size] tells *)
Theorem C66_lognormal (velocity : list Q) (g : Q) (ts : list told) (s : oneplusone) : m = Lognormal -> 1 <= memory_size ->
  run ts (opo_init dimension velocity g) = Ok s ->
  exists before window rest, ts = before ++ window ++ rest /\ length rest < memory_size /\ (exists k, length before = k * memory_size) /\
    ((window = [] /\ before = [] /\ o_global s = g) \/ (length window = memory_size /\ rate_of_best window (o_global s))).
Proof.
  intros M Hm E. subst m.
  destruct (memory_run annealing dimension arity memory_size Hm g (opo_init dimension velocity g)) with (ts := ts) (s := s)
    as (bef & win & rest & g' & H1 & H2 & H3 & H4 & H5); [repeat split|exact E|].
  exists bef, win, rest. split; [exact H1|]. split; [exact H3|]. split; [exact H4|]. destruct H2 as (_ & <- & _). exact H5.
Qed.

(** Annealing: the base of the next mutation is a told point *)
Theorem C66_annealing (velocity : list Q) (g : Q) (ts : list told) (s : oneplusone) :
  run ts (opo_init dimension velocity g) = Ok s ->
  match o_base s with None => annealing = false \/ ts = [] | Some x => annealing = true /\ In x (map t_x ts) end.
Proof.
  intros E. assert (X := anneal_run m annealing dimension arity memory_size (opo_init dimension velocity g) eq_refl ts s E). destruct (o_base s); [exact X|].
  destruct X as [X|[X|X]]; [left; exact X|right; exact X|]. destruct X. reflexivity.
Qed.
(** ... the last one if it is at least as good as the best; otherwise the last one if accepted before the end of the budget *)
Theorem C66_annealing_step (t : told) (s s' : oneplusone) : annealing = true -> tell t s = Ok s' ->
  (o_prev s = None \/ (exists b, o_prev s = Some b /\ (t_loss t <= b)%Q) -> o_base s' = Some (t_x t)) /\
  ((exists b, o_prev s = Some b /\ (b < t_loss t)%Q) ->
     o_base s' = if t_before_budget t && t_accept t then Some (t_x t) else o_base s).
Proof.
  intros A E. rewrite (tell_base _ _ _ _ _ _ _ _ E), A. unfold anneal. split; intros C.
  - assert (below_eq (t_loss t) (o_prev s) = true) as ->.
    { destruct C as [-> |(b & -> & C)]; [reflexivity|]. apply qle_iff. exact C. }
    reflexivity.
  - destruct C as (b & Eb & C). assert (below_eq (t_loss t) (o_prev s) = false) as ->.
    { rewrite Eb. cbn. destruct (qle (t_loss t) b) eqn:Q; [apply qle_iff in Q; lra|reflexivity]. }
    reflexivity.
Qed.
(** only the doerr mutation can fail *)
Theorem C66_no_error (ts : list told) (s : oneplusone) : m <> Doerr -> exists s', run ts s = Ok s'.
Proof.
  intros M. revert s. induction ts as [|t ts IH]; intros s; [eexists; reflexivity|]. cbn [opo_run].
  assert (exists s1, tell t s = Ok s1) as [s1 ->]; [|apply IH].
  unfold opo_tell. destruct (anneal _ _ _ _ _ _). destruct m; try contradiction; eexists; reflexivity.
Qed.
End S.

(** discreteBSO: the number of coordinates goes from the dimension down to one *)
Theorem C66_bso (dimension num_ask budget : nat) : 1 <= dimension -> 1 <= budget ->
  (1 <= bso_intensity dimension num_ask budget <= Z.of_nat dimension)%Z /\
  bso_intensity dimension 0 budget = Z.of_nat dimension /\
  (budget <= num_ask -> bso_intensity dimension num_ask budget = 1%Z).
Proof.
  intros D B. unfold bso_intensity. set (q := inject_Z (Z.of_nat dimension)). set (b := inject_Z (Z.of_nat budget)).
  assert (1 <= q)%Q as Q1 by (change 1%Q with (inject_Z 1); unfold q; rewrite <- Zle_Qle; lia).
  assert (1 <= b)%Q as B1 by (change 1%Q with (inject_Z 1); unfold b; rewrite <- Zle_Qle; lia).
  split; [|split].
  - set (x := (q - inject_Z (Z.of_nat (num_ask * dimension)) / b)%Q).
    assert (x <= q)%Q as Hx.
    { assert (0 <= inject_Z (Z.of_nat (num_ask * dimension)) / b)%Q; [|unfold x; lra].
      apply Qle_shift_div_l; [lra|]. rewrite Qmult_0_l. change 0%Q with (inject_Z 0). rewrite <- Zle_Qle. lia. }
    destruct (Z.ltb_spec (if qle 0 x then Qfloor x else Qceiling x) 1) as [L|L]; [lia|]. split; [exact L|].
    destruct (qle 0 x) eqn:C.
    + rewrite <- (Qfloor_Z (Z.of_nat dimension)). apply Qfloor_resp_le. exact Hx.
    + rewrite <- (Qceiling_Z (Z.of_nat dimension)). apply Qceiling_resp_le. exact Hx.
  - set (x := (q - inject_Z (Z.of_nat (0 * dimension)) / b)%Q). assert (x == q)%Q as Ex.
    { unfold x. cbn. unfold Qdiv. rewrite Qmult_0_l. ring. }
    assert (qle 0 x = true) as -> by (apply qle_iff; lra). assert (Qfloor x = Z.of_nat dimension) as -> by (rewrite Ex; apply Qfloor_Z).
    destruct (Z.ltb_spec (Z.of_nat dimension) 1); lia.
  - intros L. set (x := (q - inject_Z (Z.of_nat (num_ask * dimension)) / b)%Q). assert (x <= 0)%Q as Hx.
    { assert (q <= inject_Z (Z.of_nat (num_ask * dimension)) / b)%Q; [|unfold x; lra].
      apply Qle_shift_div_l; [lra|]. unfold q, b. rewrite <- inject_Z_mult, <- Zle_Qle. nia. }
    assert ((if qle 0 x then Qfloor x else Qceiling x) <= 0)%Z as X.
    { destruct (qle 0 x); [rewrite <- (Qfloor_Z 0)|rewrite <- (Qceiling_Z 0)]; [apply Qfloor_resp_le|apply Qceiling_resp_le]; exact Hx. }
    destruct (Z.ltb_spec (if qle 0 x then Qfloor x else Qceiling x) 1); lia.
Qed.

(** ** The doerr mutation *)
(** the rates: 1, 2, and the numbers 3 + k (k + 1) below the dimension *)
Theorem C66_doerr_rates (dimension : nat) (velocity : list Q) (g : Q) (r : nat) :
  In r (d_rates (o_doerr (opo_init dimension velocity g))) <-> r = 1 \/ r = 2 \/ (r < dimension /\ exists k, r = 3 + k * (k + 1)).
Proof.
  cbn [opo_init o_doerr d_rates]. rewrite in_app_iff. cbn [In]. split.
  - intros [[H|[H|[]]]|H]; [left; congruence|right; left; congruence|]. right; right.
    destruct (doerr_rates_in dimension dimension 0 r H) as (A & k & _ & C). split; [exact A|]. exists k. exact C.
  - intros [->|[->|(L & k & ->)]]; [tauto|tauto|]. right. apply (doerr_rates_all dimension dimension 0 k); lia.
Qed.
(** asks and tells in turn (after the first tell), in dimension two at least: no failure; each rate is one of these; rewards are not negative *)
Theorem C66_doerr_sequence (dimension : nat) (velocity : list Q) (g loss0 : Q) (steps : list (option nat * Q)) : 2 <= dimension ->
  let d0 := o_doerr (opo_init dimension velocity g) in
  Forall (fun s : option nat * Q => match fst s with Some i => i < length (d_rates d0) | None => True end) steps ->
  exists rs d, bind (doerr_tell dimension loss0 d0) (doerr_run dimension steps) = Ok (rs, d) /\
    length rs = length steps /\ Forall (fun r => In r (d_rates d0)) rs /\ Forall (fun x => 0 <= x)%Q (d_rewards d).
Proof.
  intros D d0 F. assert (good (d_rates d0) d0) as G.
  { repeat split; unfold d0; cbn [opo_init o_doerr d_rates d_rewards d_counters]; try (rewrite map_length; reflexivity);
      apply Forall_map, Forall_forall; intros; lra. }
  destruct (doerr_tell_good dimension D (d_rates d0) loss0 d0 G (fun _ => eq_refl)) as (d1 & E1 & G1 & I1 & B1).
  rewrite E1. cbn [bind].
  destruct (doerr_run_good dimension D (d_rates d0)) with (steps := steps) (d := d1) as (rs & d & E & R & L & G2 & _);
    [discriminate|exact G1|exact I1|intros C; contradiction|exact F|].
  exists rs, d. split; [exact E|]. split; [exact L|]. split; [exact R|]. apply G2.
Qed.
(** the greedy choice is the first rate with the largest reward *)
Theorem C66_doerr_greedy (d d' : doerr) (r : nat) : doerr_ask None d = (d', Ok r) -> d_rewards d <> [] ->
  exists i, nth_error (d_rates d) i = Some r /\ i < length (d_rewards d) /\
    forall j, j < length (d_rewards d) -> (nth j (d_rewards d) 0 <= nth i (d_rewards d) 0)%Q /\ (j < i -> (nth j (d_rewards d) 0 < nth i (d_rewards d) 0)%Q).
Proof.
  unfold doerr_ask. destruct (d_index d); [discriminate|]. destruct (nth_error (d_rates d) (index_max (d_rewards d))) as [x|] eqn:E; [|discriminate].
  intros H N. injection H as _ <-. exists (index_max (d_rewards d)). split; [exact E|]. exact (index_max_spec _ N).
Qed.
(** asking again before the tell of an explored rate fails: for instance when the first candidate violates a constraint *)
Theorem C66_doerr_twice_refuted (i : nat) (explore : option nat) (d d1 : doerr) (r : nat) :
  doerr_ask (Some i) d = (d1, Ok r) -> doerr_ask explore d1 = (d1, Err AssertionError).
Proof.
  unfold doerr_ask at 1. destruct (d_index d); [discriminate|]. destruct (nth_error (d_rates d) i); [|discriminate].
  intros H. injection H as <- _. reflexivity.
Qed.
(** in dimension one the decay factor is minus one, and exploring twice the same rate divides by zero *)
Theorem C66_doerr_dimension_one_refuted (velocity : list Q) (g loss0 loss1 loss2 : Q) :
  bind (doerr_tell 1 loss0 (o_doerr (opo_init 1 velocity g))) (doerr_run 1 [(Some 0, loss1); (Some 0, loss2)]) = Err ZeroDivisionError.
Proof. reflexivity. Qed.

(** ** Concrete cases *)
Definition tells (l : list (Q * Q * Q)) : list told :=
  map (fun x => Told (Z.to_nat (Qfloor (snd (fst x)) + 10)) (fst (fst x)) (snd (fst x)) true false (snd x)) l.
(** losses 5, 7, 3, 3, 4, 1 with the smallest one so far and a mutation rate *)
Definition some_tells : list told :=
  tells [(5, 5, 1#10); (7, 5, 2#10); (3, 3, 3#10); (3, 3, 4#10); (4, 3, 5#10); (1, 1, 6#10)]%Q.
Example some_noise_free : noise_free some_tells.
Proof.
  intros i t E. destruct i as [|[|[|[|[|[|i]]]]]]; cbn in E; try (destruct i; discriminate); injection E as <-; cbn;
    (split; [eexists; split; [|reflexivity]; cbn; tauto|]); intros y H; cbn in H;
    repeat (destruct H as [<-|H]; [discriminate|]); destruct H.
Qed.
Example some_sigma : records (map t_loss some_tells) = 3 /\ setbacks (map t_loss some_tells) = 2 /\
  match opo_run Gaussian true 4 5 2 some_tells (opo_init 4 [1#2; 1; 0; 1]%Q (1#5)) with Ok s => (o_sigma s == 8 * (84 # 100) * (84 # 100))%Q | Err _ => False end.
Proof. vm_compute. repeat split; reflexivity. Qed.
(** windows of two tells: the third one gives 1 at rate 6/10; windows of four: the third tell of the first one *)
Example some_lognormal :
  (match opo_run Lognormal false 4 5 2 some_tells (opo_init 4 [] (1#5)) with Ok s => o_global s = 6#10 | Err _ => False end) /\
  (match opo_run Lognormal false 4 5 4 some_tells (opo_init 4 [] (1#5)) with Ok s => o_global s = 3#10 | Err _ => False end).
Proof. vm_compute. repeat split; reflexivity. Qed.
Example some_adaptive : match opo_run Adaptive false 10 5 2 some_tells (opo_init 10 [] (1#5)) with Ok s => adaptive_intensity 10 s = 5 | Err _ => False end.
Proof. vm_compute. repeat split; reflexivity. Qed.
Example some_velocity : match opo_run Coordinatewise false 4 8 2 some_tells (opo_init 4 [1#2; 1; 0; 2]%Q (1#5)) with Ok s => map Qred (o_velocity s) = [6#5; 6#5; 6#5; 6#5]%Q | Err _ => False end.
Proof. vm_compute. repeat split; reflexivity. Qed.
Example some_annealing : match opo_run Gaussian true 4 5 2 some_tells (opo_init 4 [] (1#5)) with Ok s => o_base s = Some 11 | Err _ => False end.
Proof. vm_compute. repeat split; reflexivity. Qed.
Example some_rates : d_rates (o_doerr (opo_init 20 [] (1#5))) = [1; 2; 3; 5; 9; 15].
Proof. vm_compute. repeat split; reflexivity. Qed.
Example some_doerr : match bind (doerr_tell 20 5 (o_doerr (opo_init 20 [] (1#5)))) (doerr_run 20 [(Some 3, 4%Q); (None, 6%Q); (Some 1, 2%Q); (None, 2%Q)])
  with Ok (rs, _) => rs = [5; 5; 2; 2] | Err _ => False end.
Proof. vm_compute. repeat split; reflexivity. Qed.
Example some_bso : map (fun n => bso_intensity 10 n 20) [0; 5; 10; 19; 30] = [10; 7; 5; 1; 1]%Z.
Proof. vm_compute. repeat split; reflexivity. Qed.

Print Assumptions C66_sigma.
Print Assumptions C66_sigma_positive.
Print Assumptions C66_adaptive.
Print Assumptions C66_adaptive_step.
Print Assumptions C66_velocity.
Print Assumptions C66_velocities_alike.
Print Assumptions C66_lognormal.
Print Assumptions C66_annealing.
Print Assumptions C66_annealing_step.
Print Assumptions C66_no_error.
Print Assumptions C66_bso.
Print Assumptions C66_doerr_rates.
Print Assumptions C66_doerr_sequence.
Print Assumptions C66_doerr_greedy.
Print Assumptions C66_doerr_twice_refuted.
Print Assumptions C66_doerr_dimension_one_refuted.

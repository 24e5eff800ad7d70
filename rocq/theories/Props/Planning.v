(** Two planning problems: unit commitment and fishing (nevergrad/functions/unitcommitment and fishing). *)
From Coq Require Import List Arith ZArith QArith Bool Lia Lqa.
From Verif.Model Require Import Prelude MultiValue Planning.
From Verif.Spec Require Import Planning.
From Verif.Proofs Require Import MultiValue Planning.
Import ListNotations.
Open Scope nat_scope.

(** The loss of a plan is at least its running cost, and is its running cost exactly when the plan is feasible. *)
Theorem C110_penalty : forall times gens demands cost_a cost_b weight out states, 0 < gens -> length demands = times ->
  (0 <= max_demand demands)%Q -> (0 < weight)%Q -> plan gens times out states ->
  exists v, commitment_loss times gens demands cost_a cost_b weight out states = Ok v
    /\ (running_cost cost_a cost_b out (cut gens times states) <= v)%Q
    /\ ((v == running_cost cost_a cost_b out (cut gens times states))%Q <->
        feasible (p_min gens demands) (p_max gens demands) demands out (cut gens times states)).
Proof.
  intros times gens demands a b w out states G L M W P. rewrite commitment_value by exact P.
  eexists; split; [reflexivity|]. pose proof (penalties_nonneg times gens demands out (cut gens times states)) as N.
  pose proof (penalties_zero times gens demands out states L (p_min_max gens demands G M) P) as Z0.
  set (x := penalties times gens demands out (cut gens times states)) in *. set (r := running_cost a b out (cut gens times states)).
  clearbody x r. assert (N2 : (0 <= x * w)%Q) by (apply Qmult_le_0_compat; lra). split; [lra|].
  rewrite <- Z0. split; intros H.
  - destruct (Qlt_le_dec 0 x) as [K|K]; [|lra]. exfalso. assert (0 < x * w)%Q by (apply Qmult_lt_0_compat; assumption). lra.
  - rewrite H. ring.
Qed.
Print Assumptions C110_penalty.

(** A demand which no number of generators can meet between their limits makes all the plans pay a penalty. *)
Theorem C110_gap : forall times gens demands cost_a cost_b weight d, 0 < gens -> length demands = times ->
  (0 <= max_demand demands)%Q -> (0 < weight)%Q -> In d demands ->
  (forall k, k <= gens -> (d < qnat k * p_min gens demands)%Q \/ (qnat k * p_max gens demands < d)%Q) ->
  forall out states, plan gens times out states ->
  exists v, commitment_loss times gens demands cost_a cost_b weight out states = Ok v
    /\ (running_cost cost_a cost_b out (cut gens times states) < v)%Q.
Proof.
  intros times gens demands a b w d G L M W Hd Gap out states P.
  destruct (C110_penalty times gens demands a b w out states G L M W P) as (v & E & V1 & V2).
  exists v. split; [exact E|]. destruct (Qlt_le_dec (running_cost a b out (cut gens times states)) v) as [K|K]; [exact K|].
  exfalso. assert (F : feasible (p_min gens demands) (p_max gens demands) demands out (cut gens times states)).
  { apply V2. lra. }
  destruct F as [F1 F2]. apply In_nth_error in Hd. destruct Hd as (t & Ht). specialize (F2 t d Ht).
  destruct (column_bounds _ _ t out _ (p_min_max gens demands G M) F1) as (k & K1 & K2).
  destruct P as (P1 & _). specialize (Gap k ltac:(lia)). lra.
Qed.
Print Assumptions C110_gap.

(** One generator: whatever the demands, no plan is feasible. *)
Theorem C110_single_refuted : forall demands cost_a cost_b weight out states, demands <> [] ->
  (0 < max_demand demands)%Q -> (0 < weight)%Q -> plan 1 (length demands) out states ->
  exists v, commitment_loss (length demands) 1 demands cost_a cost_b weight out states = Ok v
    /\ (running_cost cost_a cost_b out (cut 1 (length demands) states) < v)%Q.
Proof.
  intros demands a b w out states NE M W P.
  apply (C110_gap (length demands) 1 demands a b w (max_demand demands)); auto; [lra|now apply max_demand_in|].
  intros k Hk. pose proof (p_max_scaled 1 demands ltac:(lia)) as S. rewrite qnat_S, qnat_0 in S. unfold p_min.
  assert (K : k = 0 \/ k = 1) by lia. destruct K as [->| ->].
  - right. rewrite qnat_0. lra.
  - left. rewrite qnat_S, qnat_0. lra.
Qed.
Print Assumptions C110_single_refuted.

(** Three generators, the default: no plan is feasible as soon as a demand is between 2/3 and 4/5 of the largest one. *)
Theorem C110_default_refuted : forall demands cost_a cost_b weight d out states, In d demands ->
  (0 < max_demand demands)%Q -> ((2 # 3) * max_demand demands < d < (4 # 5) * max_demand demands)%Q ->
  (0 < weight)%Q -> plan 3 (length demands) out states ->
  exists v, commitment_loss (length demands) 3 demands cost_a cost_b weight out states = Ok v
    /\ (running_cost cost_a cost_b out (cut 3 (length demands) states) < v)%Q.
Proof.
  intros demands a b w d out states Hd M B W P.
  apply (C110_gap (length demands) 3 demands a b w d); auto; [lra|].
  intros k Hk. pose proof (p_max_scaled 3 demands ltac:(lia)) as S. rewrite !qnat_S, qnat_0 in S. unfold p_min.
  assert (K : k = 0 \/ k = 1 \/ k = 2 \/ k = 3) by lia. destruct K as [->|[->|[->| ->]]]; rewrite ?qnat_S, qnat_0.
  - right. lra.
  - right. lra.
  - left. lra.
  - left. lra.
Qed.
Print Assumptions C110_default_refuted.

(** Five generators or more: since the demands are drawn between 100 and 200, so that none is below half of the largest, there
    is a feasible plan. *)
Theorem C110_five : forall gens demands, 5 <= gens -> (0 < max_demand demands)%Q ->
  (forall d, In d demands -> (max_demand demands <= 2 * d)%Q) ->
  exists out states, plan gens (length demands) out states
    /\ feasible (p_min gens demands) (p_max gens demands) demands out (cut gens (length demands) states).
Proof.
  intros gens demands G M H.
  assert (S : (qnat gens * p_max gens demands == 2 * max_demand demands)%Q) by (apply p_max_scaled; lia).
  assert (U : (0 < p_max gens demands)%Q).
  { unfold p_max. apply Qlt_shift_div_l; [apply qnat_pos; lia|]. lra. }
  assert (G5 : (5 * p_max gens demands <= 2 * max_demand demands)%Q).
  { rewrite <- S. apply Qmult_le_compat_r; [|lra]. unfold qnat. change 5%Q with (inject_Z 5). rewrite <- Zle_Qle. lia. }
  assert (C : exists ks, map snd ks = demands /\ forall k d, In (k, d) ks -> 1 <= k <= gens /\
            (p_min gens demands <= d / qnat k <= p_max gens demands)%Q).
  { assert (K : forall d, In d demands -> exists k, 1 <= k <= gens /\ (p_min gens demands <= d / qnat k <= p_max gens demands)%Q).
    { intros d Hd. pose proof (max_demand_ge demands d Hd) as D1. specialize (H d Hd) as D3.
      destruct (enough (p_max gens demands) d gens U ltac:(lra) ltac:(rewrite S; lra)) as (k & K1 & K2 & K3).
      exists k. split; [exact K1|]. pose proof (qnat_pos k ltac:(lia)) as Pk. split.
      - apply Qle_shift_div_l; [exact Pk|]. unfold p_min.
        assert (Kn : qnat k = qnat (Datatypes.S (k - 1))) by (f_equal; lia). rewrite Kn, qnat_S in *.
        remember (k - 1) as j. destruct j as [|[|j]].
        + rewrite qnat_0 in *. lra.
        + rewrite qnat_S, qnat_0 in *. lra.
        + assert (J : (2 <= qnat (Datatypes.S (Datatypes.S j)))%Q).
          { unfold qnat. change 2%Q with (inject_Z 2). rewrite <- Zle_Qle. lia. }
          set (x := qnat (Datatypes.S (Datatypes.S j))) in *. clearbody x.
          assert (2 * p_max gens demands <= x * p_max gens demands)%Q by (apply Qmult_le_compat_r; lra). lra.
      - apply Qle_shift_div_r; [exact Pk|]. lra. }
    clear H S U G5. revert K. generalize (p_min gens demands) (p_max gens demands). intros low high.
    induction demands as [|d ds IH]; intros K.
    - exists []. split; [reflexivity|intros k d []].
    - destruct (K d (or_introl eq_refl)) as (k & K1 & K2).
      assert (X : exists ks, map snd ks = ds /\ forall k d, In (k, d) ks -> 1 <= k <= gens /\ (low <= d / qnat k <= high)%Q).
      { clear IH M. revert K. induction ds as [|e ds IH]; intros K.
        - exists []. split; [reflexivity|intros ? ? []].
        - destruct (K e (or_intror (or_introl eq_refl))) as (k' & K1' & K2').
          destruct IH as (ks & E & Hks). { intros y [->|Hy]; apply K; [now left|right; now right]. }
          exists ((k', e) :: ks). split; [cbn; now rewrite E|]. intros ? ? [Eq|I]; [inversion Eq; subst; auto|auto]. }
      destruct X as (ks & E & Hks). exists ((k, d) :: ks). split; [cbn; now rewrite E|].
      intros ? ? [Eq|I]; [inversion Eq; subst; auto|auto]. }
  destruct C as (ks & E & Hks).
  assert (Lk : length ks = length demands) by (rewrite <- E; now rewrite map_length).
  assert (Rows : Forall (fun r => length r = length demands) (shared_states gens ks)).
  { apply Forall_forall. intros r Hr. apply in_map_iff in Hr. destruct Hr as (g & <- & _). now rewrite map_length. }
  assert (Ls : length (shared_states gens ks) = gens) by (unfold shared_states; now rewrite map_length, seq_length).
  exists (shared_out gens ks), (concat (shared_states gens ks)). split.
  - split; [unfold shared_out; now rewrite map_length, seq_length|]. split; [|split].
    + apply Forall_forall. intros r Hr. apply in_map_iff in Hr. destruct Hr as (g & <- & _). now rewrite map_length.
    + rewrite (concat_size (length demands)) by exact Rows. now rewrite Ls.
    + apply Forall_forall. intros s Hs. apply in_concat in Hs. destruct Hs as (r & Hr & Hs).
      apply in_map_iff in Hr. destruct Hr as (g & <- & _). apply in_map_iff in Hs. destruct Hs as (kd & <- & _).
      destruct (g <? fst kd); auto.
  - replace (cut gens (length demands) (concat (shared_states gens ks))) with (shared_states gens ks)
      by (rewrite <- Ls at 2; symmetry; now apply cut_concat).
    split.
    + apply shared_units. intros k d Hkd. destruct (Hks k d Hkd) as [K1 K2]. split; [lia|exact K2].
    + intros t d Ht. rewrite <- E in Ht. rewrite nth_error_map in Ht.
      destruct (nth_error ks t) as [[k d']|] eqn:Et; [|discriminate]. cbn in Ht. inversion Ht; subst d'.
      apply (shared_column gens ks t k d Et). apply (Hks k d). eapply nth_error_In; eauto.
Qed.
Print Assumptions C110_five.

(** Fishing: the assertion never fails, whatever the efforts and the number of days; the loss is not positive, and the total
    is at most a tenth of the efforts. *)
Theorem C110_fishing : forall efforts, exists v, total_fishing efforts = Ok v
  /\ (- ((1 # 10) * qsum (map (qmax 0) efforts)) <= v <= 0)%Q.
Proof.
  intros l. destruct (days_ok l sea_start sea_alive) as (s & E & A & B). unfold total_fishing. rewrite E. cbn [bind].
  eexists; split; [reflexivity|]. cbn [fished sea_start] in B. lra.
Qed.
Print Assumptions C110_fishing.

(** After any number of days both populations are in [0, 1] and the haddocks have not disappeared. *)
Theorem C110_populations : forall efforts, exists s, days efforts sea_start = Ok s
  /\ (0 <= dogfishes s <= 1 /\ 0 < haddocks s <= 1)%Q.
Proof. intros l. destruct (days_ok l sea_start sea_alive) as (s & E & A & _). exists s. auto. Qed.
Print Assumptions C110_populations.

(** A negative effort is no effort. *)
Theorem C110_negative : forall efforts, total_fishing (map (qmax 0) efforts) = total_fishing efforts.
Proof. intros l. unfold total_fishing. now rewrite days_clip. Qed.
Print Assumptions C110_negative.

(** Two times and two generators: demands 1 and 2, limits 6/5 and 2. *)
Example C110_case : 
  match commitment_loss 2 2 [1%Q; 2%Q] [1%Q; 1%Q] [3%Q; 3%Q] 10%Q [[1%Q; 2%Q]; [0%Q; 0%Q]] [1; 1; 0; 0] with
  | Ok v => Qred v | Err _ => 0%Q end = (9 + 2)%Q /\ plan 2 2 [[1%Q; 2%Q]; [0%Q; 0%Q]] [1; 1; 0; 0].
Proof. split; [vm_compute; reflexivity|]. split; [reflexivity|]. split; [repeat constructor|]. split; [reflexivity|]. repeat (constructor; [auto; fail|]); constructor. Qed.
Example C110_fishing_case : match total_fishing [1%Q; -1%Q; 5%Q] with Ok v => Qred v | Err _ => 0%Q end = (-5210511479 # 15820312500)%Q.
Proof. vm_compute. reflexivity. Qed.
(** Demands which meet the hypotheses of [C110_default_refuted] and [C110_five]. *)
Example C110_demands : (max_demand [150; 200; 100] == 200)%Q
  /\ ((2 # 3) * max_demand [150; 200; 100] < 150 < (4 # 5) * max_demand [150; 200; 100])%Q
  /\ forall d, In d [150; 200; 100]%Q -> (max_demand [150; 200; 100] <= 2 * d)%Q.
Proof.
  split; [reflexivity|]. split; [split; reflexivity|]. intros d [<-|[<-|[<-|[]]]]; vm_compute; discriminate.
Qed.

(** What a plan costs: for each generator its price for all it gives, and its constant price for each time when it is on. *)
Theorem C110_cost : forall gens times cost_a cost_b out states, plan gens times out states -> length cost_a = gens -> length cost_b = gens ->
  (running_cost cost_a cost_b out (cut gens times states)
   == qsum (map (fun g => nth g cost_a 0 * qsum (nth g out []) + nth g cost_b 0 * qnat (count_occ Nat.eq_dec (firstn times (skipn (g * times)%nat states)) 1%nat)) (seq 0 gens)))%Q.
Proof.
  intros gens times a b out states (Lo & _ & Ls & F). revert a b out states Lo Ls F. induction gens as [|gens IH]; intros a b out states Lo Ls F La Lb.
  - unfold running_cost. cbn. destruct out; [reflexivity|discriminate].
  - destruct out as [|o out], a as [|a0 a], b as [|b0 b]; try discriminate. cbn [length] in *.
    assert (Fs : Forall (fun s => s = 0 \/ s = 1) (skipn times states)) by (rewrite <- (firstn_skipn times states) in F; apply Forall_app in F; apply F).
    assert (Ff : Forall (fun s => s = 0 \/ s = 1) (firstn times states)) by (rewrite <- (firstn_skipn times states) in F; apply Forall_app in F; apply F).
    specialize (IH a b out (skipn times states) ltac:(lia) ltac:(rewrite skipn_length; lia) Fs ltac:(lia) ltac:(lia)).
    unfold running_cost in *. cbn [cut combine map]. change (qsum (?x :: ?l)) with (x + qsum l)%Q. rewrite IH. clear IH.
    cbn [seq map]. change (qsum (?x :: ?l)) with (x + qsum l)%Q. apply Qplus_comp.
    + cbn [nth Nat.mul skipn]. assert (E : list_sum (firstn times states) = count_occ Nat.eq_dec (firstn times states) 1).
      { clear - Ff. induction Ff as [|s l H Ff IH]; [reflexivity|]. change (list_sum (s :: l)) with (s + list_sum l). rewrite IH. cbn [count_occ]. destruct H as [-> | ->]; destruct (Nat.eq_dec _ 1); try lia. }
      rewrite E. ring.
    + rewrite <- seq_shift, map_map. replace (map (fun x => (nth (S x) (a0 :: a) 0 * qsum (nth (S x) (o :: out) []) + nth (S x) (b0 :: b) 0 * qnat (count_occ Nat.eq_dec (firstn times (skipn (S x * times)%nat states)) 1%nat))%Q) (seq 0 gens))
        with (map (fun g => (nth g a 0 * qsum (nth g out []) + nth g b 0 * qnat (count_occ Nat.eq_dec (firstn times (skipn (g * times)%nat (skipn times states))) 1%nat))%Q) (seq 0 gens)); [reflexivity|].
      apply map_ext. intros g. cbn [nth]. do 4 f_equal. f_equal. cbn [Nat.mul].
      assert (Sk : forall m n (l : list nat), skipn m (skipn n l) = skipn (n + m) l).
      { intros m n. induction n as [|n IHn]; intros l; [reflexivity|]. destruct l; [now rewrite !skipn_nil|]. cbn. apply IHn. }
      now rewrite Sk.
Qed.
Print Assumptions C110_cost.

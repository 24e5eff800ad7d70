(** C114: power systems. *)
From Coq Require Import List Arith ZArith QArith Bool Lia Lqa.
From Verif.Model Require Import Prelude MultiValue Planning PowerSystem.
From Verif.Spec Require Import PowerSystem.
From Verif.Proofs Require Import PowerSystem.
Import ListNotations.
Open Scope nat_scope.

(** Every hour succeeds: the plants' productions respect their capacities (for dams, the water
    they hold) and, with the part not served, meet the consumption; the cheapest plants are used
    first; dams lose what they produce, so no stock ever becomes negative; the loss grows by the
    thermal productions at their prices plus the failure cost of what is not served; the
    marginal cost of the hour is the failure cost or the highest thermal price in use. *)
Theorem C114_hour : forall nd nt thcap thprice F y w,
  (forall i, (i < nt)%nat -> 0 <= thcap i)%Q -> (forall i, (i < nd)%nat -> 0 <= y_stocks y i)%Q ->
  (forall i, (i < nd)%nat -> 0 <= w_rain w i)%Q -> (0 <= w_consumption w)%Q ->
  let water := fun i => (y_stocks y i + w_rain w i)%Q in
  let price := dams_then_thermal nd (w_dam_price w) thprice in
  let capacity := dams_then_thermal nd water thcap in
  exists p unserved h m y',
    time_step nd nt thcap thprice F y w = Ok y' /\
    feasible (nd + nt) capacity p unserved (w_consumption w) /\
    cheapest_first (nd + nt) price capacity p unserved /\
    (forall i, (i < nd)%nat -> y_stocks y' i == water i - p i /\ 0 <= y_stocks y' i)%Q /\
    (y_cost y' == y_cost y + total (fun i => p (nd + i)%nat * thprice i) nt + F * unserved)%Q /\
    y_hydro y' = y_hydro y ++ [h] /\ (forall i, (i < nd)%nat -> h i == p i)%Q /\
    y_marginal_costs y' = y_marginal_costs y ++ [m] /\
    ((1 # 10000000 < unserved)%Q -> m = F) /\
    ((unserved <= 1 # 10000000)%Q -> marginal_of nd (nd + nt) price p (1 # 10000000) m).
Proof.
  intros nd nt thcap thprice F y w Hc Hs Hr Hw water price capacity.
  destruct (step_spec nd nt thcap thprice F y w Hc Hs (conj Hr Hw)) as [p [u [h [m [y' [R [A [B [C D]]]]]]]]].
  exists p, u, h, m, y'. split; [exact R|]. split; [exact A|]. split; [exact B|]. split; [|exact D].
  intros i Hi. split; [now apply C|]. rewrite C by auto. destruct A as [A _]. assert (X := A i). unfold dams_then_thermal in X.
  destruct (Nat.ltb_spec i nd); [|lia]. assert (Y := X ltac:(lia)). cbn beta in Y. lra.
Qed.
Print Assumptions C114_hour.

(** No other way of meeting the consumption within the capacities costs less, at the prices the
    plants are given, when no price exceeds the failure cost. *)
Theorem C114_cheapest : forall n price capacity p unserved demand q unserved' F,
  feasible n capacity p unserved demand -> cheapest_first n price capacity p unserved ->
  feasible n capacity q unserved' demand -> (forall i, (i < n)%nat -> price i <= F)%Q ->
  (bill n price p F unserved <= bill n price q F unserved')%Q.
Proof. intros. eapply cheapest_bill; eauto. Qed.
Print Assumptions C114_cheapest.

(** A whole simulation never fails. It gives one marginal cost and the productions of the dams
    for each hour; the water that fell is what the dams produced and what they still hold; the
    loss never decreases and is at most what failing to serve everything costs. *)
Theorem C114_year : forall nd nt thcap thprice F ws,
  (forall i, (i < nt)%nat -> 0 <= thcap i)%Q -> (forall i, (i < nt)%nat -> 0 <= thprice i <= F)%Q -> (0 <= F)%Q ->
  Forall (fun w => (forall i, (i < nd)%nat -> 0 <= w_rain w i) /\ 0 <= w_consumption w)%Q ws ->
  exists y, simulate nd nt thcap thprice F year_start ws = Ok y /\
    length (y_hydro y) = length ws /\ length (y_marginal_costs y) = length ws /\
    (forall i, (i < nd)%nat -> 0 <= y_stocks y i /\
       list_total (map (fun w => w_rain w i) ws) == y_stocks y i + list_total (map (fun h => h i) (y_hydro y)))%Q /\
    (0 <= y_cost y <= F * list_total (map w_consumption ws))%Q /\
    (forall ws1 ws2, ws = ws1 ++ ws2 -> exists y1,
       simulate nd nt thcap thprice F year_start ws1 = Ok y1 /\ y_cost y1 <= y_cost y)%Q.
Proof.
  intros nd nt thcap thprice F ws Hc Hp HF Hw.
  destruct (simulate_spec nd nt thcap thprice F ws year_start Hc Hp HF ltac:(intros; apply Qle_refl) Hw)
    as [y [hs [ms [R [A [B [C [D [E [G K]]]]]]]]]].
  exists y. split; [exact R|]. rewrite B, D. cbn [year_start y_hydro y_marginal_costs app]. split; [exact C|]. split; [exact E|].
  split; [intros i Hi; split; [auto|]; assert (X := G i Hi); cbn [year_start y_stocks] in X; lra|].
  cbn [year_start y_cost] in K. split; [lra|].
  intros ws1 ws2 ->. apply Forall_app in Hw as [W1 W2].
  destruct (simulate_spec nd nt thcap thprice F ws1 year_start Hc Hp HF ltac:(intros; apply Qle_refl) W1)
    as [y1 [hs1 [ms1 [R1 [A1 _]]]]].
  exists y1. split; [exact R1|].
  destruct (simulate_spec nd nt thcap thprice F ws2 y1 Hc Hp HF A1 W2) as [y2 [? [? [R2 [_ [_ [_ [_ [_ [_ [L _]]]]]]]]]]].
  assert (S : forall l y0, simulate nd nt thcap thprice F y0 (l ++ ws2) =
                           bind (simulate nd nt thcap thprice F y0 l) (fun z => simulate nd nt thcap thprice F z ws2)).
  { clear. intros l. induction l as [|w l IH]; intros y0; cbn; [reflexivity|]. destruct (time_step _ _ _ _ _ _ _); cbn; auto. }
  rewrite S, R1 in R. cbn in R. assert (y = y2) as -> by congruence. exact L.
Qed.
Print Assumptions C114_year.

(** The consumption is never negative and never grows beyond its highest base value plus the
    largest noise divided by the return rate. *)
Theorem C114_consumption : forall back B d l, (0 <= back <= 1)%Q -> (0 <= d)%Q ->
  Forall (fun bn => 0 <= fst bn <= B /\ snd bn <= d)%Q l ->
  length (consumptions back None l) = length l /\
  Forall (fun c => 0 <= c /\ back * c <= back * B + d)%Q (consumptions back None l).
Proof. intros. now apply consumptions_spec. Qed.
Print Assumptions C114_consumption.

(** The weights given to an agent fill its layers one after the other, without a weight lost or
    used twice; any other number of weights is refused. *)
Theorem C114_weights : forall inputs outputs layers width shapes weights,
  agent_layers inputs outputs layers width = Ok shapes ->
  length shapes = layers /\ nth_error shapes 0 = Some (width, inputs) /\ nth_error shapes (layers - 1) = Some (outputs, width) /\
  (forall k, 0 < k < layers - 1 -> nth_error shapes k = Some (width, width)) /\
  (forall filled, set_parameters shapes weights = Ok filled ->
     concat filled = weights /\ map (@length Q) filled = map (fun s => fst s * snd s) shapes) /\
  (set_parameters shapes weights = Err ValueError <->
     length weights <> width * inputs + (layers - 2) * (width * width) + outputs * width) /\
  (length weights = width * inputs + (layers - 2) * (width * width) + outputs * width ->
     exists filled, set_parameters shapes weights = Ok filled).
Proof.
  intros inputs outputs layers width shapes weights H. unfold agent_layers in H.
  destruct (Nat.leb_spec 2 layers) as [L|L]; [|discriminate]. injection H as <-.
  set (shapes := (width, inputs) :: repeat (width, width) (layers - 2) ++ [(outputs, width)]).
  assert (D : agent_dimension shapes = width * inputs + (layers - 2) * (width * width) + outputs * width).
  { unfold agent_dimension, shapes. cbn [map list_sum fold_right]. rewrite map_app.
    fold (list_sum (map layer_size (repeat (width, width) (layers - 2)) ++ map layer_size [(outputs, width)])). rewrite list_sum_app.
    assert (X : forall k, list_sum (map layer_size (repeat (width, width) k)) = k * (width * width)).
    { induction k as [|k IH]; [reflexivity|]. cbn [repeat map list_sum fold_right]. fold (list_sum (map layer_size (repeat (width, width) k))). rewrite IH. unfold layer_size. cbn [fst snd]. lia. }
    rewrite X. cbn. unfold layer_size. cbn. lia. }
  split; [unfold shapes; cbn; rewrite app_length, repeat_length; cbn; lia|]. split; [reflexivity|].
  split; [unfold shapes; destruct layers as [|[|k]]; [lia..|]; replace (S (S k) - 2) with k by lia; replace (S (S k) - 1) with (S k) by lia;
          cbn; rewrite nth_error_app2 by (rewrite repeat_length; lia); rewrite repeat_length, Nat.sub_diag; reflexivity|].
  split.
  { intros k Hk. unfold shapes. destruct k as [|k]; [lia|]. cbn. rewrite nth_error_app1 by (rewrite repeat_length; lia).
    apply nth_error_repeat. lia. }
  unfold set_parameters. rewrite D. destruct (Nat.eqb_spec (length weights) (width * inputs + (layers - 2) * (width * width) + outputs * width)) as [E|E].
  - split; [intros filled H; assert (filled = distribute shapes weights) as -> by congruence; apply (distribute_spec shapes weights); lia|]. split; [split; [discriminate|contradiction]|]. intros _. eauto.
  - split; [discriminate|]. split; [tauto|contradiction].
Qed.
Print Assumptions C114_weights.

(** [depth] is documented as the number of layers of the networks and [width] as the number of
    neurons of their hidden layers. The networks have [width] layers, whatever the depth, hidden
    layers of 14 neurons, and [depth] outputs of which only the first is used; a width of 1 is
    refused. *)
Theorem C114_depth_refuted :
  (forall nd nt depth width, 2 <= width -> exists shapes, dam_agent nd nt depth width = Ok shapes /\
     length shapes = width /\ nth_error shapes 0 = Some (14, 10 + nd + 2 * nt) /\
     nth_error shapes (width - 1) = Some (depth, 14)) /\
  (forall nd nt depth, dam_agent nd nt depth 1 = Err AssertionError).
Proof.
  split; [|reflexivity]. intros nd nt depth width L. unfold dam_agent.
  destruct (agent_layers (10 + nd + 2 * nt) depth width 14) as [shapes|e] eqn:E.
  - exists shapes. destruct (C114_weights _ _ _ _ _ [] E) as [A [B [C _]]]. auto.
  - exfalso. unfold agent_layers in E. destruct (Nat.leb_spec 2 width); [discriminate|lia].
Qed.
Print Assumptions C114_depth_refuted.

(** Two dams and two thermal plants, two hours: first the free water, then the plants; the second
    hour cannot be served entirely. *)
Definition demo_weather (r c : Q) : weather := mkweather (fun i => if i =? 0 then r else (r * (1#2))%Q) c (fun i => if i =? 0 then (1#10) else (2#1))%Q.
Example C114_demo :
  match simulate 2 2 (fun _ => 1%Q) (fun i => if i =? 0 then (1#2) else 1)%Q 500 year_start [demo_weather 1 2; demo_weather 1 5] with
  | Ok y => Qeq_bool (y_cost y) (1 * (1#2) + ((1#2) + 1) + 500 * 1) && Qeq_bool (y_stocks y 1%nat) 0 &&
            forallb (fun ab => Qeq_bool (fst ab) (snd ab)) (combine (y_marginal_costs y) [1#2; 500])
  | Err _ => false
  end%Q = true.
Proof. vm_compute. reflexivity. Qed.

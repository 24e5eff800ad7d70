(** C33, C34, C36, C37, C38: layers. *)
From Coq Require Import List Arith ZArith QArith Qround Qabs Bool Lia Lqa Setoid Permutation.
From Verif.Model Require Import Prelude MultiValue Layers.
From Verif.Spec Require Import Layers.
From Verif.Proofs Require Import Prelude MultiValue Layers LayerValues.
Import ListNotations.
Open Scope nat_scope.

(** * C33 order of the layers *)

(** After any sequence of additions: sorted by level, the root first, each level in the
    order of the additions, every layer knowing its position. *)
Theorem C33_layers_sorted : forall id others,
  exists ls, add_layers others (new_root id) = Ok ls /\
    by_level ls /\ indexed ls /\ length ls = S (length others) /\
    (forall z, at_level z ls = at_level z (new_root id ++ others)) /\
    exists r ls', ls = r :: ls' /\ who r = (id, ROOT).
Proof.
  intros id others. destruct (add_layers_spec others (new_root id) (root_inv id)) as (ls & E & [Hne Hs Hi] & Ha & Hl & Hr).
  exists ls. repeat split; auto.
  destruct (Hr (LNode id ROOT 0) [] eq_refl) as (r' & l' & E' & W); [intros; apply level_nonneg|]. eauto.
Qed.
Print Assumptions C33_layers_sorted.

(** One more layer never moves the others relatively to each other. *)
Theorem C33_add_keeps_order : forall id others o ls ls',
  add_layers others (new_root id) = Ok ls -> add_layer o false ls = Ok ls' ->
  exists before after, map who ls = before ++ after /\ map who ls' = before ++ who o :: after.
Proof.
  intros id others o ls ls' E E'. unfold add_layer in E'. destruct ls as [|r l] eqn:El; [discriminate|]. rewrite <- El in *.
  destruct (_ <=? _)%Z.
  - injection E' as <-. exists (map who ls), []. rewrite app_nil_r, map_app. easy.
  - injection E' as <-. set (k := bisect_right _ _). exists (map who (firstn k ls)), (map who (skipn k ls)).
    rewrite <- map_app, firstn_skipn, reindex_who. unfold insert_at. rewrite map_app. easy.
Qed.
Print Assumptions C33_add_keeps_order.

Theorem C33_copy_same_layers : forall rename id others ls,
  add_layers others (new_root id) = Ok ls ->
  exists ls', copy_layers rename ls = Ok ls' /\ by_level ls' /\ indexed ls' /\
    map who ls' = map (fun x => (rename (ln_id x), ln_level x)) ls.
Proof.
  intros rename id others ls E. destruct (add_layers_spec others (new_root id) (root_inv id)) as (ls0 & E0 & Hi & _).
  rewrite E in E0. injection E0 as <-.
  destruct (copy_layers_spec rename ls Hi) as (ls' & E' & [_ Hs Hx] & W). eauto.
Qed.
Print Assumptions C33_copy_same_layers.

(** A layer which already belongs to a parameter is refused. *)
Theorem C33_attached_layer_refused : forall o ls, add_layer o true ls = Err RuntimeError.
Proof. reflexivity. Qed.
Print Assumptions C33_attached_layer_refused.

Example C33_nontrivial :
  add_layers [LNode 1 SCALAR_CASTING 0; LNode 2 INTEGER_CASTING 0; LNode 3 OPERATION 0; LNode 4 OPERATION 0; LNode 5 SCALAR_CASTING 0] (new_root 0)
  = Ok [LNode 0 ROOT 0; LNode 3 OPERATION 1; LNode 4 OPERATION 2; LNode 2 INTEGER_CASTING 3; LNode 1 SCALAR_CASTING 4; LNode 5 SCALAR_CASTING 5].
Proof. reflexivity. Qed.

(** * C34 bounds *)

(** Whatever the history of readings, settings (accepted or not), updates of the
    underlying array and freezes, reading succeeds and gives a value within the bounds
    announced by [bounds]. *)
Theorem C34_value_within_bounds : forall n c st x ops,
  stack_ok n c st -> init_ok n (c :: st) x -> positive st -> ~ In LInt st -> (forall lo up, ~ In (LCheck lo up) st) ->
  let d := ld_run ops (ld_new (c :: st) x) in
  exists d' v, value_get d = (d', Ok v) /\ length (coords v) = n /\
    within (fst (ld_bounds d)) (snd (ld_bounds d)) (coords v).
Proof.
  intros n c st x ops Hok Hi Hp Hn Hc d.
  assert (Hinv : ld_inv n c st d) by (apply run_inv; auto; now apply new_inv).
  destruct (read_inv n c st Hok d Hinv) as (d' & v & E & Hv & _ & _). exists d', v. split; [easy|].
  destruct Hinv as (E1 & E2 & _ & _). pose proof Hok as (Hcast & Hg & Hall).
  destruct (data_bounds_length n _ Hall) as [B1 B2]. pose proof (Forall_inv_tail Hall) as Hst.
  assert (Hl : length (coords v) = n). { rewrite (veq_length _ _ Hv). now apply den_length. }
  split; [easy|]. unfold ld_bounds. rewrite E1.
  assert (W := den_within (data_bounds (rev (c :: st))) n st Hst Hp Hn Hc _ E2 B1 B2).
  assert (Eb : data_bounds (rev (c :: st)) = data_bounds (rev st)).
  { rewrite data_bounds_top. destruct (data_bounds (rev st)) as [[a|] [b|]]; destruct Hcast as [-> | ->]; reflexivity. }
  rewrite Eb in *. destruct (data_bounds (rev st)) as [lo up] eqn:Ed. cbn [fst snd] in *.
  apply (checker_within n); auto. rewrite (checker_proper _ _ _ _ Hv). apply (checker_within n); auto. now apply den_length.
Qed.
Print Assumptions C34_value_within_bounds.

(** Reading is stable: it gives the same value again and does not touch the underlying
    array. *)
Theorem C34_reading_is_stable : forall n c st x ops,
  stack_ok n c st -> init_ok n (c :: st) x ->
  let d := ld_run ops (ld_new (c :: st) x) in
  exists d' v d'' v', value_get d = (d', Ok v) /\ ld_root d' = ld_root d /\
    value_get d' = (d'', Ok v') /\ ld_root d'' = ld_root d /\ veq (coords v') (coords v).
Proof.
  intros n c st x ops Hok Hi d.
  assert (Hinv : ld_inv n c st d) by (apply run_inv; auto; now apply new_inv).
  destruct (read_inv n c st Hok d Hinv) as (d' & v & E & Hv & Hinv' & Hr).
  destruct (read_inv n c st Hok d' Hinv') as (d'' & v' & E' & Hv' & _ & Hr').
  exists d', v, d'', v'. rewrite Hr in *. repeat split; auto. eapply veq_trans; [exact Hv'|now apply veq_sym].
Qed.
Print Assumptions C34_reading_is_stable.

(** A raw update whose image is within the bounds is kept as it is: here for bounds set
    on the raw data; the value read is the new array. *)
Theorem C34_inside_is_kept : forall n c a bounce lo up x ops y,
  arrays a -> stack_ok n c (a ++ [LBound bounce lo up]) -> init_ok n (c :: a ++ [LBound bounce lo up]) x ->
  let d := ld_run ops (ld_new (c :: a ++ [LBound bounce lo up]) x) in
  rt_frozen (ld_root d) = false -> length y = n -> within lo up y ->
  exists d1 d2 v, raw_set y d = (d1, Ok tt) /\ rt_value (ld_root d1) = y /\
    value_get d1 = (d2, Ok v) /\ veq (coords v) y.
Proof.
  intros n c a bounce lo up x ops y Harr Hok Hi d Hf Hy Hw.
  assert (Hinv : ld_inv n c (a ++ [LBound bounce lo up]) d) by (apply run_inv; auto; now apply new_inv).
  destruct (raw_set y d) as [d1 u] eqn:E. destruct (raw_inv n c _ Hok y d d1 u Hinv E) as (I1 & _ & _ & U & V & _).
  assert (Hu : u = Ok tt) by (now apply U). subst u. destruct (V eq_refl) as [_ V2].
  destruct (stack_arr n c a _ Harr Hok) as (Hc & Hg & Hall). pose proof (Forall_inv Hall) as (L1 & L2 & L3).
  rewrite settled_arr in V2 by easy. cbn [settled den] in V2.
  assert (Ey : rt_value (ld_root d1) = y) by (apply V2; split; [now apply (checker_within n)|easy]).
  destruct (read_inv n c _ Hok d1 I1) as (d2 & v & E2 & Hv & _ & _).
  exists d1, d2, v. repeat split; auto. rewrite Ey, den_arr in Hv by easy. cbn [den] in Hv. unfold clip_forward in Hv.
  rewrite (proj2 (checker_within n lo up y L1 L2 Hy) Hw) in Hv. exact Hv.
Qed.
Print Assumptions C34_inside_is_kept.

(** Clipping: each coordinate is moved to the nearest number within its bounds. *)
Theorem C34_clipping_nearest : forall n lo up v k x,
  opt_length n lo -> opt_length n up -> ordered_bounds lo up -> length v = n -> nth_error v k = Some x ->
  exists y, nth_error (clip_forward false lo up v) k = Some y /\
    ge_opt (at_or lo k) y /\ le_opt (at_or up k) y /\
    forall z, ge_opt (at_or lo k) z -> le_opt (at_or up k) z -> (Qabs (x - y) <= Qabs (x - z))%Q.
Proof.
  intros n lo up v k x H1 H2 Ho Hv Hk. destruct (clip_nth n lo up v k x H1 H2 Hv Hk) as (y & E & Ey). exists y. split; [easy|].
  destruct (clip1_spec (at_or lo k) (at_or up k) x) as (C1 & C2 & C3); [intros a b; now apply ordered_nth|].
  split; [|split].
  - destruct (at_or lo k); cbn [ge_opt] in *; [now rewrite Ey|easy].
  - destruct (at_or up k); cbn [le_opt] in *; [now rewrite Ey|easy].
  - intros z Z1 Z2. rewrite Ey. now apply C3.
Qed.
Print Assumptions C34_clipping_nearest.

(** Bouncing: inside, nothing moves; a coordinate below its lower bound is reflected, and
    clipped if it overshoots the upper bound; and symmetrically. *)
Theorem C34_bouncing_reflects : forall n lo up v k x,
  opt_length n lo -> opt_length n up -> ordered_bounds lo up -> length v = n -> nth_error v k = Some x ->
  exists y, nth_error (clip_forward true lo up v) k = Some y /\
    (ge_opt (at_or lo k) x -> le_opt (at_or up k) x -> y == x)%Q /\
    (forall a, at_or lo k = Some a -> x < a -> le_opt (at_or up k) (a + (a - x)) -> y == a + (a - x))%Q /\
    (forall a b, at_or lo k = Some a -> at_or up k = Some b -> x < a -> b < a + (a - x) -> y == b)%Q /\
    (forall b, at_or up k = Some b -> b < x -> ge_opt (at_or lo k) (b - (x - b)) -> y == b - (x - b))%Q /\
    (forall a b, at_or lo k = Some a -> at_or up k = Some b -> b < x -> b - (x - b) < a -> y == a)%Q.
Proof.
  intros n lo up v k x H1 H2 Ho Hv Hk. destruct (bounce_nth n lo up v k x H1 H2 Hv Hk) as (y & E & Ey). exists y. split; [easy|].
  assert (Hab : forall a b, at_or lo k = Some a -> at_or up k = Some b -> (a < b)%Q) by (intros a b; now apply ordered_nth).
  assert (Below : forall a, at_or lo k = Some a -> (x < a)%Q -> (clip1 (at_or lo k) (at_or up k) x == a)%Q).
  { intros a Ea Hx. unfold clip1. rewrite Ea. destruct (at_or up k) as [b|].
    - specialize (Hab a b Ea eq_refl). destruct (qmin_cases (qmax x a) b) as [[Q1 Q2]|[Q1 Q2]], (qmax_cases x a) as [[Q3 Q4]|[Q3 Q4]]; rewrite Q1 in *; rewrite ?Q3 in *; lra.
    - destruct (qmax_cases x a) as [[Q3 Q4]|[Q3 Q4]]; rewrite ?Q3 in *; lra. }
  assert (Above : forall b, at_or up k = Some b -> (b < x)%Q -> (clip1 (at_or lo k) (at_or up k) x == b)%Q).
  { intros b Eb Hx. unfold clip1. rewrite Eb. destruct (at_or lo k) as [a|].
    - specialize (Hab a b eq_refl Eb). destruct (qmin_cases (qmax x a) b) as [[Q1 Q2]|[Q1 Q2]], (qmax_cases x a) as [[Q3 Q4]|[Q3 Q4]]; rewrite Q1 in *; rewrite ?Q3 in *; lra.
    - destruct (qmin_cases x b) as [[Q3 Q4]|[Q3 Q4]]; rewrite ?Q3 in *; lra. }
  assert (Pr : forall u w, (u == w)%Q -> (clip1 (at_or lo k) (at_or up k) u == clip1 (at_or lo k) (at_or up k) w)%Q).
  { intros u w Huw. unfold clip1. destruct (at_or lo k), (at_or up k); auto using qmin_proper, qmax_proper, Qeq_refl. }
  repeat split.
  - intros G1 G2. rewrite Ey. rewrite (Pr _ x); [now apply clip1_inside|]. rewrite (clip1_inside _ _ x G1 G2). ring.
  - intros a Ea Hx G2. rewrite Ey. rewrite (Pr _ (a + (a - x))%Q); [|rewrite (Below a Ea Hx); ring].
    apply clip1_inside; [|easy]. rewrite Ea. cbn. lra.
  - intros a b Ea Eb Hx G2. rewrite Ey. rewrite (Pr _ (a + (a - x))%Q); [|rewrite (Below a Ea Hx); ring].
    unfold clip1. rewrite Ea, Eb. specialize (Hab a b Ea Eb).
    destruct (qmin_cases (qmax (a + (a - x)) a) b) as [[Q1 Q2]|[Q1 Q2]], (qmax_cases (a + (a - x)) a) as [[Q3 Q4]|[Q3 Q4]]; rewrite Q1 in *; rewrite ?Q3 in *; lra.
  - intros b Eb Hx G2. rewrite Ey. rewrite (Pr _ (b - (x - b))%Q); [|rewrite (Above b Eb Hx); ring].
    apply clip1_inside; [easy|]. rewrite Eb. cbn. lra.
  - intros a b Ea Eb Hx G2. rewrite Ey. rewrite (Pr _ (b - (x - b))%Q); [|rewrite (Above b Eb Hx); ring].
    unfold clip1. rewrite Ea, Eb. specialize (Hab a b Ea Eb).
    destruct (qmin_cases (qmax (b - (x - b)) a) b) as [[Q1 Q2]|[Q1 Q2]], (qmax_cases (b - (x - b)) a) as [[Q3 Q4]|[Q3 Q4]]; rewrite Q1 in *; rewrite ?Q3 in *; lra.
Qed.
Print Assumptions C34_bouncing_reflects.

(** The image is always within the bounds, and is a fixed point. *)
Theorem C34_transform_idempotent : forall n bounce lo up v,
  opt_length n lo -> opt_length n up -> ordered_bounds lo up -> length v = n ->
  within lo up (clip_forward bounce lo up v) /\
  clip_forward bounce lo up (clip_forward bounce lo up v) = clip_forward bounce lo up v.
Proof.
  intros n bo lo up v H1 H2 Ho Hv. assert (W := clip_forward_within n bo lo up v H1 H2 Ho Hv). split; [easy|].
  unfold clip_forward at 1. rewrite (proj2 (checker_within n lo up _ H1 H2 (clip_forward_length n bo lo up v H1 H2 Hv)) W). reflexivity.
Qed.
Print Assumptions C34_transform_idempotent.

(** A value of the right size can be set on an unfrozen bounded parameter exactly when it
    is within the bounds; a refused value changes nothing. *)
Theorem C34_set_accepts_exactly_in_bounds : forall n c a bounce lo up st x ops y,
  arrays a -> stack_ok n c (a ++ LBound bounce lo up :: st) -> init_ok n (c :: a ++ LBound bounce lo up :: st) x ->
  let d := ld_run ops (ld_new (c :: a ++ LBound bounce lo up :: st) x) in
  length (coords y) = n -> y = VArr (coords y) \/ y = VNum (nth 0 (coords y) 0%Q) -> (c = LScalar <-> exists q, y = VNum q) ->
  (snd (value_set y d) = Ok tt <-> rt_frozen (ld_root d) = false /\ within lo up (coords y)) /\
  (snd (value_set y d) <> Ok tt -> ld_root (fst (value_set y d)) = ld_root d).
Proof.
  intros n c a bounce lo up st x ops y Harr Hok Hi d Hy Hshape Hsc.
  assert (Hinv : ld_inv n c (a ++ LBound bounce lo up :: st) d) by (apply run_inv; auto; now apply new_inv).
  destruct (stack_arr n c a _ Harr Hok) as (Hc & Hg & Hall). cbn in Hg.
  assert (Hm : ~ (exists m, In (LModulo m) (a ++ LBound bounce lo up :: st))).
  { intros [m H]. apply in_app_iff in H. destruct H as [H|[H|H]]; [now apply (not_arr a Harr (LModulo m)) in H|discriminate|].
    unfold invertible in Hg. eapply Forall_forall in Hg; [|exact H]. exact Hg. }
  assert (Hu : uncast c y = Some (coords y)).
  { unfold uncast. destruct Hshape as [E|E]; rewrite E in *; cbn [coords] in *.
    - destruct Hc as [-> | ->]; [easy|]. destruct (proj1 Hsc eq_refl) as [q Hq]. discriminate.
    - rewrite (proj2 Hsc); [easy|eauto]. }
  assert (Acc : forall st' z, invertible st' -> accepts st' z).
  { intros st' z HF. revert z. induction HF as [|l st' H1 HF IH]; intros z; cbn; [easy|]. destruct l; cbn in H1; try easy; apply IH. }
  split.
  - rewrite (set_ok_iff n c _ Hok (coords y) y d Hinv Hm Hu Hy), accepts_arr by easy. cbn [accepts]. split; [tauto|]. intros [Hf Hw]. repeat split; auto; apply Hw.
  - destruct (value_set y d) as [d' u] eqn:E. cbn. intros Hne. destruct (set_inv n c _ Hok y d d' u Hinv E) as (_ & _ & He & _).
    destruct u as [[]|e]; [easy|]. now apply (He e).
Qed.
Print Assumptions C34_set_accepts_exactly_in_bounds.

(** Setting bounds on an unbounded parameter fails when the current value is out of
    them; when it succeeds the value stays the same, and the parameter is a bounded one
    to which the theorems above apply. *)
Theorem C34_set_bounds : forall n c a st x ops bounce lo up d' v0 d0,
  arrays a -> stack_ok n c (a ++ st) -> invertible st -> ~ In LArray st -> init_ok n (c :: a ++ st) x ->
  opt_length n lo -> opt_length n up ->
  let d := ld_run ops (ld_new (c :: a ++ st) x) in
  value_get d = (d0, Ok v0) ->
  set_bounds bounce lo up d = (d', Ok tt) ->
  ordered_bounds lo up /\ within lo up (coords v0) /\
  stack_ok n c (a ++ LBound bounce lo up :: st) /\ ld_stack d' = c :: a ++ LBound bounce lo up :: st /\
  init_ok n (c :: a ++ LBound bounce lo up :: st) (rt_value (ld_root d')) /\
  exists d'' v, value_get d' = (d'', Ok v) /\ veq (coords v) (coords v0).
Proof.
  intros n c a st x ops bounce lo up d' v0 d0 Harr Hok Hinvst Hna Hi L1 L2 d E0 E.
  assert (Hinv : ld_inv n c (a ++ st) d) by (apply run_inv; auto; now apply new_inv).
  destruct (read_inv n c _ Hok d Hinv) as (d1 & v1 & E1 & Hv1 & Hi1 & Hr1).
  rewrite E0 in E1. injection E1 as <- <-. unfold set_bounds in E. rewrite E0 in E.
  destruct (opt_ordered lo up) eqn:Eo; [|discriminate].
  assert (Ho : ordered_bounds lo up).
  { destruct lo as [lo|], up as [up|]; cbn in *; auto. assert (El : length lo = length up) by congruence. clear -Eo El. revert up Eo El.
    induction lo as [|q lo IH]; intros [|b up] Eo El; try discriminate; [constructor|]. cbn in Eo. apply andb_prop in Eo. destruct Eo as [A B].
    constructor; [now apply qlt_iff in A|]. apply IH; auto. }
  destruct (stack_arr n c a _ Harr Hok) as (Hc & Hg & Hst).
  assert (Hok2 : stack_ok n c (a ++ LBound bounce lo up :: st)).
  { split; [easy|]. split; [rewrite good_arr by easy; exact Hinvst|]. constructor; [exact (Forall_inv (proj2 (proj2 Hok)))|].
    apply arr_ok; [easy|]. constructor; [cbn; auto|easy]. }
  pose proof Hi1 as (S1 & S2 & S3 & S4).
  assert (Estack : add_op (LBound bounce lo up) (c :: a ++ st) = c :: a ++ LBound bounce lo up :: st).
  { assert (A1 : add_op (LBound bounce lo up) st = LBound bounce lo up :: st).
    { destruct st as [|l st']; [reflexivity|]. pose proof (Forall_inv Hinvst) as Hl.
      destruct l; cbn in Hl; try contradiction; try reflexivity; exfalso; apply Hna; now left. }
    assert (A2 : add_op (LBound bounce lo up) (a ++ st) = a ++ LBound bounce lo up :: st).
    { clear - Harr A1. induction Harr as [|l a' -> H IH]; [exact A1|]. cbn. now rewrite IH. }
    destruct Hc as [-> | ->]; cbn; now rewrite A2. }
  rewrite S1, Estack in E.
  set (st2 := a ++ LBound bounce lo up :: st) in *.
  set (dd := LData (c :: st2) (map (fun _ => None) (c :: st2)) (ld_root d0)) in E.
  destruct (data_bounds_length n _ (proj2 (proj2 Hok2))) as [B1 B2].
  pose proof (read_shape n c _ Hok d d0 v0 Hinv E0) as Hu.
  set (b := data_bounds (rev (c :: st2))) in *.
  assert (Hv0 : length (coords v0) = n).
  { rewrite (veq_length _ _ Hv1). destruct (data_bounds_length n _ (proj2 (proj2 Hok))) as [B3 B4]. apply den_length; auto; [exact (Forall_inv_tail (proj2 (proj2 Hok)))|apply Hinv]. }
  assert (K : value_set v0 dd = (let '(cs2, r2, u) := lset b st2 (map (fun _ => None) st2) (VArr (coords v0)) (ld_root d0) in (LData (c :: st2) (None :: cs2) r2, u))).
  { unfold value_set, value_del, ld_bounds, dd, uncast in *. cbn [ld_stack ld_caches ld_root map]. fold b.
    destruct Hc as [Hc|Hc]; rewrite Hc in Hu |- *; cbn [lset hd tl]; destruct v0; try discriminate; cbn [coords];
      now destruct (lset b st2 _ _ _) as [[? ?] ?]. }
  rewrite K in E. clear K.
  destruct (lset b st2 _ _ _) as [[cs2 r2] u2] eqn:El. injection E as Ed' Eu. subst u2.
  assert (Hm : ~ (exists m, In (LModulo m) st2)).
  { intros [m H]. apply in_app_iff in H. destruct H as [H|[H|H]]; [now apply (not_arr a Harr (LModulo m)) in H|discriminate|].
    unfold invertible in Hinvst. eapply Forall_forall in Hinvst; [|exact H]. exact Hinvst. }
  assert (Hst2 : good st2 /\ Forall (lop_ok n) st2).
  { split; [apply Hok2|]. exact (Forall_inv_tail (proj2 (proj2 Hok2))). }
  assert (X : snd (lset b st2 (map (fun _ => None) st2) (VArr (coords v0)) (ld_root d0)) = Ok tt) by (now rewrite El).
  apply (set_accepted b n st2 (proj1 Hst2) (proj2 Hst2) Hm) in X; auto. destruct X as [Hfz Hac].
  assert (Hw : within lo up (coords v0)) by (unfold st2 in Hac; rewrite accepts_arr in Hac by easy; apply Hac).
  assert (Eck : bound_checker lo up (coords v0) = true) by (now apply (checker_within n)).
  (* the root after the update *)
  assert (R2 : r2 = Root (bwd st (coords v0)) false).
  { assert (G : forall a cs, arrays a -> exists cs', lset b (a ++ LBound bounce lo up :: st) cs (VArr (coords v0)) (ld_root d0) = (cs', Root (bwd st (coords v0)) false, Ok tt)).
    { intros a2 cs Ha2. revert cs. induction Ha2 as [|l a2 -> H IH]; intros cs.
      - cbn [app lset]. rewrite (sized_ok n _ Hv0 _ L1), (sized_ok n _ Hv0 _ L2). cbn [andb]. unfold clip_backward. rewrite Eck.
        destruct (inv_set b n st Hinvst Hst (tl cs) (coords v0) (ld_root d0) Hv0 S2 Hfz) as [cs3 E3]. rewrite E3. eauto.
      - cbn [app lset]. destruct (IH (tl cs)) as [cs3 E3]. rewrite E3. eauto. }
    destruct (G a (map (fun _ => None) st2) Harr) as [cs3 G3]. fold st2 in G3. rewrite G3 in El. now injection El as _ <-. }
  subst r2.
  assert (Hd : veq (den b st (bwd st (coords v0))) (coords v0)) by (now apply (den_bwd b n)).
  assert (Hset : settled b st2 (bwd st (coords v0))).
  { unfold st2. rewrite settled_arr by easy. cbn [settled]. split; [|now apply inv_settled]. now rewrite (checker_proper _ _ _ _ Hd). }
  assert (Hlen : length (bwd st (coords v0)) = n) by (now apply bwd_length).
  split; [easy|]. split; [easy|]. split; [easy|]. rewrite <- Ed'. split; [easy|]. cbn [ld_root rt_value].
  split; [now apply (settled_init n c st2 Hok2)|].
  match goal with |- exists d'' v, value_get ?D = _ /\ _ => assert (Hinv2 : ld_inv n c st2 D) end.
  { split; [reflexivity|]. split; [exact Hlen|]. split; [|exact Hset]. apply noint_cons. intros H.
    apply in_app_iff in H. destruct H as [H|[H|H]]; [now apply (not_arr a Harr LInt) in H|discriminate|].
    unfold invertible in Hinvst. eapply Forall_forall in Hinvst; [|exact H]. exact Hinvst. }
  destruct (read_inv n c st2 Hok2 _ Hinv2) as (d2 & v2 & E2 & Hv2 & _). exists d2, v2. split; [exact E2|].
  eapply veq_trans; [exact Hv2|]. cbn [ld_root rt_value]. unfold st2. rewrite den_arr by easy. cbn [den]. unfold clip_forward.
  fold st2. fold b. rewrite (checker_proper _ _ _ _ Hd), Eck. exact Hd.
Qed.
Print Assumptions C34_set_bounds.

(** Examples: a bounded array below an affine operation, and a bounded scalar. *)
Definition ex_stack : list lop := [LAdd [1; 1]; LMul [2; 3]; LBound true (Some [0; -1]) (Some [1; 1]); LMul [-(1); 5]]%Q.
Example C34_stack_nontrivial : stack_ok 2 LArray ex_stack /\ init_ok 2 (LArray :: ex_stack) [-(1 # 2); 1 # 10]%Q.
Proof.
  repeat split; try (now left); try (repeat constructor; cbn; easy).
Qed.
Example C34_history_nontrivial :
  let d := ld_run [ORaw [5; 7]%Q; OGet; OSet (VArr [100; 0]%Q)] (ld_new (LArray :: ex_stack) [-(1 # 2); 1 # 10]%Q) in
  exists v, snd (value_get d) = Ok (VArr v) /\ veq v [3; -(2)]%Q.
Proof. eexists. split; [vm_compute; reflexivity|]. repeat constructor. Qed.
Example C34_set_bounds_nontrivial :
  snd (set_bounds false (Some [0]) (Some [10]) (ld_new [LScalar; LArray; LMul [2]] [3]))%Q = Ok tt /\
  arrays [LArray] /\ stack_ok 1 LScalar ([LArray] ++ [LMul [2%Q]]) /\ init_ok 1 [LScalar; LArray; LMul [2]]%Q [3]%Q.
Proof.
  repeat split; try (now right); try (repeat constructor; cbn; easy).
Qed.

(** Findings. A failed [set_bounds] leaves the layer: the value is then silently changed
    by the next reading. *)
Theorem C34_failed_set_bounds_changes_the_value_refuted :
  let d := ld_new [LScalar; LArray] [3%Q] in
  let r := set_bounds false (Some [-(1)]) (Some [1])%Q d in
  snd r = Err ValueError /\ snd (value_get d) = Ok (VNum 3) /\ snd (value_get (fst r)) = Ok (VNum 1).
Proof. vm_compute. repeat split. Qed.
Print Assumptions C34_failed_set_bounds_changes_the_value_refuted.

(** Bounds above bounds: reading may raise, when the outer bounce leaves the inner
    bounds. *)
Theorem C34_nested_bounds_can_raise_refuted :
  let d := ld_new [LScalar; LArray; LBound true (Some [9]) (Some [100]); LBound false (Some [0]) (Some [10])]%Q [9%Q] in
  snd (value_get d) = Ok (VNum 9) /\ snd (value_get (fst (raw_set [-(5)]%Q d))) = Err ValueError.
Proof. vm_compute. repeat split. Qed.
Print Assumptions C34_nested_bounds_can_raise_refuted.

(** With a negative multiplier above the bounds, the announced bounds are swapped, and
    the values are not within them. *)
Theorem C34_negative_multiplier_bounds_refuted :
  let d := ld_new [LScalar; LArray; LMul [-(1)]; LBound false (Some [0]) (Some [10])]%Q [3%Q] in
  exists lo up v, ld_bounds d = (Some [lo], Some [up]) /\ (up < lo)%Q /\
    snd (value_get d) = Ok (VNum v) /\ ~ (lo <= v)%Q.
Proof. do 3 eexists. repeat split; try (vm_compute; reflexivity). intros H. vm_compute in H. now apply H. Qed.
Print Assumptions C34_negative_multiplier_bounds_refuted.

(** * C36 stacks of invertible layers *)

(** A value which is accepted is read back, whatever the history before, for any stack of
    additions, products and bounds under a casting. *)
Theorem C36_set_then_get : forall n c st x ops v d',
  stack_ok n c st -> plain st -> init_ok n (c :: st) x ->
  value_set v (ld_run ops (ld_new (c :: st) x)) = (d', Ok tt) ->
  exists d'' w, value_get d' = (d'', Ok w) /\ pv_eq w v.
Proof.
  intros n c st x ops v d' Hok Hp Hi E.
  assert (Hinv : ld_inv n c st (ld_run ops (ld_new (c :: st) x))) by (apply run_inv; auto; now apply new_inv).
  destruct (set_inv n c st Hok _ _ _ _ Hinv E) as (I1 & _ & _ & V & _). destruct (V eq_refl) as (y & Hu & Hy & Hd).
  destruct (read_inv n c st Hok d' I1) as (d'' & w & E2 & Hw & _). exists d'', w. split; [easy|].
  pose proof (read_shape n c st Hok d' d'' w I1 E2) as Hs.
  assert (Hc : veq (coords w) y).
  { eapply veq_trans; [exact Hw|]. eapply veq_trans; [exact Hd|]. apply (eff_plain _ n); auto. apply (Forall_inv_tail (proj2 (proj2 Hok))). }
  unfold uncast in Hs, Hu. destruct (proj1 Hok) as [-> | ->]; destruct v, w; try discriminate; injection Hu as <-; cbn in *; [easy|].
  now inversion Hc.
Qed.
Print Assumptions C36_set_then_get.

(** Setting the value which was read changes nothing observable. *)
Theorem C36_get_then_set : forall n c st x ops d1 v d2 u,
  stack_ok n c st -> plain st -> init_ok n (c :: st) x ->
  let d := ld_run ops (ld_new (c :: st) x) in
  value_get d = (d1, Ok v) -> value_set v d1 = (d2, u) ->
  exists d3 w, value_get d2 = (d3, Ok w) /\ veq (coords w) (coords v).
Proof.
  intros n c st x ops d1 v d2 u Hok Hp Hi d E1 E2.
  assert (Hinv : ld_inv n c st d) by (apply run_inv; auto; now apply new_inv).
  destruct (read_inv n c st Hok d Hinv) as (d1' & v' & E & Hv & I1 & R1). rewrite E1 in E. injection E as <- <-.
  destruct (set_inv n c st Hok _ _ _ _ I1 E2) as (I2 & _ & He & V & _).
  destruct (read_inv n c st Hok d2 I2) as (d3 & w & E3 & Hw & _). exists d3, w. split; [easy|].
  destruct u as [[]|e].
  - destruct (V eq_refl) as (y & Hu & Hy & Hd). pose proof (read_shape n c st Hok d d1 v Hinv E1) as Hs.
    rewrite Hs in Hu. injection Hu as <-. eapply veq_trans; [exact Hw|]. eapply veq_trans; [exact Hd|].
    apply (eff_plain _ n); auto. apply (Forall_inv_tail (proj2 (proj2 Hok))).
  - rewrite (He e eq_refl), R1 in Hw. eapply veq_trans; [exact Hw|now apply veq_sym].
Qed.
Print Assumptions C36_get_then_set.

(** The two transforms undo each other. *)
Theorem C36_affine_inverse : forall a b v,
  length a = length v -> length b = length v -> Forall (fun x => ~ x == 0)%Q a ->
  let forward x := map2 Qplus b (map2 Qmult a x) in      (* transforms.py:83-84 [Affine] *)
  let backward y := map2 Qdiv (map2 Qminus y b) a in
  veq (backward (forward v)) v /\ veq (forward (backward v)) v.
Proof.
  intros a b v Ha Hb Hne forward backward. unfold forward, backward. split.
  - eapply veq_trans; [apply map2_veq; [|apply (add_sub b); rewrite map2_length; congruence|apply veq_refl]|].
    + intros x x' y y' Hx Hy. now rewrite Hx, Hy.
    + apply mul_div; [easy|congruence].
  - eapply veq_trans; [apply map2_veq; [|apply veq_refl|apply (div_mul a Hne); rewrite map2_length; congruence]|].
    + intros x x' y y' Hx Hy. now rewrite Hx, Hy.
    + apply sub_add. congruence.
Qed.
Print Assumptions C36_affine_inverse.

Example C36_nontrivial : snd (value_set (VArr [2; -(1)]%Q) (ld_new (LArray :: ex_stack) [-(1 # 2); 1 # 10]%Q)) = Ok tt /\ plain ex_stack.
Proof. split; [reflexivity|repeat constructor]. Qed.

(** * C37 integers *)

(** The value read from an integer parameter: each coordinate is an integer; if its bounds
    contain an integer, it is within them (up to the 1e-12 of the code) and no integer in
    the bounds is nearer to the number [q] read without the casting (the even one is taken among
    two nearest ones). It stays so under
    any history: the cached integers are never stale. *)
Theorem C37_integer_nearest : forall n c a st x ops,
  arrays a -> stack_ok n c (a ++ LInt :: st) -> ~ In LInt st -> init_ok n (c :: a ++ LInt :: st) x ->
  let d := ld_run ops (ld_new (c :: a ++ LInt :: st) x) in
  exists d' v dr w, value_get d = (d', Ok v) /\ ld_root d' = ld_root d /\
    value_get (LData (LArray :: st) (map (fun _ => None) (LArray :: st)) (ld_root d)) = (dr, Ok (VArr w)) /\
    length w = n /\ length (coords v) = n /\
    forall k q, nth_error w k = Some q ->
      exists z r, nth_error (coords v) k = Some r /\ (r == inject_Z z)%Q /\
        let lo := at_or (fst (ld_bounds d)) k in let up := at_or (snd (ld_bounds d)) k in
        (exists k0, ge_opt lo (inject_Z k0) /\ le_opt up (inject_Z k0)) ->
        ge_opt (option_map (fun b => b - int_eps)%Q lo) (inject_Z z) /\
        le_opt (option_map (fun b => b + int_eps)%Q up) (inject_Z z) /\
        forall k', ge_opt lo (inject_Z k') -> le_opt up (inject_Z k') -> (Qabs (q - inject_Z z) <= Qabs (q - inject_Z k'))%Q /\
          (k' <> z -> (Qabs (q - inject_Z k') == Qabs (q - inject_Z z))%Q -> Z.even z = true).
Proof.
  intros n c a st x ops Harr Hok Hn Hi d.
  assert (Hinv : ld_inv n c (a ++ LInt :: st) d) by (apply run_inv; auto; now apply new_inv).
  destruct (read_inv n c _ Hok d Hinv) as (d' & v & E & Hv & _ & Hr).
  destruct (stack_arr n c a _ Harr Hok) as (Hc & Hg & Hall). pose proof Hinv as (S1 & S2 & _ & S4). cbn [good] in Hg.
  rewrite settled_arr in S4 by easy. rewrite den_arr in Hv by easy. cbn [settled] in S4.
  set (b := data_bounds (rev (c :: a ++ LInt :: st))) in *.
  assert (Hst : Forall (lop_ok n) st) by (apply (Forall_inv_tail Hall)).
  assert (Hok2 : stack_ok n LArray st). { split; [now left|]. split; [easy|]. now constructor. }
  set (b' := data_bounds (rev (LArray :: st))) in *.
  set (dd := LData (LArray :: st) (map (fun _ => None) (LArray :: st)) (ld_root d)).
  assert (Hinv2 : ld_inv n LArray st dd).
  { split; [reflexivity|]. split; [exact S2|]. split; [apply noint_cons; exact Hn|]. exact (settled_noint_indep b b' st Hn _ S4). }
  destruct (read_inv n LArray st Hok2 dd Hinv2) as (dr & w & E2 & Hw & _ & _).
  pose proof (read_shape n LArray st Hok2 dd dr w Hinv2 E2) as Hsh. cbn in Hsh. destruct w as [w|q|k]; try discriminate. cbn [coords] in *.
  exists d', v, dr, w. cbn [dd ld_root] in Hw. fold b' in Hw. rewrite (den_noint_indep b' b st Hn) in Hw.
  destruct (data_bounds_length n _ (proj2 (proj2 Hok))) as [B1 B2]. fold b in B1, B2.
  assert (Hld : length (den b st (rt_value (ld_root d))) = n) by (now apply den_length).
  assert (Hlw : length w = n) by (now rewrite (veq_length _ _ Hw)).
  assert (Hlv : length (coords v) = n).
  { rewrite (veq_length _ _ Hv). cbn [den]. rewrite map_length. now apply int_round_length. }
  repeat split; auto. intros k q Hk.
  assert (Hir : int_round b w = int_round b (den b st (rt_value (ld_root d)))) by (now apply int_round_proper).
  cbn [den] in Hv. fold b in Hv. rewrite <- Hir in Hv.
  assert (Hz : nth_error (map inject_Z (int_round b w)) k = Some (inject_Z (int_round1 (at_or (fst b) k) (at_or (snd b) k) q))).
  { rewrite nth_error_map, (int_round_nth n b w k q B1 B2 Hlw Hk). reflexivity. }
  destruct (veq_nth _ _ _ _ Hv Hz) as (r & Hr1 & Hr2).
  exists (int_round1 (at_or (fst b) k) (at_or (snd b) k) q), r. split; [easy|]. split; [easy|].
  unfold ld_bounds. rewrite S1. fold b. cbn zeta. intros (k0 & K1 & K2).
  destruct (int_round1_spec _ _ q k0 K1 K2) as (A & B & C). split; [exact A|]. split; [exact B|].
  intros k' K1' K2'. split; [now apply C|]. now apply int_round1_tie.
Qed.
Print Assumptions C37_integer_nearest.

(** Between integer bounds, exactly within them. *)
Theorem C37_integer_bounds_exact : forall lo up x z, (lo <= up)%Z ->
  int_round (Some [inject_Z lo], Some [inject_Z up]) [x] = [z] ->
  (lo <= z <= up)%Z /\ forall k, (lo <= k <= up)%Z -> (Qabs (x - inject_Z z) <= Qabs (x - inject_Z k))%Q.
Proof.
  intros lo up x z Hlu E. change ([int_round1 (Some (inject_Z lo)) (Some (inject_Z up)) x] = [z]) in E.
  assert (Ez : int_round1 (Some (inject_Z lo)) (Some (inject_Z up)) x = z) by (now injection E). clear E.
  destruct (int_round1_spec (Some (inject_Z lo)) (Some (inject_Z up)) x lo) as (H1 & H2 & H3); cbn [ge_opt le_opt].
  { apply Qle_refl. } { rewrite <- Zle_Qle. exact Hlu. }
  rewrite Ez in *. cbn [ge_opt le_opt option_map] in *.
  assert (He : (int_eps < 1)%Q) by reflexivity. split.
  - split; apply Zle_of_lt; lra.
  - intros k [K1 K2]. apply H3; rewrite <- Zle_Qle; lia.
Qed.
Print Assumptions C37_integer_bounds_exact.

Example C37_nontrivial :
  stack_ok 1 LScalar ([LArray] ++ [LInt; LBound false (Some [0]) (Some [10])])%Q /\ init_ok 1 [LScalar; LArray; LInt; LBound false (Some [0]) (Some [10])]%Q [4%Q] /\
  snd (value_get (ld_run [ORaw [17 # 2]; OGet; OFreeze] (ld_new [LScalar; LArray; LInt; LBound false (Some [0]) (Some [10])] [4])))%Q = Ok (VNum 8).
Proof. repeat split; try (now right); try (repeat constructor; cbn; easy). Qed.

(** Findings. Bounds without an integer between them: the value is out of bounds. *)
Theorem C37_no_integer_in_bounds_refuted :
  let d := ld_new [LScalar; LArray; LInt; LBound false (Some [1 # 5]) (Some [4 # 5])]%Q [1 # 2]%Q in
  exists v, snd (value_get d) = Ok (VNum v) /\ ~ (1 # 5 <= v)%Q.
Proof. eexists. split; [vm_compute; reflexivity|]. intros H. vm_compute in H. now apply H. Qed.
Print Assumptions C37_no_integer_in_bounds_refuted.

(** The opposite of a bounded integer parameter: whatever its raw value the value read is
    -10, as the bounds are swapped. *)
Theorem C37_negated_integer_is_constant_refuted : forall x,
  snd (value_get (ld_new [LScalar; LArray; LInt; LMul [-(1)]; LBound false (Some [0]) (Some [10])]%Q [x])) = Ok (VNum (-(10))).
Proof.
  intros x. unfold value_get, ld_new, ld_bounds. cbn [ld_stack ld_caches ld_root map rev app].
  change (data_bounds _) with ((Some [-(1) * 0]%Q, Some [-(1) * 10]%Q) : bounds_t).
  cbn [lget hd tl rt_value]. destruct (bound_checker _ _ [x]).
  - cbn [bind on_array map2 int_round fst snd map]. set (z := round_half_even (-(1) * x)%Q).
    change (round_half_even (-(1) * 0 + (1 # 2) - int_eps)%Q) with 0%Z.
    change (round_half_even (-(1) * 10 - (1 # 2) + int_eps)%Q) with (-10)%Z.
    cbn [snd]. replace (Z.min (-10) (Z.max 0 z)) with (-10)%Z by lia. reflexivity.
  - destruct (clip_forward false (Some [0%Q]) (Some [10%Q]) [x]) as [|y [|y' l]] eqn:Ec.
    + exfalso. apply (f_equal (@length Q)) in Ec. rewrite (clip_forward_length 1) in Ec; easy.
    + cbn [lset root_set rt_frozen length Nat.eqb rt_value bind on_array map2 int_round fst snd map]. set (z := round_half_even (-(1) * y)%Q).
      change (round_half_even (-(1) * 0 + (1 # 2) - int_eps)%Q) with 0%Z.
      change (round_half_even (-(1) * 10 - (1 # 2) + int_eps)%Q) with (-10)%Z.
      cbn [snd]. replace (Z.min (-10) (Z.max 0 z)) with (-10)%Z by lia. reflexivity.
    + exfalso. apply (f_equal (@length Q)) in Ec. rewrite (clip_forward_length 1) in Ec; easy.
Qed.
Print Assumptions C37_negated_integer_is_constant_refuted.

(** * C38 modulo *)

Theorem C38_modulo : forall n c ar m st x ops,
  arrays ar -> stack_ok n c (ar ++ LModulo m :: st) -> init_ok n (c :: ar ++ LModulo m :: st) x ->
  let d := ld_run ops (ld_new (c :: ar ++ LModulo m :: st) x) in
  (* reading gives numbers in [0, m) *)
  (exists d' v, value_get d = (d', Ok v) /\ Forall2 (fun a b => 0 <= a /\ a < b)%Q (coords v) m) /\
  (* an accepted value is read back, the module itself as 0 *)
  (forall v d', value_set v d = (d', Ok tt) ->
     length (coords v) = n /\
     exists d'' w, value_get d' = (d'', Ok w) /\
       forall k a b, nth_error (coords v) k = Some a -> nth_error m k = Some b ->
         (0 <= a /\ a <= b)%Q /\ exists r, nth_error (coords w) k = Some r /\ (a < b -> r == a)%Q /\ (a == b -> r == 0)%Q).
Proof.
  intros n c ar m st x ops Harr Hok Hi d.
  assert (Hinv : ld_inv n c (ar ++ LModulo m :: st) d) by (apply run_inv; auto; now apply new_inv).
  destruct (stack_arr n c ar _ Harr Hok) as (Hc & Hg & Hall). pose proof (Forall_inv Hall) as [M1 M2].
  pose proof (Forall_inv_tail Hall) as Hst.
  destruct (data_bounds_length n _ (proj2 (proj2 Hok))) as [B1 B2]. set (bb := data_bounds (rev (c :: ar ++ LModulo m :: st))) in *. split.
  - destruct (read_inv n c _ Hok d Hinv) as (d' & v & E & Hv & _ & _). exists d', v. split; [easy|].
    assert (R : Forall2 (fun a b => 0 <= a /\ a < b)%Q (map2 qmod (den (bb) st (rt_value (ld_root d))) m) m).
    { apply mod_range; [easy|]. rewrite M1. apply den_length; auto. apply Hinv. }
    fold bb in Hv. rewrite den_arr in Hv by easy. cbn [den] in Hv. revert R Hv. generalize (map2 qmod (den (bb) st (rt_value (ld_root d))) m) (coords v).
    clear. intros l l' R. revert l'. induction R as [|a b l m Ha R IH]; intros l' Hv; inversion Hv; subst; constructor; auto.
    split; lra.
  - intros v d' E. destruct (set_inv n c _ Hok v d d' _ Hinv E) as (I1 & _ & _ & V & _).
    destruct (V eq_refl) as (y & Hu & Hy & Hd).
    assert (Hyv : coords v = y). { unfold uncast in Hu. destruct Hc as [-> | ->]; destruct v; try discriminate; now injection Hu as <-. }
    rewrite Hyv. split; [easy|].
    destruct (read_inv n c _ Hok d' I1) as (d'' & w & E2 & Hw & _). exists d'', w. split; [easy|]. intros k a b Ha Hb.
    assert (Hrange : within (Some (map (fun _ => 0%Q) m)) (Some m) y).
    { apply (checker_within n); auto; [cbn; now rewrite map_length|].
      pose proof Hinv as (S1 & _). unfold value_set, value_del, ld_bounds in E. cbn [ld_stack ld_caches ld_root] in E. rewrite S1 in E. cbn [map] in E.
      fold bb in E.
      assert (G : forall ar cs, arrays ar -> snd (lset bb (ar ++ LModulo m :: st) cs (VArr y) (ld_root d)) = Ok tt ->
        bound_checker (Some (map (fun _ => 0%Q) m)) (Some m) y = true).
      { intros a2 cs Ha2. revert cs. induction Ha2 as [|l a2 -> H IH]; intros cs; cbn [app lset].
        - destruct (sized _ _ && _) eqn:Es; [|discriminate]. intros _. apply andb_prop in Es. apply Es.
        - intros E'. apply (IH (tl cs)). destruct (lset _ _ (tl cs) _ _) as [[? ?] ?]. exact E'. }
      apply (G ar (map (fun _ => None) (ar ++ LModulo m :: st)) Harr). unfold uncast in Hu.
      destruct Hc as [Hc|Hc]; rewrite Hc in Hu, E; destruct v; try discriminate; injection Hu as <-; cbn [lset hd tl] in E;
        destruct (lset _ (ar ++ LModulo m :: st) _ _ _) as [[? ?] ?]; injection E as _ E; exact E. }
    assert (Hk : nth_error (map2 qmod y m) k = Some (qmod a b)) by (now rewrite nth_error_map2, Ha, Hb).
    assert (Hwm : veq (coords w) (map2 qmod y m)).
    { eapply veq_trans; [exact Hw|]. eapply veq_trans; [exact Hd|]. rewrite eff_arr by easy. apply veq_refl. }
    destruct (veq_nth _ _ _ _ Hwm Hk) as (r & Hr & Hrq).
    destruct (within_nth n (Some (map (fun _ => 0%Q) m)) (Some m) y k a (eq_trans (map_length _ m) M1) M1 Hy Hrange Ha) as [W1 W2].
    cbn [at_or] in W1, W2. rewrite nth_error_map, Hb in W1. rewrite Hb in W2. cbn in W1, W2.
    assert (Hbpos : (0 < b)%Q) by (eapply Forall_forall in M2; [exact M2|eapply nth_error_In; exact Hb]).
    split; [easy|]. exists r. split; [easy|].
    destruct (qmod_range a b Hbpos) as [Q1 Q2].
    assert (Em : (qmod a b == a - b * inject_Z (Qfloor (a / b)))%Q) by reflexivity.
    split; intros Hab; rewrite Hrq.
    + rewrite Em. replace (Qfloor (a / b)) with 0%Z; [change (inject_Z 0) with 0%Q; ring|].
      symmetry. 
      assert (0 <= a / b)%Q by (apply Qle_shift_div_l; lra). assert (a / b < 1)%Q by (apply Qlt_shift_div_r; lra).
      pose proof (Qfloor_le (a / b)). pose proof (Qlt_floor (a / b)). rewrite inject_Z_plus in *. change (inject_Z 1) with 1%Q in *.
      apply Z.le_antisymm; apply Zle_of_lt; change (inject_Z 0) with 0%Q; lra.
    + rewrite Em. assert (Ef : (a / b == inject_Z 1)%Q) by (rewrite Hab; change (inject_Z 1) with 1%Q; field; lra).
      rewrite (Qfloor_comp _ _ Ef), Qfloor_Z. change (inject_Z 1) with 1%Q. rewrite Hab. ring.
Qed.
Print Assumptions C38_modulo.

(** The underlying array moves by at most the module. *)
Theorem C38_set_moves_little : forall n c ar m x ops v d' k a a' b,
  arrays ar -> stack_ok n c (ar ++ [LModulo m]) -> init_ok n (c :: ar ++ [LModulo m]) x ->
  let d := ld_run ops (ld_new (c :: ar ++ [LModulo m]) x) in
  value_set v d = (d', Ok tt) ->
  nth_error (rt_value (ld_root d)) k = Some a -> nth_error (rt_value (ld_root d')) k = Some a' -> nth_error m k = Some b ->
  (Qabs (a' - a) <= b)%Q.
Proof.
  intros n c ar m x ops v d' k a a' b Harr Hok Hi d E Ha Ha' Hb.
  assert (Hinv : ld_inv n c (ar ++ [LModulo m]) d) by (apply run_inv; auto; now apply new_inv).
  destruct (stack_arr n c ar _ Harr Hok) as (Hc & Hg & Hall). pose proof (Forall_inv Hall) as [M1 M2].
  pose proof Hinv as (S1 & S2 & _).
  unfold value_set, value_del, ld_bounds in E. cbn [ld_stack ld_caches ld_root] in E. rewrite S1 in E. cbn [map] in E.
  set (bb := data_bounds (rev (c :: ar ++ [LModulo m]))) in *.
  assert (G : forall ar cs y cs' r', arrays ar -> lset bb (ar ++ [LModulo m]) cs (VArr y) (ld_root d) = (cs', r', Ok tt) ->
     bound_checker (Some (map (fun _ => 0%Q) m)) (Some m) y = true /\ length y = n /\
     root_set (VArr (map2 Qplus (map2 Qminus (rt_value (ld_root d)) (map2 qmod (rt_value (ld_root d)) m)) y)) (ld_root d) = (r', Ok tt)).
  { clear E. intros a2 cs y cs' r' Ha2. revert cs cs' r'. induction Ha2 as [|l a2 -> H IH]; intros cs cs' r' E.
    - cbn [app lset lget hd tl] in E. destruct (sized (length m) (VArr y) && _) eqn:Es; [|discriminate].
      apply andb_prop in Es. destruct Es as [Es1 Es2]. apply Nat.eqb_eq in Es1. split; [easy|]. split; [congruence|].
      destruct (root_set _ _) as [r u]. now injection E as _ <- ->.
    - cbn [app lset] in E. destruct (lset bb (a2 ++ [LModulo m]) (tl cs) _ _) as [[? ?] ?] eqn:E2. injection E as _ <- ->. exact (IH _ _ _ E2). }
  assert (K : exists y, bound_checker (Some (map (fun _ => 0%Q) m)) (Some m) y = true /\ length y = n /\
     root_set (VArr (map2 Qplus (map2 Qminus (rt_value (ld_root d)) (map2 qmod (rt_value (ld_root d)) m)) y)) (ld_root d) = (ld_root d', Ok tt)).
  { destruct Hc as [Hc|Hc]; rewrite Hc in E; cbn [lset hd tl] in E; destruct v as [y|q|]; try discriminate;
      destruct (lset bb (ar ++ [LModulo m]) _ _ _) as [[? ?] ?] eqn:E2; injection E as E ->; subst d'; cbn [ld_root];
      eexists; exact (G _ _ _ _ _ Harr E2). }
  destruct K as (y & Ky & Ly & KE). unfold root_set in KE. destruct (rt_frozen (ld_root d)); [discriminate|].
  destruct (_ =? _)%nat; [|discriminate]. injection KE as KE. rewrite <- KE in Ha'. cbn [rt_value] in Ha'.
  assert (Hk : (k < n)%nat). { rewrite <- M1. apply nth_error_Some. congruence. }
  destruct (nth_error y k) as [yk|] eqn:Eyk; [|apply nth_error_None in Eyk; lia].
  rewrite !nth_error_map2, Ha, Hb, Eyk in Ha'. injection Ha' as <-.
  assert (Hbpos : (0 < b)%Q) by (eapply Forall_forall in M2; [exact M2|eapply nth_error_In; exact Hb]).
  apply (checker_within n) in Ky; auto; [|cbn; now rewrite map_length].
  destruct (within_nth n (Some (map (fun _ => 0%Q) m)) (Some m) y k yk (eq_trans (map_length _ m) M1) M1 Ly Ky Eyk) as [W1 W2].
  cbn [at_or] in W1, W2. rewrite nth_error_map, Hb in W1. rewrite Hb in W2. cbn in W1, W2.
  destruct (qmod_range a b Hbpos). apply Qabs_case; intros; lra.
Qed.
Print Assumptions C38_set_moves_little.

Example C38_nontrivial :
  stack_ok 2 LArray [LModulo [3; 1 # 2]]%Q /\ init_ok 2 [LArray; LModulo [3; 1 # 2]]%Q [7; -(2)]%Q /\
  snd (value_set (VArr [3; 1 # 4]%Q) (ld_new [LArray; LModulo [3; 1 # 2]] [7; -(2)])%Q) = Ok tt.
Proof. repeat split; try (now left); try (repeat constructor; cbn; easy). Qed.

(** * Freezing (C30, for one array parameter with any layers) *)

(** A frozen parameter keeps its array and refuses new data, whatever the layers. *)
Theorem C30_frozen_array_never_changes : forall st cs r ops,
  rt_frozen r = true -> ld_root (ld_run ops (LData st cs r)) = r.
Proof.
  intros st cs r ops Hf. assert (G : forall ops d, ld_root d = r -> ld_root (ld_run ops d) = r).
  { clear ops. induction ops as [|o ops IH]; intros d Hd; cbn; [easy|]. apply IH. destruct o; cbn.
    - unfold value_get. destruct (lget _ _ _ (ld_root d)) as [[cs' r'] v] eqn:E. cbn. rewrite Hd in E.
      apply (proj1 (frozen_stack _ _ _ r Hf) _ _ _ E).
    - unfold value_set. cbn [value_del ld_stack ld_caches ld_root]. destruct (lset _ _ _ _ (ld_root d)) as [[cs' r'] u] eqn:E. cbn. rewrite Hd in E.
      apply (proj2 (frozen_stack _ _ _ r Hf) _ _ _ _ E).
    - unfold raw_set. now rewrite Hd, Hf.
    - rewrite Hd. destruct r as [v f]. cbn in *. now rewrite Hf. }
  now apply G.
Qed.
Print Assumptions C30_frozen_array_never_changes.

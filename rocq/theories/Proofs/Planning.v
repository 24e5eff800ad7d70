(** Lemmas on the planning problems. *)
From Coq Require Import List Arith ZArith QArith Bool Lia Lqa.
From Verif.Model Require Import Prelude MultiValue Planning.
From Verif.Spec Require Import Planning.
From Verif.Proofs Require Import MultiValue.
Import ListNotations.
Open Scope nat_scope.

Lemma qsum_nonneg l : Forall (fun x => 0 <= x)%Q l -> (0 <= qsum l)%Q.
Proof. induction 1 as [|x l H _ IH]; cbn; [lra|]. unfold qsum in *. lra. Qed.
Lemma qsum_zero l : Forall (fun x => 0 <= x)%Q l -> (qsum l == 0)%Q -> Forall (fun x => x == 0)%Q l.
Proof.
  induction 1 as [|x l H F IH]; intros E; [constructor|]. change (qsum (x :: l)) with (x + qsum l)%Q in E.
  pose proof (qsum_nonneg l F). constructor; [lra|]. apply IH. lra.
Qed.
Lemma qsum_all_zero l : Forall (fun x => x == 0)%Q l -> (qsum l == 0)%Q.
Proof. induction 1 as [|x l H F IH]; [reflexivity|]. change (qsum (x :: l)) with (x + qsum l)%Q. lra. Qed.
Lemma qabs_nonneg x : (0 <= qabs x)%Q.
Proof. unfold qabs. pose proof (qmax_ge_l x (- x)). pose proof (qmax_ge_r x (- x)). lra. Qed.
Lemma qmax_case a b : (qmax a b = a /\ (b <= a)%Q) \/ (qmax a b = b /\ (a < b)%Q).
Proof. unfold qmax. destruct (qlt a b) eqn:E; [right; apply qlt_iff in E|left; apply qlt_false in E]; auto. Qed.
Lemma qabs_zero x : (qabs x == 0)%Q <-> (x == 0)%Q.
Proof. unfold qabs. destruct (qmax_case x (- x)) as [[-> H]|[-> H]]; split; intros; lra. Qed.

(** arrays *)
Lemma cut_length r c l : length (cut r c l) = r.
Proof. revert l; induction r; intros; cbn; auto. Qed.
Lemma cut_sizes r c : forall l, length l = r * c -> Forall (fun x => length x = c) (cut r c l).
Proof.
  induction r as [|r IH]; intros l H; cbn; constructor.
  - rewrite firstn_length. cbn in H. lia.
  - apply IH. rewrite skipn_length. cbn in H. lia.
Qed.
Lemma cut_forall (P : nat -> Prop) r c : forall l, Forall P l -> Forall (Forall P) (cut r c l).
Proof.
  induction r as [|r IH]; intros l H; cbn; constructor.
  - rewrite <- (firstn_skipn c l) in H. apply Forall_app in H. tauto.
  - apply IH. rewrite <- (firstn_skipn c l) in H. apply Forall_app in H. tauto.
Qed.

(** penalties *)
Section Cells.
  Variable f : Q -> nat -> Q.
  Hypothesis F0 : forall o s, (0 <= f o s)%Q.
  Lemma sum_cells_nonneg out st : (0 <= sum_cells f out st)%Q.
  Proof.
    unfold sum_cells. apply qsum_nonneg. apply Forall_forall. intros x H. apply in_map_iff in H. destruct H as (p & <- & _).
    apply qsum_nonneg. apply Forall_forall. intros y H. apply in_map_iff in H. destruct H as (c & <- & _). apply F0.
  Qed.
  Lemma row_zero o : forall s, length o = length s ->
    ((qsum (map (fun c => f (fst c) (snd c)) (combine o s)) == 0)%Q <-> Forall2 (fun a b => f a b == 0)%Q o s).
  Proof.
    induction o as [|a o IH]; intros [|b s] L; try discriminate; cbn [combine map].
    - split; [constructor|reflexivity].
    - change (qsum (?x :: ?l)) with (x + qsum l)%Q. cbn [fst snd].
      set (r := qsum (map (fun c => f (fst c) (snd c)) (combine o s))) in *.
      assert (R0 : (0 <= r)%Q).
      { apply qsum_nonneg. apply Forall_forall. intros y H. apply in_map_iff in H. destruct H as (c & <- & _). apply F0. }
      pose proof (F0 a b) as Fab. specialize (IH s ltac:(cbn in L; lia)). fold r in IH. clearbody r. split.
      + intros H. constructor; [lra|]. apply IH. lra.
      + intros H. inversion H; subst. assert (r == 0)%Q by (apply IH; assumption). lra.
  Qed.
  Lemma cells_zero out : forall st, length out = length st ->
    Forall2 (fun o s => length o = length s) out st ->
    ((sum_cells f out st == 0)%Q <-> Forall2 (Forall2 (fun a b => f a b == 0)%Q) out st).
  Proof.
    induction out as [|o out IH]; intros [|s st] L H; try discriminate; unfold sum_cells; cbn [combine map].
    - split; [constructor|reflexivity].
    - change (qsum (?x :: ?l)) with (x + qsum l)%Q. cbn [fst snd].
      fold (sum_cells f out st). inversion H; subst. pose proof (sum_cells_nonneg out st) as N.
      assert (R0 : (0 <= qsum (map (fun c => f (fst c) (snd c)) (combine o s)))%Q).
      { apply qsum_nonneg. apply Forall_forall. intros y K. apply in_map_iff in K. destruct K as (c & <- & _). apply F0. }
      pose proof (row_zero o s ltac:(assumption)) as RZ.
      specialize (IH st ltac:(cbn in L; lia) ltac:(assumption)). split.
      + intros E. constructor; [apply RZ; lra|apply IH; lra].
      + intros K. inversion K; subst. assert (sum_cells f out st == 0)%Q by (apply IH; assumption).
        assert (qsum (map (fun c => f (fst c) (snd c)) (combine o s)) == 0)%Q by (apply RZ; assumption). lra.
  Qed.
End Cells.

Lemma forall2_impl {A B} (P P' : A -> B -> Prop) l l' : (forall a b, In b l' -> P a b -> P' a b) -> Forall2 P l l' -> Forall2 P' l l'.
Proof.
  intros H F. induction F as [|a b l l' K F IH]; constructor.
  - apply H; [now left|exact K].
  - apply IH. intros x y J. apply H. now right.
Qed.
Lemma forall2_and {A B} (P P' : A -> B -> Prop) l l' : Forall2 P l l' -> Forall2 P' l l' -> Forall2 (fun a b => P a b /\ P' a b) l l'.
Proof. intros F. induction F; intros G; inversion G; subst; constructor; auto. Qed.
Lemma forall2_sizes {A B} (out : list (list A)) : forall (st : list (list B)) c, length out = length st ->
  Forall (fun o => length o = c) out -> Forall (fun s => length s = c) st ->
  Forall2 (fun o s => length o = length s) out st.
Proof.
  induction out as [|o out IH]; intros [|s st] c L F G; try discriminate; constructor; inversion F; inversion G; subst.
  - congruence.
  - apply (IH st (length o)); auto.
Qed.

Lemma cell_iff g ds o s : (0 <= p_min g ds <= p_max g ds)%Q -> s = 0 \/ s = 1 ->
  ((lb_cell g ds o s == 0)%Q /\ (ub_cell g ds o s == 0)%Q <-> unit_ok (p_min g ds) (p_max g ds) o s).
Proof.
  intros H S. unfold lb_cell, ub_cell, unit_ok.
  destruct (qmax_case (p_min g ds * qnat s - o) 0) as [[-> K]|[-> K]],
           (qmax_case (o - p_max g ds * qnat s) 0) as [[-> J]|[-> J]];
    destruct S as [->| ->]; unfold qnat in *; cbn [Z.of_nat inject_Z] in *;
    change (Pos.of_succ_nat 0) with 1%positive in *; change (inject_Z 1) with 1%Q in *; change (inject_Z 0) with 0%Q in *;
    split; intros X; (try (split; lra)); (try (left; split; [reflexivity|lra])); (try (right; split; [reflexivity|lra]));
    destruct X as [[X1 X2]|[X1 X2]]; try discriminate; split; lra.
Qed.

Lemma demand_zero_from out ds : forall k,
  (qsum (map (fun td => qabs (qsum (column (fst td) out) - snd td)) (combine (seq k (length ds)) ds)) == 0)%Q <->
  forall t d, nth_error ds t = Some d -> (qsum (column (k + t) out) == d)%Q.
Proof.
  induction ds as [|d ds IH]; intros k; cbn [length seq combine map].
  - split; [intros _ t d H; destruct t; discriminate|reflexivity].
  - change (qsum (?x :: ?l)) with (x + qsum l)%Q. cbn [fst snd].
    pose proof (qabs_nonneg (qsum (column k out) - d)) as A.
    assert (N : (0 <= qsum (map (fun td => qabs (qsum (column (fst td) out) - snd td)) (combine (seq (S k) (length ds)) ds)))%Q).
    { apply qsum_nonneg. apply Forall_forall. intros y H. apply in_map_iff in H. destruct H as (p & <- & _). apply qabs_nonneg. }
    specialize (IH (S k)). split.
    + intros E t d' H. destruct t as [|t]; cbn in H.
      * inversion H; subst. rewrite Nat.add_0_r. assert (Z0 : (qabs (qsum (column k out) - d') == 0)%Q) by lra.
        apply (proj1 (qabs_zero _)) in Z0. lra.
      * rewrite Nat.add_succ_r. apply IH; [lra|exact H].
    + intros H. assert (Z0 : (qabs (qsum (column k out) - d) == 0)%Q).
      { apply (proj2 (qabs_zero _)). specialize (H 0 d eq_refl). rewrite Nat.add_0_r in H. lra. }
      assert (Z1 : (qsum (map (fun td => qabs (qsum (column (fst td) out) - snd td)) (combine (seq (S k) (length ds)) ds)) == 0)%Q).
      { apply IH. intros t d' K. specialize (H (S t) d' K). now rewrite Nat.add_succ_r in H. }
      lra.
Qed.
Lemma demand_nonneg T ds out : (0 <= demand_penalty T ds out)%Q.
Proof.
  unfold demand_penalty. apply qsum_nonneg. apply Forall_forall. intros y H. apply in_map_iff in H. destruct H as (p & <- & _).
  apply qabs_nonneg.
Qed.
Lemma lb_nonneg g ds o s : (0 <= lb_cell g ds o s)%Q.
Proof. apply qmax_ge_r. Qed.
Lemma ub_nonneg g ds o s : (0 <= ub_cell g ds o s)%Q.
Proof. apply qmax_ge_r. Qed.

Definition penalties (T G : nat) (ds : list Q) (out : list (list Q)) (st : list (list nat)) : Q :=
  (demand_penalty T ds out + sum_cells (lb_cell G ds) out st + sum_cells (ub_cell G ds) out st)%Q.
Lemma penalties_nonneg T G ds out st : (0 <= penalties T G ds out st)%Q.
Proof.
  unfold penalties. pose proof (demand_nonneg T ds out). pose proof (sum_cells_nonneg _ (lb_nonneg G ds) out st).
  pose proof (sum_cells_nonneg _ (ub_nonneg G ds) out st). lra.
Qed.
Lemma penalties_zero T G ds out states : length ds = T -> (0 <= p_min G ds <= p_max G ds)%Q -> plan G T out states ->
  ((penalties T G ds out (cut G T states) == 0)%Q <-> feasible (p_min G ds) (p_max G ds) ds out (cut G T states)).
Proof.
  intros L PP (P1 & P2 & P3 & P4). set (st := cut G T states).
  assert (Ls : length out = length st) by (unfold st; rewrite cut_length; exact P1).
  assert (Sz : Forall2 (fun o s => length o = length s) out st).
  { apply (forall2_sizes out st T); [exact Ls|exact P2|apply cut_sizes; exact P3]. }
  assert (St : Forall (Forall (fun s => s = 0 \/ s = 1)) st) by (apply cut_forall; exact P4).
  pose proof (demand_nonneg T ds out) as N1. pose proof (sum_cells_nonneg _ (lb_nonneg G ds) out st) as N2.
  pose proof (sum_cells_nonneg _ (ub_nonneg G ds) out st) as N3.
  pose proof (cells_zero _ (lb_nonneg G ds) out st Ls Sz) as Z2. pose proof (cells_zero _ (ub_nonneg G ds) out st Ls Sz) as Z3.
  assert (Z1 : (demand_penalty T ds out == 0)%Q <-> forall t d, nth_error ds t = Some d -> (qsum (column t out) == d)%Q).
  { unfold demand_penalty. rewrite <- L. apply (demand_zero_from out ds 0). }
  assert (C : Forall2 (Forall2 (fun a b => lb_cell G ds a b == 0)%Q) out st /\ Forall2 (Forall2 (fun a b => ub_cell G ds a b == 0)%Q) out st
              <-> Forall2 (fun o s => Forall2 (unit_ok (p_min G ds) (p_max G ds)) o s) out st).
  { rewrite Forall_forall in St. split.
    - intros [A B]. pose proof (forall2_and _ _ _ _ A B) as K. eapply forall2_impl; [|exact K]. cbn. intros o s Hs [A' B'].
      specialize (St s Hs). rewrite Forall_forall in St.
      pose proof (forall2_and _ _ _ _ A' B') as K'. eapply forall2_impl; [|exact K']. cbn. intros a b Hb J.
      apply cell_iff; auto.
    - intros K. split; (eapply forall2_impl; [|exact K]); cbn; intros o s Hs J; specialize (St s Hs);
        rewrite Forall_forall in St; (eapply forall2_impl; [|exact J]); cbn; intros a b Hb U;
        apply cell_iff in U; try tauto; auto. }
  unfold penalties, feasible. split.
  - intros E. split; [|apply Z1; lra]. apply C. split; [apply Z2; lra|apply Z3; lra].
  - intros [A B]. apply C in A. destruct A as [A1 A2]. apply Z1 in B. apply Z2 in A1. apply Z3 in A2. lra.
Qed.
Lemma commitment_value T G ds a b w out states : plan G T out states ->
  commitment_loss T G ds a b w out states = Ok (running_cost a b out (cut G T states) + penalties T G ds out (cut G T states) * w)%Q.
Proof.
  intros (P1 & P2 & P3 & P4). unfold commitment_loss, reshape. rewrite P3, Nat.eqb_refl. reflexivity.
Qed.

(** the demand that can be met at one time *)
Lemma column_bounds low high t : forall out st, (0 <= low <= high)%Q ->
  Forall2 (fun o s => Forall2 (unit_ok low high) o s) out st ->
  exists k, k <= length out /\ (qnat k * low <= qsum (column t out) <= qnat k * high)%Q.
Proof.
  intros out st LH F. induction F as [|o s out st H F IH]; cbn [column map].
  - exists 0. split; [lia|]. rewrite !qnat_0. change (qsum []) with 0%Q. lra.
  - destruct IH as (k & K1 & K2). change (map (fun row => nth t row 0%Q) out) with (column t out).
    change (qsum (?x :: ?l)) with (x + qsum l)%Q.
    assert (C : (nth t o 0 == 0)%Q \/ (low <= nth t o 0 <= high)%Q).
    { clear - H LH. revert t. induction H as [|a b o s U H IH]; intros t.
      - left. destruct t; reflexivity.
      - destruct t as [|t]; cbn [nth]; [|apply IH]. destruct U as [[_ U]|[_ U]]; auto. }
    destruct C as [C|C].
    + exists k. split; [cbn; lia|]. rewrite C. lra.
    + exists (S k). split; [cbn; lia|]. rewrite !qnat_S. lra.
Qed.

(** fishing *)
Definition alive (s : sea) : Prop := (0 <= dogfishes s <= 1 /\ 0 < haddocks s <= 1)%Q.
Lemma sea_alive : alive sea_start.
Proof. unfold alive, sea_start; cbn; lra. Qed.
Lemma day_ok f s : alive s -> exists s', day f s = Ok s' /\ alive s'
  /\ (fished s <= fished s' <= fished s + (1 # 10) * qmax 0 f)%Q.
Proof.
  intros ([D0 D1] & [H0 H1]). unfold day. cbv zeta. destruct s as [d h t]; cbn [dogfishes haddocks fished] in *.
  set (e := (d * h * 4 / 30)%Q). set (d' := (d - 1 / 30 * d + 5 / 2 * e)%Q). set (h' := (h + h * 2 / 30 - e)%Q).
  assert (Hd : (0 <= d')%Q).
  { unfold d', e. assert (0 <= d * h)%Q by (apply Qmult_le_0_compat; lra). 
    setoid_replace (d - 1 / 30 * d + 5 / 2 * (d * h * 4 / 30))%Q with ((29 # 30) * d + (1 # 3) * (d * h))%Q by field. lra. }
  assert (Hh : (0 < h')%Q).
  { unfold h', e. setoid_replace (h + h * 2 / 30 - d * h * 4 / 30)%Q with (h * ((32 # 30) - (4 # 30) * d))%Q by field.
    apply Qmult_lt_0_compat; lra. }
  clearbody d' h'. pose proof (qmax_ge_l 0 f) as M.
  assert (T : (1 / 10 * qmax 0 f == (1 # 10) * qmax 0 f)%Q) by field.
  set (m := (1 / 10 * qmax 0 f)%Q) in *. clearbody m. generalize dependent (qmax 0 f). intros q M T.
  assert (C1 : (qmin m d' <= d')%Q) by apply qmin_le_r.
  assert (C2 : (qmin m d' <= m)%Q) by apply qmin_le_l.
  assert (C3 : (0 <= qmin m d')%Q) by (destruct (qmin_or m d') as [->| ->]; lra).
  set (c := qmin m d') in *. clearbody c.
  replace (qle 0 (d' - c)) with true by (symmetry; apply qle_iff; lra).
  eexists; split; [reflexivity|]. unfold alive; cbn [dogfishes haddocks fished].
  assert (A1 : (0 <= qmin 1 (d' - c) <= 1)%Q) by (split; [destruct (qmin_or 1 (d' - c)) as [->| ->]; lra|apply qmin_le_l]).
  assert (A2 : (0 < qmin 1 h' <= 1)%Q) by (split; [destruct (qmin_or 1 h') as [->| ->]; lra|apply qmin_le_l]).
  split; [split; assumption|]. lra.
Qed.
Lemma days_ok l : forall s, alive s -> exists s', days l s = Ok s' /\ alive s'
  /\ (fished s <= fished s' <= fished s + (1 # 10) * qsum (map (qmax 0) l))%Q.
Proof.
  induction l as [|f l IH]; intros s A; cbn [days].
  - exists s. split; [reflexivity|]. split; [exact A|]. cbn. lra.
  - destruct (day_ok f s A) as (s1 & E & A1 & B1). rewrite E. cbn [bind].
    destruct (IH s1 A1) as (s2 & E2 & A2 & B2). exists s2. split; [exact E2|]. split; [exact A2|].
    cbn [map]. change (qsum (?x :: ?y)) with (x + qsum y)%Q. lra.
Qed.
Lemma qmax_idem f : qmax 0 (qmax 0 f) = qmax 0 f.
Proof.
  destruct (qmax_case 0 f) as [[E _]|[E K]]; rewrite E; [reflexivity|exact E].
Qed.
Lemma days_clip l : forall s, days (map (qmax 0) l) s = days l s.
Proof.
  induction l as [|f l IH]; intros s; cbn [map days]; [reflexivity|].
  replace (day (qmax 0 f) s) with (day f s) by (unfold day; now rewrite qmax_idem).
  destruct (day f s); cbn [bind]; auto.
Qed.

(** the largest demand *)
Lemma fold_qmax_ge l : forall a, (a <= fold_left qmax l a)%Q /\ forall x, In x l -> (x <= fold_left qmax l a)%Q.
Proof.
  induction l as [|y l IH]; intros a; cbn [fold_left]; [split; [lra|intros x []]|].
  destruct (IH (qmax a y)) as [H1 H2]. pose proof (qmax_ge_l a y). pose proof (qmax_ge_r a y).
  split; [lra|]. intros x [->|Hx]; [lra|auto].
Qed.
Lemma max_demand_ge ds d : In d ds -> (d <= max_demand ds)%Q.
Proof.
  destruct ds as [|a ds]; intros H; [destruct H|]. cbn [max_demand]. destruct (fold_qmax_ge ds a) as [H1 H2].
  destruct H as [->|H]; auto.
Qed.
Lemma fold_qmax_in l : forall a, fold_left qmax l a = a \/ In (fold_left qmax l a) l.
Proof.
  induction l as [|y l IH]; intros a; cbn [fold_left]; [auto|]. destruct (IH (qmax a y)) as [->|H]; [|right; now right].
  destruct (qmax_case a y) as [[-> _]|[-> _]]; [auto|right; now left].
Qed.
Lemma max_demand_in ds : ds <> [] -> In (max_demand ds) ds.
Proof.
  destruct ds as [|a ds]; intros H; [congruence|]. cbn [max_demand]. destruct (fold_qmax_in ds a) as [->|K]; [now left|now right].
Qed.
Lemma p_max_scaled g ds : 0 < g -> (qnat g * p_max g ds == 2 * max_demand ds)%Q.
Proof.
  intros H. unfold p_max. pose proof (qnat_pos g H) as P. field. intros K. rewrite K in P. revert P. apply Qlt_irrefl.
Qed.
Lemma p_min_max g ds : 0 < g -> (0 <= max_demand ds)%Q -> (0 <= p_min g ds <= p_max g ds)%Q.
Proof.
  intros H M. unfold p_min. assert (0 <= p_max g ds)%Q; [|lra]. unfold p_max. apply Qle_shift_div_l; [now apply qnat_pos|]. lra.
Qed.

(** a number of generators for one demand *)
Lemma enough (u d : Q) : forall n, (0 < u)%Q -> (0 < d)%Q -> (d <= qnat n * u)%Q ->
  exists k, 1 <= k <= n /\ (d <= qnat k * u)%Q /\ (qnat (k - 1) * u < d)%Q.
Proof.
  induction n as [|n IH]; intros U D H.
  - rewrite qnat_0 in H. lra.
  - destruct (Qlt_le_dec (qnat n * u) d) as [L|L].
    + exists (S n). split; [lia|]. split; [exact H|]. cbn. rewrite Nat.sub_0_r. exact L.
    + destruct (IH U D L) as (k & K1 & K2 & K3). exists k. split; [lia|auto].
Qed.
Lemma sum_first d k : forall n a, (qsum (map (fun g => if g <? a + k then d else 0%Q) (seq a n))
  == qnat (Nat.min k n) * d)%Q.
Proof.
  induction k as [|k IH]; intros n a.
  - cbn [Nat.min]. rewrite qnat_0, Nat.add_0_r. rewrite qsum_all_zero; [ring|].
    apply Forall_forall. intros x H. apply in_map_iff in H. destruct H as (g & <- & H). apply in_seq in H.
    destruct (Nat.ltb_spec g a); [lia|reflexivity].
  - destruct n as [|n]; cbn [seq map Nat.min]; [rewrite qnat_0; change (qsum []) with 0%Q; ring|].
    change (qsum (?x :: ?l)) with (x + qsum l)%Q. rewrite Nat.add_succ_r.
    destruct (Nat.ltb_spec a (S (a + k))); [|lia]. specialize (IH n (S a)).
    change (S a + k) with (S (a + k)) in IH. rewrite IH, qnat_S. ring.
Qed.

(** the plan which shares each demand between the first generators *)
Definition shared_out (G : nat) (ks : list (nat * Q)) : list (list Q) :=
  map (fun g => map (fun kd => if g <? fst kd then (snd kd / qnat (fst kd))%Q else 0%Q) ks) (seq 0 G).
Definition shared_states (G : nat) (ks : list (nat * Q)) : list (list nat) :=
  map (fun g => map (fun kd => if g <? fst kd then 1 else 0) ks) (seq 0 G).
Lemma shared_column G ks t k d : nth_error ks t = Some (k, d) -> 1 <= k <= G ->
  (qsum (column t (shared_out G ks)) == d)%Q.
Proof.
  intros H K. unfold column, shared_out. rewrite map_map.
  rewrite (map_ext _ (fun g => if g <? 0 + k then (d / qnat k)%Q else 0%Q)).
  - rewrite sum_first, Nat.min_l by lia. pose proof (qnat_pos k ltac:(lia)) as P. field.
    intros E. rewrite E in P. revert P. apply Qlt_irrefl.
  - intros g. cbn [Nat.add]. 
    erewrite nth_error_nth; [|rewrite nth_error_map, H; reflexivity]. reflexivity.
Qed.
Lemma cut_concat c : forall l, Forall (fun r => length r = c) l -> cut (length l) c (concat l) = l.
Proof.
  induction 1 as [|r l Hr F IH]; cbn; [reflexivity|]. subst c. f_equal.
  - rewrite firstn_app, Nat.sub_diag, firstn_all. cbn. apply app_nil_r.
  - rewrite skipn_app, skipn_all, Nat.sub_diag. cbn. exact IH.
Qed.
Lemma concat_size c (l : list (list nat)) : Forall (fun r => length r = c) l -> length (concat l) = length l * c.
Proof. induction 1 as [|r l Hr F IH]; cbn; [reflexivity|]. rewrite app_length, IH, Hr. reflexivity. Qed.
Lemma shared_units G ks low high : (forall k d, In (k, d) ks -> 1 <= k /\ (low <= d / qnat k <= high)%Q) ->
  Forall2 (fun o s => Forall2 (unit_ok low high) o s) (shared_out G ks) (shared_states G ks).
Proof.
  intros H. unfold shared_out, shared_states. induction (seq 0 G) as [|g l IH]; cbn [map]; constructor; [|exact IH].
  clear IH. induction ks as [|[k d] ks IH]; cbn [map]; constructor.
  - cbn [fst snd]. destruct (g <? k); [right|left]; (split; [reflexivity|]); [|reflexivity]. apply (H k d). now left.
  - apply IH. intros k' d' K. apply H. now right.
Qed.

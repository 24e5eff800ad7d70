(** C102: what is done to the results before they are plotted *)
From Coq Require Import String List Arith QArith Bool Lia Lqa Permutation.
From Verif.Model Require Import Prelude MultiValue Float PlotData.
From Verif.Spec Require Import PlotData.
From Verif.Proofs Require Import MultiValue PlotData.
From Coq Require Import List.
Import ListNotations.
Open Scope string_scope.
Open Scope list_scope.
Open Scope nat_scope.

(** * Errors *)
(** In a table with a column of errors and with different labels, exactly the rows with a loss which is not nan are kept,
    in the same order, with their cells and their losses; they are numbered afresh. *)
Theorem C102_errors t : In "error" (t_columns t) -> NoDup (map r_label (t_rows t)) -> exists t', remove_errors t = Ok t' /\
  (forall c, In c (t_columns t') <-> In c (t_columns t) /\ c <> "error") /\
  map (fun r => (r_cells r, r_loss r)) (t_rows t') = map (fun r => (r_cells r, r_loss r)) (filter (fun r => negb (is_nan (r_loss r))) (t_rows t)) /\
  map r_label (t_rows t') = seq 0 (length (t_rows t')).
Proof.
  intros H ND. destruct (remove_ok t) as (t' & E). exists t'. split; [exact E|]. unfold remove_errors in E. assert (He : has t "error" = true) by (unfold has; apply existsb_exists; exists "error"; split; [exact H|apply String.eqb_refl]).
  rewrite He in E. cbn [negb] in E. destruct (existsb _ _); [discriminate E|]. injection E as <-. cbn [t_columns t_rows]. rewrite (kept_labels _ ND), (loc_unique _ _ ND). split; [|split].
  - intros c. rewrite filter_In, negb_true_iff. destruct (String.eqb_spec c "error"); intuition congruence.
  - set (kept := filter _ (t_rows t)). unfold relabel. rewrite map_map. cbn [r_cells r_loss snd fst]. rewrite map_length.
    generalize 0. induction kept as [|r kept IH]; intros s; [reflexivity|]. cbn [length seq combine map snd r_cells r_loss]. f_equal. apply IH.
  - rewrite relabel_length. set (kept := map _ (filter _ (t_rows t))). unfold relabel. rewrite map_map. cbn [r_label]. generalize 0. induction kept as [|r kept IH]; intros s; [reflexivity|]. cbn [length seq combine map fst]. f_equal. apply IH.
Qed.
Print Assumptions C102_errors.
(** Whatever the labels, it never fails, and no nan is left. *)
Theorem C102_no_nan t : exists t', remove_errors t = Ok t' /\ (In "error" (t_columns t) -> forall r, In r (t_rows t') -> r_loss r <> NaN).
Proof.
  destruct (remove_ok t) as (t' & E). exists t'. split; [exact E|]. intros H r Hr. unfold remove_errors in E. assert (He : has t "error" = true) by (unfold has; apply existsb_exists; exists "error"; split; [exact H|apply String.eqb_refl]).
  rewrite He in E. cbn [negb] in E. destruct (existsb _ _) eqn:F; [discriminate E|]. injection E as <-. cbn [t_rows] in Hr. apply In_nth_error in Hr. destruct Hr as (k & Hk).
  set (out := map _ (loc _ _)) in *. assert (L : k < length out) by (rewrite <- relabel_length; apply nth_error_Some; congruence). destruct (nth_error out k) as [r0|] eqn:E0; [|apply nth_error_Some in L; contradiction].
  rewrite (relabel_nth _ _ _ E0) in Hk. injection Hk as <-. cbn [r_loss]. apply nth_error_In in E0. intros K. apply not_true_iff_false in F. apply F. apply existsb_exists. exists r0. split; [exact E0|]. now rewrite K.
Qed.
Print Assumptions C102_no_nan.
(** A table without this column is not touched: its nans stay. *)
Theorem C102_no_error_column t : ~ In "error" (t_columns t) -> remove_errors t = Ok t.
Proof.
  intros N. unfold remove_errors. destruct (has t "error") eqn:E; [|reflexivity]. unfold has in E. apply existsb_exists in E. destruct E as (c & H & K). apply String.eqb_eq in K. now subst c.
Qed.
Print Assumptions C102_no_error_column.
Definition fl_dec (a b : fl) : {a = b} + {a <> b}.
Proof. decide equality. decide equality; [apply Pos.eq_dec|apply Z.eq_dec]. Defined.
Definition failing : row := Row 0 [("optimizer_name", Some "DE")] (Some "failed") NaN.
Definition fine (l : nat) (q : Q) : row := Row l [("optimizer_name", Some "PSO")] None (Fin q).
(** With labels in common (two tables put one after the other), results without error go away, others appear twice. *)
Theorem C102_labels_refuted : exists t t', In "error" (t_columns t) /\ remove_errors t = Ok t' /\
  (exists r, In r (t_rows t) /\ r_loss r = Fin 3 /\ forall r', In r' (t_rows t') -> r_loss r' <> Fin 3) /\
  count_occ (fun a b => fl_dec a b) (map r_loss (t_rows t)) (Fin 5) = 1 /\ count_occ (fun a b => fl_dec a b) (map r_loss (t_rows t')) (Fin 5) = 2.
Proof.
  exists (Table ["optimizer_name"; "loss"; "error"] [failing; fine 1 4; fine 0 3; fine 1 5]). eexists. split; [cbn; auto|]. split; [vm_compute; reflexivity|]. split; [|split; vm_compute; reflexivity].
  exists (fine 0 3). split; [cbn; auto|]. split; [reflexivity|]. intros r'. cbn. intuition (subst; discriminate).
Qed.
Print Assumptions C102_labels_refuted.

(** * Normalized losses *)
(** With complete rows, and in each case a loss below the limit, each loss becomes (loss - a) / (b - a), where [a] is the
    smallest loss of its case and [b] the largest one below the limit; infinite losses stay; all become 1 if [a] = [b].
    Nothing else changes, and the order in which the cases are visited has no effect. *)
Theorem C102_normalized order limit t ds : (forall l, Permutation (order l) l) -> complete t ds -> t_rows t <> [] ->
  (forall r, In r (t_rows t) -> exists r', In r' (t_rows t) /\ same_case ds r r' /\ fl_lt (r_loss r') limit = true) ->
  exists t', normalized_losses order limit t ds = Ok t' /\ t_columns t' = t_columns t /\ length (t_rows t') = length (t_rows t) /\
  forall k r, nth_error (t_rows t) k = Some r -> exists r' a b, nth_error (t_rows t') k = Some r' /\ r' = with_loss r (r_loss r') /\
    smallest ds (t_rows t) r a /\ largest limit ds (t_rows t) r b /\ (a <= b)%Q /\
    ((a == b)%Q -> r_loss r' = Fin 1) /\
    ((a < b)%Q -> match r_loss r with Fin x => exists y, r_loss r' = Fin y /\ (y == (x - a) / (b - a))%Q | z => r_loss r' = z end).
Proof. apply normalized_spec. Qed.
Print Assumptions C102_normalized.
(** Losses below the limit go between 0 and 1. *)
Theorem C102_unit order limit t ds t' k r : (forall l, Permutation (order l) l) -> complete t ds -> t_rows t <> [] ->
  (forall r, In r (t_rows t) -> exists r', In r' (t_rows t) /\ same_case ds r r' /\ fl_lt (r_loss r') limit = true) ->
  normalized_losses order limit t ds = Ok t' -> nth_error (t_rows t) k = Some r -> fl_lt (r_loss r) limit = true ->
  exists r' y, nth_error (t_rows t') k = Some r' /\ r_loss r' = Fin y /\ (0 <= y <= 1)%Q.
Proof.
  intros Or C N Lim E Hk L. destruct (normalized_spec order limit t ds Or C N Lim) as (t0 & E0 & _ & _ & K). assert (t0 = t') by congruence. subst t0.
  destruct (K k r Hk) as (r' & a & b & Hk' & _ & (_ & Sm) & (_ & La) & O & K1 & K2). assert (R0 : same_case ds r r) by (intros d _; reflexivity). pose proof (nth_error_In _ _ Hk) as Hr. specialize (Sm r Hr R0). specialize (La r Hr R0 L).
  destruct (Qlt_le_dec a b) as [A|A].
  - specialize (K2 A). destruct (r_loss r) as [| |x|] eqn:Ex; cbn in Sm; try discriminate Sm; [|discriminate La]. destruct K2 as (y & Ey & Y). exists r', y. split; [exact Hk'|]. split; [exact Ey|]. apply qle_iff in Sm. cbn in La. apply qle_iff in La. rewrite Y. split.
    + apply Qle_shift_div_l; lra.
    + apply Qle_shift_div_r; lra.
  - exists r', 1%Q. split; [exact Hk'|]. split; [apply K1; lra|lra].
Qed.
Print Assumptions C102_unit.
(** The order of the losses of a case is kept, unless all those below the limit are equal. *)
Theorem C102_order order limit t ds t' k1 k2 r1 r2 a b : (forall l, Permutation (order l) l) -> complete t ds -> t_rows t <> [] ->
  (forall r, In r (t_rows t) -> exists r', In r' (t_rows t) /\ same_case ds r r' /\ fl_lt (r_loss r') limit = true) ->
  normalized_losses order limit t ds = Ok t' -> nth_error (t_rows t) k1 = Some r1 -> nth_error (t_rows t) k2 = Some r2 -> same_case ds r1 r2 ->
  smallest ds (t_rows t) r1 a -> largest limit ds (t_rows t) r1 b -> (a < b)%Q -> fl_lt (r_loss r1) (r_loss r2) = true ->
  exists r1' r2', nth_error (t_rows t') k1 = Some r1' /\ nth_error (t_rows t') k2 = Some r2' /\ fl_lt (r_loss r1') (r_loss r2') = true.
Proof.
  intros Or C N Lim E H1 H2 Sc Sa Lb AB L. destruct (normalized_spec order limit t ds Or C N Lim) as (t0 & E0 & _ & _ & K). assert (t0 = t') by congruence. subst t0.
  assert (Usm : forall r a', smallest ds (t_rows t) r a' -> same_case ds r1 r -> (a' == a)%Q).
  { intros r a' ((x & Hx & Sx & Ex) & A') Sr. destruct Sa as ((z & Hz & Sz & Ez) & A). assert (F1 : fl_le (Fin a) (Fin a') = true) by (rewrite <- Ex; apply A; [exact Hx|]; intros d Hd; rewrite (Sr d Hd); now apply Sx).
    assert (F2 : fl_le (Fin a') (Fin a) = true) by (rewrite <- Ez; apply A'; [exact Hz|]; intros d Hd; rewrite <- (Sr d Hd); now apply Sz). apply qle_iff in F1, F2. lra. }
  assert (Ula : forall r b', largest limit ds (t_rows t) r b' -> same_case ds r1 r -> (b' == b)%Q).
  { intros r b' ((x & Hx & Sx & Ex & Lx) & A') Sr. destruct Lb as ((z & Hz & Sz & Ez & Lz) & A). assert (F1 : fl_le (Fin b') (Fin b) = true) by (rewrite <- Ex; apply A; [exact Hx| |now rewrite Ex]; intros d Hd; rewrite (Sr d Hd); now apply Sx).
    assert (F2 : fl_le (Fin b) (Fin b') = true) by (rewrite <- Ez; apply A'; [exact Hz| |now rewrite Ez]; intros d Hd; rewrite <- (Sr d Hd); now apply Sz). apply qle_iff in F1, F2. lra. }
  destruct (K k1 r1 H1) as (r1' & a1 & b1 & H1' & _ & S1 & L1 & _ & _ & V1). destruct (K k2 r2 H2) as (r2' & a2 & b2 & H2' & _ & S2 & L2 & _ & _ & V2). exists r1', r2'. split; [exact H1'|]. split; [exact H2'|].
  assert (R1 : same_case ds r1 r1) by (intros d _; reflexivity). pose proof (Usm r1 a1 S1 R1) as Ea1. pose proof (Usm r2 a2 S2 Sc) as Ea2. pose proof (Ula r1 b1 L1 R1) as Eb1. pose proof (Ula r2 b2 L2 Sc) as Eb2.
  specialize (V1 ltac:(lra)). specialize (V2 ltac:(lra)).
  destruct (r_loss r1) as [| |x1|] eqn:X1; destruct (r_loss r2) as [| |x2|] eqn:X2; cbn in L; try discriminate L; try (destruct C as (_ & _ & C); destruct (C r1 (nth_error_In _ _ H1)) as (q & [Eq|Eq]); congruence).
  - destruct V1 as (y1 & E1 & Y1). destruct V2 as (y2 & E2 & Y2). rewrite E1, E2. cbn. apply qlt_iff in L. apply qlt_iff. rewrite Y1, Y2, Ea1, Ea2, Eb1, Eb2. unfold Qdiv. apply Qmult_lt_compat_r; [apply Qinv_lt_0_compat; lra|lra].
  - destruct V1 as (y1 & E1 & _). rewrite E1, V2. reflexivity.
Qed.
Print Assumptions C102_order.
(** If all the losses below the limit are equal, an infinite loss becomes as good as they are. *)
Theorem C102_failures_refuted : exists t t', complete t ["func"] /\ normalized_losses (fun l => l) (Fin (inject_Z (10 ^ 26))) t ["func"] = Ok t' /\
  map r_loss (t_rows t) = [Fin 2; PosInf] /\ map r_loss (t_rows t') = [Fin 1; Fin 1].
Proof.
  exists (Table ["func"; "loss"] [Row 0 [("func", Some "sphere")] None (Fin 2); Row 1 [("func", Some "sphere")] None PosInf]). eexists. split; [|split; [vm_compute; reflexivity|split; reflexivity]].
  split; [intros d [<-|[]]; cbn; auto|]. split; [intros r d [<-|[<-|[]]] [<-|[]]; vm_compute; discriminate|]. intros r [<-|[<-|[]]]; exists 2%Q; cbn; auto.
Qed.
Print Assumptions C102_failures_refuted.
(** A case where all the losses reach the limit makes the whole table fail. *)
Theorem C102_all_above order limit t d v : (forall l, Permutation (order l) l) -> complete t [d] ->
  (exists r, In r (t_rows t) /\ cell r d = Some v) -> (forall r, In r (t_rows t) -> cell r d = Some v -> fl_lt (r_loss r) limit = false) ->
  exists e, normalized_losses order limit t [d] = Err e.
Proof.
  intros Or C (r0 & H0 & E0) Hi. unfold normalized_losses. destruct (unique_spec t [d] C) as (vs & U & M). rewrite U. cbn [bind]. fold (cases_of order vs).
  assert (N : t_rows t <> []) by (intros K; rewrite K in H0; destruct H0). destruct (cases_spec order t [d] vs Or C N U) as (ND & Cs). set (cs := cases_of order vs) in *.
  assert (Iv : In [v] cs) by (apply Cs; exists r0; split; [exact H0|cbn; now rewrite E0]).
  assert (G : forall cs rows, In [v] cs -> NoDup cs -> (forall r, In r rows -> cell r d = Some v -> fl_lt (r_loss r) limit = false) -> (forall c, In c cs -> length c = 1) -> exists e, normalize_cases limit [d] cs rows = Err e).
  { clear - order. intros cs. induction cs as [|c cs IH]; intros rows I0 ND Hi Ln; [destruct I0|]. inversion ND as [|? ? Nc ND']; subst. cbn [normalize_cases]. destruct (list_eq_dec string_dec c [v]) as [->|Nv].
    - unfold normalize_case. destruct (py_min _) as [m|e]; [|now exists e]. cbn [bind]. assert (F : filter (fun x => fl_lt x limit) (map r_loss (filter (selected [d] [v]) rows)) = []).
      { destruct (filter (fun x => fl_lt x limit) _) as [|x l] eqn:F; [reflexivity|]. exfalso. assert (Ix : In x (x :: l)) by now left. rewrite <- F in Ix. apply filter_In in Ix. destruct Ix as (Ix & Lx). apply in_map_iff in Ix. destruct Ix as (r & <- & Hr). apply filter_In in Hr. destruct Hr as (Hr & Sr).
        apply selected_values in Sr; [|reflexivity]. cbn in Sr. destruct (cell r d) as [w|] eqn:Ec; [|discriminate Sr]. injection Sr as ->. rewrite (Hi r Hr Ec) in Lx. discriminate Lx. }
      rewrite F. now exists ValueError.
    - destruct (normalize_case limit [d] rows c) as [rows'|e] eqn:E; [|now exists e]. cbn [bind]. apply IH; [destruct I0 as [I0|I0]; [congruence|exact I0]|exact ND'| |intros c' Hc'; apply Ln; now right].
      unfold normalize_case in E. destruct (py_min _) as [m|]; [|discriminate E]. cbn [bind] in E. destruct (py_max _) as [M|]; [|discriminate E]. cbn [bind] in E. injection E as <-. intros r Hr Ec. apply in_map_iff in Hr. destruct Hr as (r' & <- & Hr'). destruct (selected [d] c r') eqn:Es.
      + exfalso. apply selected_values in Es; [|apply Ln; now left]. rewrite cell_with_loss in Ec. cbn in Es. rewrite Ec in Es. congruence.
      + now apply Hi. }
  destruct (G cs (t_rows t) Iv ND Hi) as (e & E); [|exists e; now rewrite E]. intros c Hc. apply Cs in Hc. destruct Hc as (r & _ & Ev). exact (values_length [d] r c Ev).
Qed.
Print Assumptions C102_all_above.

(** * Names *)
(** An optimizer is ambiguous if its rows differ on another column of the pattern. *)
Definition ambiguous (rows : list row) (p : pattern) (r : row) : Prop := exists r1 r2 c, In r1 rows /\ In r2 rows /\
  filled r1 okey = filled r okey /\ filled r2 okey = filled r okey /\ In c (elements p) /\ c <> okey /\ filled r1 c <> filled r2 c.
(** The rows stay, in order; the other columns of the pattern go away and all others but the name are kept; the names of
    the ambiguous optimizers, and no others, become the text of the pattern; the suffix goes away if asked for. *)
Theorem C102_names t p mp rs t' : merge_names t p mp rs = Ok t' -> forall p', p' = (if mp then merge_pattern else p) -> p' <> [] ->
  length (t_rows t') = length (t_rows t) /\
  forall k r, nth_error (t_rows t) k = Some r -> exists r' n, nth_error (t_rows t') k = Some r' /\
    r_loss r' = r_loss r /\ r_label r' = r_label r /\ r_error r' = r_error r /\
    (forall c, c <> okey -> cell r' c = if in_dec string_dec c (elements p') then None else cell r c) /\
    cell r' okey = (if rs then option_map strip n else n) /\
    (ambiguous (t_rows t) p' r -> n = Some (format p' r)) /\ (~ ambiguous (t_rows t) p' r -> n = cell r okey).
Proof.
  intros E p' Ep Np. unfold merge_names in E. destruct (mp && _); [discriminate E|]. rewrite <- Ep in E. destruct p' as [|e0 p0]; [now elim Np|]. set (p1 := e0 :: p0) in *. clearbody p1. destruct (existsb (String.eqb okey) (elements p1)) eqn:Ok1; [|discriminate E]. cbn [negb] in E.
  destruct (forallb (has t) (elements p1)); [|discriminate E]. cbn [negb] in E. set (others := filter _ (elements p1)) in E. injection E as <-. cbn [t_rows]. split; [apply map_length|]. intros k r Hk. erewrite map_nth_error by exact Hk.
  assert (Oth : forall c, In c others <-> In c (elements p1) /\ c <> okey) by (intros c; unfold others; rewrite filter_In, negb_true_iff; destruct (String.eqb_spec c okey); intuition congruence).
  set (rows := t_rows t) in *. set (amb := (1 <? _) && _).
  assert (Amb : amb = true <-> ambiguous rows p1 r).
  { unfold amb. rewrite andb_true_iff, !Nat.ltb_lt, !variants_several. split.
    - intros (_ & r1 & r2 & c & I1 & I2 & Ic & D). apply filter_In in I1, I2. destruct I1 as (I1 & F1), I2 as (I2 & F2). apply String.eqb_eq in F1, F2. apply Oth in Ic. now exists r1, r2, c.
    - intros (r1 & r2 & c & I1 & I2 & F1 & F2 & Ic & Nc & D). assert (Io : In c others) by (apply Oth; auto). split; [now exists r1, r2, c|]. exists r1, r2, c. split; [apply filter_In; split; [exact I1|now apply String.eqb_eq]|]. split; [apply filter_In; split; [exact I2|now apply String.eqb_eq]|]. auto. }
  assert (Cell : forall l e x cs c, cell (Row l (filter (fun cv => negb (existsb (String.eqb (fst cv)) others)) cs) e x) c = if existsb (String.eqb c) others then None else match look c cs with Some v => v | None => None end).
  { intros l e x cs c. unfold cell. cbn [r_cells]. rewrite (look_filter (fun c => negb (existsb (String.eqb c) others))). destruct (existsb (String.eqb c) others); reflexivity. }
  assert (Ex : forall c, existsb (String.eqb c) others = true <-> In c others).
  { intros c. rewrite existsb_exists. split; [intros (c' & H & K); apply String.eqb_eq in K; now subst|]. intros H. exists c. split; [exact H|apply String.eqb_refl]. }
  assert (Exo : existsb (String.eqb okey) others = false) by (apply not_true_iff_false; rewrite Ex, Oth; tauto).
  set (r2 := if amb then with_name r (format p1 r) else r). set (r3 := if rs then _ else r2).
  exists (Row (r_label r3) (filter (fun cv => negb (existsb (String.eqb (fst cv)) others)) (r_cells r3)) (r_error r3) (r_loss r3)), (cell r2 okey).
  assert (S2 : r_loss r2 = r_loss r /\ r_label r2 = r_label r /\ r_error r2 = r_error r /\ forall c, c <> okey -> cell r2 c = cell r c).
  { unfold r2. destruct amb; repeat split. intros c Nc. rewrite cell_with_name. destruct (String.eqb_spec c okey); [contradiction|reflexivity]. }
  assert (S3 : r_loss r3 = r_loss r2 /\ r_label r3 = r_label r2 /\ r_error r3 = r_error r2 /\ (forall c, c <> okey -> cell r3 c = cell r2 c) /\ cell r3 okey = if rs then option_map strip (cell r2 okey) else cell r2 okey).
  { unfold r3. destruct rs; [|repeat split]. destruct (cell r2 okey) as [n|] eqn:En; [|repeat split; exact En]. repeat split; [|now rewrite cell_with_name].
    intros c Nc. rewrite cell_with_name. destruct (String.eqb_spec c okey); [contradiction|reflexivity]. }
  split; [reflexivity|]. destruct S2 as (A1 & A2 & A3 & A4), S3 as (B1 & B2 & B3 & B4 & B5). cbn [r_loss r_label r_error]. split; [congruence|]. split; [congruence|]. split; [congruence|]. split; [|split; [|split]].
  - intros c Nc. rewrite Cell. fold (cell r3 c). destruct (in_dec string_dec c (elements p1)) as [I1|I1].
    + rewrite (proj2 (Ex c)); [reflexivity|]. apply Oth. auto.
    + destruct (existsb (String.eqb c) others) eqn:F; [apply Ex, Oth in F; tauto|]. rewrite B4, A4 by exact Nc. reflexivity.
  - rewrite Cell, Exo. fold (cell r3 okey). exact B5.
  - intros H. unfold r2. rewrite (proj2 Amb H), cell_with_name. reflexivity.
  - intros H. unfold r2. destruct amb; [elim H; now apply Amb|reflexivity].
Qed.
Print Assumptions C102_names.
(** With one other column, the rows of an ambiguous optimizer get the same name exactly if they have the same value there. *)
Theorem C102_names_distinct r1 r2 pre mid post c : filled r1 okey = filled r2 okey ->
  let p := [(pre, Some okey); (mid, Some c); (post, None)] in format p r1 = format p r2 <-> filled r1 c = filled r2 c.
Proof.
  intros E p. unfold p, format. cbn [fold_right fst snd]. rewrite E. split; [|now intros ->]. intros H. apply append_cancel, append_cancel, append_cancel in H. now apply append_cancel_r in H.
Qed.
Print Assumptions C102_names_distinct.
Definition run (l : nat) (n p : string) : row := Row l [("optimizer_name", Some n); ("parametrization", Some p)] None (Fin 0).
(** Two optimizers may end with the same name, so that their results are mixed. *)
Theorem C102_names_refuted : exists t t' r1 r2 r1' r2', merge_names t [] true false = Ok t' /\
  nth_error (t_rows t) 0 = Some r1 /\ nth_error (t_rows t) 2 = Some r2 /\ nth_error (t_rows t') 0 = Some r1' /\ nth_error (t_rows t') 2 = Some r2' /\
  cell r1 okey <> cell r2 okey /\ cell r1' okey = cell r2' okey.
Proof.
  exists (Table ["optimizer_name"; "parametrization"; "loss"] [run 0 "DE" "log"; run 1 "DE" "lin"; run 2 "DE,log" "lin"]). do 5 eexists. split; [vm_compute; reflexivity|]. do 4 (split; [reflexivity|]). split; [vm_compute; discriminate|vm_compute; reflexivity].
Qed.
Print Assumptions C102_names_refuted.
(** So does the removal of the suffix: DE1 and DE2 become one. *)
Theorem C102_suffix_refuted : exists t t', merge_names t [] true true = Ok t' /\
  map (fun r => cell r okey) (t_rows t) = [Some "DE-1.5"; Some "DE2"] /\ map (fun r => cell r okey) (t_rows t') = [Some "DE"; Some "DE"].
Proof. exists (Table ["optimizer_name"; "parametrization"; "loss"] [run 0 "DE-1.5" "log"; run 1 "DE2" "log"]). eexists. split; [vm_compute; reflexivity|]. split; reflexivity. Qed.
Print Assumptions C102_suffix_refuted.
(** Errors of the arguments. *)
Theorem C102_pattern_errors t e p : merge_names t (e :: p) true false = Err ValueError /\ merge_names t [] false false = Ok t /\
  (~ In okey (elements (e :: p)) -> merge_names t (e :: p) false false = Err AssertionError).
Proof.
  split; [reflexivity|]. split; [reflexivity|]. intros N. unfold merge_names. cbn [andb]. destruct (existsb (String.eqb okey) (elements (e :: p))) eqn:E; [|reflexivity]. apply existsb_exists in E. destruct E as (c & H & K). apply String.eqb_eq in K. now subst c.
Qed.
Print Assumptions C102_pattern_errors.

Definition bench : table := Table ["func"; "loss"]
  [Row 0 [("func", Some "a")] None (Fin 2); Row 1 [("func", Some "b")] None (Fin 7); Row 2 [("func", Some "a")] None PosInf; Row 3 [("func", Some "a")] None (Fin 6); Row 4 [("func", Some "a")] None (Fin 3)].
Example bench_complete : complete bench ["func"] /\ forall r, In r (t_rows bench) -> exists r', In r' (t_rows bench) /\ same_case ["func"] r r' /\ fl_lt (r_loss r') (Fin 100) = true.
Proof.
  split; [split; [intros d [<-|[]]; cbn; auto|]; split|].
  - intros r d H [<-|[]]. cbn in H. intuition (subst; vm_compute; discriminate).
  - intros r H. cbn in H. destruct H as [<-|[<-|[<-|[<-|[<-|[]]]]]]; [exists 2%Q|exists 7%Q|exists 0%Q|exists 6%Q|exists 3%Q]; cbn; auto.
  - intros r H. cbn in H. destruct H as [<-|[<-|[<-|[<-|[<-|[]]]]]]; [exists (nth 0 (t_rows bench) failing)|exists (nth 1 (t_rows bench) failing)|exists (nth 0 (t_rows bench) failing)|exists (nth 0 (t_rows bench) failing)|exists (nth 0 (t_rows bench) failing)];
      (split; [cbn; tauto|]; split; [intros d [<-|[]]; reflexivity|reflexivity]).
Qed.
Example bench_normalized : exists t', normalized_losses (fun l => l) (Fin 100) bench ["func"] = Ok t' /\
  Forall2 (fun x y => fl_eqb x y = true) (map r_loss (t_rows t')) [Fin 0; Fin 1; PosInf; Fin 1; Fin (1 # 4)].
Proof. eexists. split; [vm_compute; reflexivity|]. repeat constructor. Qed.
Example bench_errors : exists t', remove_errors (Table ["loss"; "error"] [failing; fine 1 4; fine 2 3]) = Ok t' /\ map r_loss (t_rows t') = [Fin 4; Fin 3] /\ map r_label (t_rows t') = [0; 1].
Proof. eexists. split; [vm_compute; reflexivity|]. split; reflexivity. Qed.
Example bench_names : exists t', merge_names (Table ["optimizer_name"; "parametrization"; "loss"] [run 0 "DE" "log"; run 1 "DE" "lin"; run 2 "PSO" "lin"]) [] true false = Ok t' /\
  map (fun r => cell r okey) (t_rows t') = [Some "DE,log"; Some "DE,lin"; Some "PSO"].
Proof. eexists. split; [vm_compute; reflexivity|]. reflexivity. Qed.

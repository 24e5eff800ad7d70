(** Lemmas about the tables which are plotted *)
From Coq Require Import String List Arith QArith Bool Lia Lqa Permutation.
From Verif.Model Require Import Prelude MultiValue Float PlotData.
From Verif.Spec Require Import PlotData.
From Verif.Proofs Require Import MultiValue.
From Coq Require Import List.
Import ListNotations.
Open Scope string_scope.
Open Scope list_scope.
Open Scope nat_scope.

(** * Floats *)
Definition proper (x : fl) : Prop := exists q, x = Fin q \/ x = PosInf.
Lemma lt_le x y : proper x -> proper y -> fl_lt x y = false -> fl_le y x = true.
Proof.
  intros (p & [->| ->]) (q & [->| ->]) H; cbn in *; try reflexivity; try discriminate H. apply qlt_false in H. apply qle_iff. exact H.
Qed.
Lemma lt_le' x y : fl_lt x y = true -> fl_le x y = true.
Proof. destruct x, y; cbn; try congruence; try reflexivity. intros H. apply qlt_iff in H. apply qle_iff. lra. Qed.
Lemma le_trans x y z : fl_le x y = true -> fl_le y z = true -> fl_le x z = true.
Proof. destruct x, y, z; cbn; try congruence; try reflexivity. rewrite !qle_iff. intros. lra. Qed.
Lemma le_refl x : proper x -> fl_le x x = true.
Proof. intros (q & [->| ->]); cbn; [apply qle_iff; lra|reflexivity]. Qed.
Lemma min_spec l : forall x, proper x -> Forall proper l -> let m := fold_left (fun m y => if fl_lt y m then y else m) l x in
  In m (x :: l) /\ forall y, In y (x :: l) -> fl_le m y = true.
Proof.
  induction l as [|y l IH]; intros x Px Pl m.
  - split; [left; reflexivity|]. intros y [<-|[]]. now apply le_refl.
  - inversion Pl as [|? ? Py Pl']; subst. cbn [fold_left] in m. destruct (fl_lt y x) eqn:E.
    + destruct (IH y Py Pl') as (A & B). fold m in A, B. split; [right; exact A|]. intros z [<-|Hz]; [|now apply B]. apply (le_trans _ y); [apply B; now left|now apply lt_le'].
    + destruct (IH x Px Pl') as (A & B). fold m in A, B. split; [destruct A as [A|A]; [now left|right; now right]|]. intros z [<-|[<-|Hz]]; [apply B; now left| |apply B; now right].
      apply (le_trans _ x); [apply B; now left|]. now apply lt_le.
Qed.
Lemma max_spec l : forall x, proper x -> Forall proper l -> let m := fold_left (fun m y => if fl_lt m y then y else m) l x in
  In m (x :: l) /\ forall y, In y (x :: l) -> fl_le y m = true.
Proof.
  induction l as [|y l IH]; intros x Px Pl m.
  - split; [left; reflexivity|]. intros y [<-|[]]. now apply le_refl.
  - inversion Pl as [|? ? Py Pl']; subst. cbn [fold_left] in m. destruct (fl_lt x y) eqn:E.
    + destruct (IH y Py Pl') as (A & B). fold m in A, B. split; [right; exact A|]. intros z [<-|Hz]; [|now apply B]. apply (le_trans _ y); [now apply lt_le'|apply B; now left].
    + destruct (IH x Px Pl') as (A & B). fold m in A, B. split; [destruct A as [A|A]; [now left|right; now right]|]. intros z [<-|[<-|Hz]]; [apply B; now left| |apply B; now right].
      apply (le_trans _ x); [|apply B; now left]. now apply lt_le.
Qed.
Lemma py_min_spec l : l <> [] -> Forall proper l -> exists m, py_min l = Ok m /\ In m l /\ forall y, In y l -> fl_le m y = true.
Proof. intros N P. destruct l as [|x l]; [now elim N|]. inversion P; subst. eexists. split; [reflexivity|]. now apply min_spec. Qed.
Lemma py_max_spec l : l <> [] -> Forall proper l -> exists m, py_max l = Ok m /\ In m l /\ forall y, In y l -> fl_le y m = true.
Proof. intros N P. destruct l as [|x l]; [now elim N|]. inversion P; subst. eexists. split; [reflexivity|]. now apply max_spec. Qed.

(** * The cases *)
Lemma values_some ds r : (forall d, In d ds -> cell r d <> None) -> exists v, values r ds = Some v.
Proof.
  induction ds as [|d ds IH]; intros H; [exists []; reflexivity|]. cbn [values]. destruct (cell r d) as [x|] eqn:E; [|elim (H d (or_introl eq_refl) E)]. destruct IH as (v & ->); [intros d' Hd; apply H; now right|]. now eexists.
Qed.
Lemma values_same ds r r' v : values r ds = Some v -> values r' ds = Some v <-> same_case ds r r'.
Proof.
  revert v. induction ds as [|d ds IH]; intros v H; [split; [intros _ d []|intros _; exact H]|]. cbn [values] in *. destruct (cell r d) as [x|] eqn:E; [|discriminate H]. destruct (values r ds) as [u|] eqn:F; [|discriminate H]. injection H as <-.
  specialize (IH u eq_refl). split.
  - intros K. destruct (cell r' d) as [x'|] eqn:E'; [|discriminate K]. destruct (values r' ds) as [u'|] eqn:F'; [|discriminate K]. injection K as -> ->. intros c [<-|Hc]; [congruence|]. apply IH; [reflexivity|exact Hc].
  - intros K. rewrite <- (K d (or_introl eq_refl)), E. rewrite (proj2 IH); [reflexivity|]. intros c Hc. apply K. now right.
Qed.
Lemma values_length ds r v : values r ds = Some v -> length v = length ds.
Proof.
  revert v. induction ds as [|d ds IH]; intros v H; [injection H as <-; reflexivity|]. cbn [values] in H. destruct (cell r d); [|discriminate H]. destruct (values r ds); [|discriminate H]. injection H as <-. cbn. now rewrite (IH _ eq_refl).
Qed.
Lemma selected_values ds r c : length c = length ds -> selected ds c r = true <-> values r ds = Some c.
Proof.
  unfold selected. revert c. induction ds as [|d ds IH]; intros [|x c] L; try discriminate L; [split; reflexivity|]. cbn [combine forallb fst snd values]. rewrite andb_true_iff, (IH c) by now injection L.
  destruct (cell r d) as [y|]; [|split; [intros (H & _); discriminate H|discriminate]]. rewrite String.eqb_eq. split; [intros (-> & ->); reflexivity|]. destruct (values r ds); [|discriminate]. intros H. injection H as -> ->. auto.
Qed.
Lemma cell_with_loss r x c : cell (with_loss r x) c = cell r c.
Proof. reflexivity. Qed.
Lemma values_with_loss r x ds : values (with_loss r x) ds = values r ds.
Proof. induction ds as [|d ds IH]; [reflexivity|]. cbn [values]. now rewrite cell_with_loss, IH. Qed.
Lemma unique_spec t ds : complete t ds -> exists vs, unique t ds = Ok vs /\
  match ds with [] => vs = [] | _ => map Some vs = map (fun r => values r ds) (t_rows t) end.
Proof.
  intros (A & B & _). unfold unique. assert (F : forallb (has t) ds = true).
  { apply forallb_forall. intros d Hd. unfold has. apply existsb_exists. exists d. split; [now apply A|apply String.eqb_refl]. }
  rewrite F. cbn [negb]. destruct ds as [|d ds]; [exists []; auto|]. set (cs := d :: ds) in *. clearbody cs. clear A F.
  induction (t_rows t) as [|r rows IH] in B |- *; [exists []; auto|]. cbn [fold_right map]. destruct IH as (vs & E & M); [intros r' d' H; apply B; now right|]. rewrite E. cbn [bind].
  destruct (values_some cs r (fun d' Hd => B r d' (or_introl eq_refl) Hd)) as (v & Ev). rewrite Ev. exists (v :: vs). split; [reflexivity|]. cbn [map]. now rewrite M.
Qed.
Definition cases_of (order : list (list string) -> list (list string)) (vs : list (list string)) : list (list string) :=
  match vs with [] => [[]] | _ => order (nodup (list_eq_dec string_dec) vs) end.
Lemma cases_spec order t ds vs : (forall l, Permutation (order l) l) -> complete t ds -> t_rows t <> [] -> unique t ds = Ok vs ->
  NoDup (cases_of order vs) /\ forall c, In c (cases_of order vs) <-> exists r, In r (t_rows t) /\ values r ds = Some c.
Proof.
  intros Or C N U. destruct (unique_spec t ds C) as (vs' & U' & M). assert (vs' = vs) by congruence. subst vs'. destruct ds as [|d ds].
  - subst vs. cbn. split; [repeat constructor; intros []|]. intros c. split.
    + intros [<-|[]]. destruct (t_rows t) as [|r rows]; [now elim N|]. exists r. split; [now left|reflexivity].
    + intros (r & _ & H). injection H as <-. now left.
  - set (cs := d :: ds) in *. assert (Nv : vs <> []) by (intros ->; destruct (t_rows t); [now elim N|discriminate M]). unfold cases_of. destruct vs as [|v vs]; [now elim Nv|]. set (ws := v :: vs) in *. clearbody ws. split.
    + eapply Permutation_NoDup; [symmetry; apply Or|]. apply NoDup_nodup.
    + intros c. split.
      * intros H. apply (Permutation_in _ (Or _)) in H. apply nodup_In in H. apply (in_map Some) in H. rewrite M in H. apply in_map_iff in H. destruct H as (r & E & H). now exists r.
      * intros (r & H & E). apply (Permutation_in _ (Permutation_sym (Or _))). apply nodup_In. assert (K : In (Some c) (map Some ws)) by (rewrite M, <- E; now apply (in_map (fun r => values r cs))). apply in_map_iff in K. destruct K as (c' & Ec & K). now injection Ec as ->.
Qed.

Section Normalize.
  Variables (limit : fl) (ds : list string) (rows : list row).
  Definition peers (c : list string) : list fl := map r_loss (filter (selected ds c) rows).
  Definition scaled (c : list string) (x : fl) : fl :=
    match py_min (peers c), py_max (filter (fun x => fl_lt x limit) (peers c)) with
    | Ok m, Ok M => if fl_eqb M m then Fin 1 else fl_over (fl_sub x m) (fl_sub M m)
    | _, _ => x
    end.
  Definition upd (dn : list (list string)) (r : row) : row :=
    match values r ds with Some v => if in_dec (list_eq_dec string_dec) v dn then with_loss r (scaled v (r_loss r)) else r | None => r end.
  Lemma upd_values dn r : values (upd dn r) ds = values r ds.
  Proof. unfold upd. destruct (values r ds) eqn:E; [|exact E]. destruct (in_dec _ _ _); [rewrite values_with_loss|]; exact E. Qed.
  Lemma selected_upd dn c r : length c = length ds -> selected ds c (upd dn r) = selected ds c r.
  Proof.
    intros L. destruct (selected ds c r) eqn:E.
    - apply selected_values in E; [|exact L]. apply selected_values; [exact L|]. now rewrite upd_values.
    - apply not_true_iff_false. apply not_true_iff_false in E. intros H. apply E. apply selected_values in H; [|exact L]. apply selected_values; [exact L|]. now rewrite upd_values in H.
  Qed.
  Lemma case_step dn c m M : length c = length ds -> ~ In c dn -> py_min (peers c) = Ok m -> py_max (filter (fun x => fl_lt x limit) (peers c)) = Ok M ->
    normalize_case limit ds (map (upd dn) rows) c = Ok (map (upd (c :: dn)) rows).
  Proof.
    intros L N Em EM. unfold normalize_case.
    assert (P : map r_loss (filter (selected ds c) (map (upd dn) rows)) = peers c).
    { unfold peers. induction rows as [|r rs IH]; [reflexivity|]. cbn [map filter]. rewrite selected_upd by exact L. destruct (selected ds c r) eqn:E; [|exact IH]. cbn [map]. f_equal; [|exact IH].
      apply selected_values in E; [|exact L]. unfold upd. rewrite E. destruct (in_dec _ _ _); [contradiction|reflexivity]. }
    rewrite P, Em. cbn [bind]. rewrite EM. cbn [bind]. f_equal. rewrite map_map. apply map_ext. intros r. rewrite selected_upd by exact L. destruct (selected ds c r) eqn:E.
    - apply selected_values in E; [|exact L]. unfold upd. rewrite E. destruct (in_dec _ c dn); [contradiction|]. destruct (in_dec _ c (c :: dn)) as [_|K]; [|elim K; now left]. unfold scaled. rewrite Em, EM. reflexivity.
    - unfold upd. destruct (values r ds) as [v|] eqn:E'; [|reflexivity]. assert (Nv : v <> c) by (intros ->; apply not_true_iff_false in E; apply E; apply selected_values; assumption).
      destruct (in_dec _ v dn) as [K|K]; destruct (in_dec _ v (c :: dn)) as [K'|K']; try reflexivity; [elim K'; now right|]. destruct K' as [K'|K']; [congruence|contradiction].
  Qed.
  Lemma cases_steps cs : forall dn, NoDup cs -> (forall c, In c cs -> ~ In c dn) ->
    (forall c, In c cs -> length c = length ds /\ (exists m, py_min (peers c) = Ok m) /\ exists M, py_max (filter (fun x => fl_lt x limit) (peers c)) = Ok M) ->
    normalize_cases limit ds cs (map (upd dn) rows) = Ok (map (upd (rev cs ++ dn)) rows).
  Proof.
    induction cs as [|c cs IH]; intros dn ND D H; [reflexivity|]. inversion ND as [|? ? Nc ND']; subst. destruct (H c (or_introl eq_refl)) as (L & (m & Em) & M & EM). cbn [normalize_cases].
    rewrite (case_step dn c m M L (D c (or_introl eq_refl)) Em EM). cbn [bind]. rewrite IH; [|exact ND'| |intros; apply H; now right].
    - cbn [rev]. now rewrite <- app_assoc.
    - intros c' Hc' [<-|K]; [contradiction|]. exact (D c' (or_intror Hc') K).
  Qed.
End Normalize.
Lemma upd_nil ds limit rows r : upd limit ds rows [] r = r.
Proof. unfold upd. destruct (values r ds); reflexivity. Qed.
Lemma peers_in ds rows c x : length c = length ds -> In x (peers ds rows c) <-> exists r, In r rows /\ values r ds = Some c /\ r_loss r = x.
Proof.
  intros L. unfold peers. rewrite in_map_iff. split.
  - intros (r & E & H). apply filter_In in H. destruct H as (H & K). apply selected_values in K; [|exact L]. now exists r.
  - intros (r & H & K & E). exists r. split; [exact E|]. apply filter_In. split; [exact H|]. now apply selected_values.
Qed.
Lemma case_bounds limit ds t r : complete t ds -> In r (t_rows t) -> (exists r', In r' (t_rows t) /\ same_case ds r r' /\ fl_lt (r_loss r') limit = true) ->
  exists v a b, values r ds = Some v /\ py_min (peers ds (t_rows t) v) = Ok (Fin a) /\ py_max (filter (fun x => fl_lt x limit) (peers ds (t_rows t) v)) = Ok (Fin b) /\
    smallest ds (t_rows t) r a /\ largest limit ds (t_rows t) r b.
Proof.
  intros (A & B & C) Hr (r' & Hr' & S' & L'). destruct (values_some ds r (fun d Hd => B r d Hr Hd)) as (v & Ev). pose proof (values_length ds r v Ev) as Lv. set (rows := t_rows t) in *.
  assert (In0 : In (r_loss r') (peers ds rows v)) by (apply peers_in; [exact Lv|]; exists r'; split; [exact Hr'|]; split; [|reflexivity]; now apply (values_same ds r r' v Ev)).
  assert (Pr : Forall proper (peers ds rows v)) by (apply Forall_forall; intros x Hx; apply peers_in in Hx; [|exact Lv]; destruct Hx as (r0 & H0 & _ & <-); apply C, H0).
  destruct (py_min_spec (peers ds rows v)) as (m & Em & Im & Bm); [intros E; rewrite E in In0; destruct In0|exact Pr|].
  assert (In1 : In (r_loss r') (filter (fun x => fl_lt x limit) (peers ds rows v))) by (apply filter_In; auto).
  destruct (py_max_spec (filter (fun x => fl_lt x limit) (peers ds rows v))) as (M & EM & IM & BM); [intros E; rewrite E in In1; destruct In1| |].
  { apply Forall_forall. intros x Hx. apply filter_In in Hx. rewrite Forall_forall in Pr. now apply Pr. }
  assert (Fm : exists a, m = Fin a).
  { pose proof (Bm _ In0) as K. rewrite Forall_forall in Pr. destruct (Pr m Im) as (a & [->| ->]); [now exists a|]. destruct (r_loss r'); cbn in K; try discriminate K. destruct limit; discriminate L'. }
  destruct Fm as (a & ->). apply filter_In in IM. destruct IM as (IM & LM). assert (FM : exists b, M = Fin b).
  { rewrite Forall_forall in Pr. destruct (Pr M IM) as (b & [->| ->]); [now exists b|]. destruct limit; discriminate LM. }
  destruct FM as (b & ->). exists v, a, b. split; [exact Ev|]. split; [exact Em|]. split; [exact EM|]. split; split.
  - apply peers_in in Im; [|exact Lv]. destruct Im as (r0 & H0 & V0 & E0). exists r0. split; [exact H0|]. split; [now apply (values_same ds r r0 v Ev)|exact E0].
  - intros r0 H0 S0. apply Bm. apply peers_in; [exact Lv|]. exists r0. split; [exact H0|]. split; [now apply (values_same ds r r0 v Ev)|reflexivity].
  - apply peers_in in IM; [|exact Lv]. destruct IM as (r0 & H0 & V0 & E0). exists r0. split; [exact H0|]. split; [now apply (values_same ds r r0 v Ev)|]. now split.
  - intros r0 H0 S0 L0. apply BM. apply filter_In. split; [|exact L0]. apply peers_in; [exact Lv|]. exists r0. split; [exact H0|]. split; [now apply (values_same ds r r0 v Ev)|reflexivity].
Qed.
Lemma bounds_order limit ds rows r a b : smallest ds rows r a -> largest limit ds rows r b -> (a <= b)%Q.
Proof. intros (_ & A) ((r' & H & S0 & E & _) & _). specialize (A r' H S0). rewrite E in A. now apply qle_iff in A. Qed.
Lemma normalized_spec order limit t ds : (forall l, Permutation (order l) l) -> complete t ds -> t_rows t <> [] ->
  (forall r, In r (t_rows t) -> exists r', In r' (t_rows t) /\ same_case ds r r' /\ fl_lt (r_loss r') limit = true) ->
  exists t', normalized_losses order limit t ds = Ok t' /\ t_columns t' = t_columns t /\ length (t_rows t') = length (t_rows t) /\
  forall k r, nth_error (t_rows t) k = Some r -> exists r' a b, nth_error (t_rows t') k = Some r' /\ r' = with_loss r (r_loss r') /\
    smallest ds (t_rows t) r a /\ largest limit ds (t_rows t) r b /\ (a <= b)%Q /\
    ((a == b)%Q -> r_loss r' = Fin 1) /\
    ((a < b)%Q -> match r_loss r with Fin x => exists y, r_loss r' = Fin y /\ (y == (x - a) / (b - a))%Q | z => r_loss r' = z end).
Proof.
  intros Or C N Lim. unfold normalized_losses. destruct (unique_spec t ds C) as (vs & U & _). rewrite U. cbn [bind]. fold (cases_of order vs). destruct (cases_spec order t ds vs Or C N U) as (ND & Cs). set (cs := cases_of order vs) in *.
  assert (E : normalize_cases limit ds cs (t_rows t) = Ok (map (upd limit ds (t_rows t) (rev cs)) (t_rows t))).
  { rewrite <- (map_id (t_rows t)) at 1. rewrite (map_ext (fun r => r) (upd limit ds (t_rows t) [])) by (intros; symmetry; apply upd_nil). rewrite cases_steps; [now rewrite app_nil_r|exact ND|intros c _ []|].
    intros c Hc. apply Cs in Hc. destruct Hc as (r & Hr & Ev). destruct (case_bounds limit ds t r C Hr (Lim r Hr)) as (v & a & b & Ev' & Em & EM & _). assert (v = c) by congruence. subst v.
    split; [exact (values_length ds r c Ev)|]. split; eauto. }
  rewrite E. cbn [bind]. eexists. split; [reflexivity|]. cbn [t_columns t_rows]. split; [reflexivity|]. split; [apply map_length|]. intros k r Hk. pose proof (nth_error_In _ _ Hk) as Hr.
  destruct (case_bounds limit ds t r C Hr (Lim r Hr)) as (v & a & b & Ev & Em & EM & Sm & La). exists (with_loss r (scaled limit ds (t_rows t) v (r_loss r))), a, b.
  assert (Iv : In v (rev cs)) by (apply -> in_rev; apply Cs; now exists r).
  split; [erewrite map_nth_error by exact Hk; unfold upd; rewrite Ev; destruct (in_dec _ _ _); [reflexivity|contradiction]|]. split; [reflexivity|]. split; [exact Sm|]. split; [exact La|].
  pose proof (bounds_order limit ds (t_rows t) r a b Sm La) as O. split; [exact O|]. cbn [r_loss with_loss]. unfold scaled. rewrite Em, EM. cbn [fl_eqb]. split.
  - intros E1. rewrite (proj2 (Qeq_bool_iff b a)) by (symmetry; exact E1). reflexivity.
  - intros E1. destruct (Qeq_bool b a) eqn:E2; [apply Qeq_bool_iff in E2; lra|]. destruct C as (_ & _ & C). destruct (C r Hr) as (x & [Ex|Ex]); rewrite Ex; cbn.
    + eexists. split; [reflexivity|]. unfold Qdiv. reflexivity.
    + assert (P : (0 < / (b - a))%Q) by (apply Qinv_lt_0_compat; lra). assert (P' : qlt 0 (/ (b + - a)) = true) by (apply qlt_iff; exact P). now rewrite P'.
Qed.

(** * Removal of the errors *)
Lemma filter_filter {A} (f g : A -> bool) l : filter f (filter g l) = filter (fun x => g x && f x) l.
Proof. induction l as [|x l IH]; [reflexivity|]. cbn [filter]. destruct (g x) eqn:E; cbn [filter andb]; [destruct (f x); now rewrite IH|exact IH]. Qed.
Lemma loc_skip labels r rows : ~ In (r_label r) labels -> loc labels (r :: rows) = loc labels rows.
Proof.
  unfold loc. induction labels as [|i labels IH]; intros N; [reflexivity|]. cbn [flat_map filter]. destruct (Nat.eqb_spec (r_label r) i) as [E|_]; [elim N; now left|]. f_equal. apply IH. intros H. apply N. now right.
Qed.
Lemma filter_label_none i rows : ~ In i (map r_label rows) -> filter (fun r => r_label r =? i) rows = [].
Proof. induction rows as [|r rows IH]; intros N; [reflexivity|]. cbn [filter]. destruct (Nat.eqb_spec (r_label r) i) as [E|_]; [elim N; now left|]. apply IH. intros H. apply N. now right. Qed.
Lemma loc_unique (keep : row -> bool) rows : NoDup (map r_label rows) -> loc (map r_label (filter keep rows)) rows = filter keep rows.
Proof.
  induction rows as [|r rows IH]; intros ND; [reflexivity|]. cbn [map] in ND. inversion ND as [|? ? Nr ND']; subst. cbn [filter].
  assert (Sub : ~ In (r_label r) (map r_label (filter keep rows))).
  { intros H. apply Nr. apply in_map_iff in H. destruct H as (r' & E & H). apply filter_In in H. rewrite <- E. apply in_map, H. }
  destruct (keep r).
  - cbn [map]. set (ls := map r_label (filter keep rows)) in *. change (loc (r_label r :: ls) (r :: rows)) with (filter (fun r' => r_label r' =? r_label r) (r :: rows) ++ loc ls (r :: rows)). cbn [filter]. rewrite Nat.eqb_refl, (filter_label_none _ _ Nr). cbn [app]. f_equal. rewrite loc_skip by exact Sub. apply IH, ND'.
  - rewrite loc_skip by exact Sub. apply IH, ND'.
Qed.
Lemma kept_labels rows : NoDup (map r_label rows) ->
  filter (fun i => negb (existsb (Nat.eqb i) (map r_label (filter (fun r => is_nan (r_loss r)) rows)))) (map r_label rows) = map r_label (filter (fun r => negb (is_nan (r_loss r))) rows).
Proof.
  intros ND. set (err := map r_label _).
  assert (H : forall r, In r rows -> existsb (Nat.eqb (r_label r)) err = is_nan (r_loss r)).
  { intros r Hr. destruct (is_nan (r_loss r)) eqn:E.
    - apply existsb_exists. exists (r_label r). split; [|apply Nat.eqb_refl]. unfold err. apply in_map. apply filter_In. auto.
    - apply not_true_iff_false. intros K. apply existsb_exists in K. destruct K as (i & K & Ei). apply Nat.eqb_eq in Ei. subst i. unfold err in K. apply in_map_iff in K. destruct K as (r' & El & K). apply filter_In in K. destruct K as (K & Kn).
      assert (r' = r); [|congruence]. clear - ND Hr K El. induction rows as [|x rows IH]; [destruct Hr|]. cbn in ND. inversion ND as [|? ? N ND']; subst. destruct Hr as [->|Hr], K as [->|K]; try reflexivity.
      + elim N. rewrite <- El. apply in_map, K.
      + elim N. rewrite El. apply in_map, Hr.
      + now apply IH. }
  clearbody err. clear ND. induction rows as [|r rows IH]; [reflexivity|]. cbn [map filter]. rewrite (H r (or_introl eq_refl)). destruct (is_nan (r_loss r)); cbn [negb map]; [|f_equal]; apply IH; intros r' Hr'; apply H; now right.
Qed.
Lemma loc_good rows r : In r (loc (filter (fun i => negb (existsb (Nat.eqb i) (map r_label (filter (fun r => is_nan (r_loss r)) rows)))) (map r_label rows)) rows) -> is_nan (r_loss r) = false.
Proof.
  unfold loc. intros H. apply in_flat_map in H. destruct H as (i & Hi & H). apply filter_In in Hi, H. destruct Hi as (_ & Hi), H as (H & E). apply Nat.eqb_eq in E. apply negb_true_iff in Hi. apply not_true_iff_false. intros K. apply not_true_iff_false in Hi. apply Hi. apply existsb_exists.
  exists i. split; [|apply Nat.eqb_refl]. rewrite <- E. apply in_map. apply filter_In. auto.
Qed.
Lemma remove_ok t : exists t', remove_errors t = Ok t'.
Proof.
  unfold remove_errors. destruct (negb _); [now eexists|]. destruct (existsb _ _) eqn:E; [|now eexists]. exfalso. apply existsb_exists in E. destruct E as (r & H & K). apply in_map_iff in H. destruct H as (r' & <- & H). cbn in K. apply loc_good in H. congruence.
Qed.
Lemma relabel_length rows : length (relabel rows) = length rows.
Proof. unfold relabel. rewrite map_length, combine_length, seq_length. lia. Qed.
Lemma relabel_nth rows k r : nth_error rows k = Some r -> nth_error (relabel rows) k = Some (Row k (r_cells r) (r_error r) (r_loss r)).
Proof.
  intros H. unfold relabel. assert (L : k < length rows) by (apply nth_error_Some; congruence). 
  assert (E : nth_error (combine (seq 0 (length rows)) rows) k = Some (k, r)); [|erewrite map_nth_error by exact E; reflexivity].
  clear L. change k with (0 + k) at 2. generalize 0 as s. revert k H. induction rows as [|x rows IH]; intros [|k] H s; try discriminate H; [injection H as ->; cbn; now rewrite Nat.add_0_r|]. cbn [length seq combine nth_error]. rewrite (IH k H (S s)). now rewrite Nat.add_succ_r.
Qed.

(** * Names *)
Lemma nodup_several {A} (dec : forall x y : A, {x = y} + {x <> y}) l : 1 < length (nodup dec l) <-> exists x y, In x l /\ In y l /\ x <> y.
Proof.
  split.
  - intros H. destruct (nodup dec l) as [|x [|y m]] eqn:E; cbn in H; try lia. exists x, y. assert (K : forall z, In z (nodup dec l) -> In z l) by (intros z; apply nodup_In). rewrite E in K. split; [apply K; now left|]. split; [apply K; right; now left|].
    pose proof (NoDup_nodup dec l) as N. rewrite E in N. inversion N as [|? ? N1 _]; subst. intros ->. apply N1. now left.
  - intros (x & y & Hx & Hy & N). apply (nodup_In dec) in Hx, Hy. destruct (nodup dec l) as [|a [|b m]]; [destruct Hx| |cbn; lia]. destruct Hx as [<-|[]], Hy as [<-|[]]. congruence.
Qed.
Lemma variants_several others rows : 1 < length (variants others rows) <-> exists r1 r2 c, In r1 rows /\ In r2 rows /\ In c others /\ filled r1 c <> filled r2 c.
Proof.
  assert (D : forall r1 r2, map (filled r1) others <> map (filled r2) others <-> exists c, In c others /\ filled r1 c <> filled r2 c).
  { intros r1 r2. induction others as [|c cs IH]; [cbn; split; [congruence|intros (c & [] & _)]|]. cbn [map]. destruct (string_dec (filled r1 c) (filled r2 c)) as [E|E].
    - rewrite E. split.
      + intros H. destruct (proj1 IH) as (c' & Hc & K); [congruence|]. exists c'. split; [now right|exact K].
      + intros (c' & [<-|Hc] & K); [contradiction|]. intros H. injection H as H. revert H. apply IH. now exists c'.
    - split; [intros _; exists c; split; [now left|exact E]|]. intros _ H. injection H as H _. contradiction. }
  unfold variants. destruct others as [|c0 cs]; [cbn; split; [lia|intros (? & ? & ? & _ & _ & [] & _)]|]. set (others := c0 :: cs) in *. rewrite nodup_several. split.
  - intros (x & y & Hx & Hy & N). apply in_map_iff in Hx, Hy. destruct Hx as (r1 & <- & H1), Hy as (r2 & <- & H2). apply D in N. destruct N as (c & Hc & N). now exists r1, r2, c.
  - intros (r1 & r2 & c & H1 & H2 & Hc & N). exists (map (filled r1) others), (map (filled r2) others). split; [now apply (in_map (fun r => map (filled r) others))|]. split; [now apply (in_map (fun r => map (filled r) others))|]. apply D. now exists c.
Qed.
Lemma look_set c v l c' : look c' (set_cell c v l) = if String.eqb c' c then Some v else look c' l.
Proof.
  induction l as [|(x, w) l IH]; cbn [set_cell look]; [destruct (String.eqb c' c); reflexivity|]. destruct (String.eqb_spec c x) as [<-|N]; cbn [look]; [destruct (String.eqb c' c) eqn:E; reflexivity|]. rewrite IH. destruct (String.eqb_spec c' x) as [->|_]; [|reflexivity].
  destruct (String.eqb_spec x c); [congruence|reflexivity].
Qed.
Lemma cell_with_name r n c : cell (with_name r n) c = if String.eqb c okey then Some n else cell r c.
Proof. unfold cell, with_name. cbn [r_cells]. rewrite look_set. destruct (String.eqb c okey); reflexivity. Qed.
Lemma look_filter (keep : string -> bool) l c : look c (filter (fun cv : string * option string => keep (fst cv)) l) = if keep c then look c l else None.
Proof.
  induction l as [|(x, w) l IH]; [cbn; now destruct (keep c)|]. cbn [filter fst look]. destruct (keep x) eqn:E; cbn [look]; rewrite IH; destruct (String.eqb_spec c x) as [->|N]; try reflexivity; now rewrite E.
Qed.
Lemma append_cancel a b c : (a ++ b)%string = (a ++ c)%string -> b = c.
Proof. induction a as [|x a IH]; intros H; [exact H|]. apply IH. now injection H. Qed.
Lemma append_cancel_r a b : forall c, (b ++ a)%string = (c ++ a)%string -> b = c.
Proof.
  assert (L : forall x y, String.length (x ++ y)%string = String.length x + String.length y) by (induction x as [|z x IH]; intros y; [reflexivity|cbn; now rewrite IH]).
  induction b as [|x b IH]; intros [|y c] H; [reflexivity| | |].
  - apply (f_equal String.length) in H. cbn in H. rewrite L in H. lia.
  - apply (f_equal String.length) in H. cbn in H. rewrite L in H. lia.
  - cbn in H. injection H as -> H. f_equal. now apply IH.
Qed.

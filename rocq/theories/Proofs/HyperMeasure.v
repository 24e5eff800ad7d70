(** Volumes of unions of boxes, by slices. *)
From Coq Require Import QArith Bool List Arith Lia Lqa Permutation Sorting Qminmax.
From Verif.Model Require Import Prelude MultiValue Nsga2.
From Verif.Spec Require Import Hypervolume.
From Verif.Proofs Require Import Prelude MultiValue Nsga2.
Import ListNotations.
Open Scope nat_scope.

Section Volume.
Context {T : Type}.
(** coordinates, and for each dimension the places of a grid *)
Variable co : nat -> T -> Q.
Variable grid : nat -> list Q.
Definition wsum (f : Q -> Q) (l : list (Q * Q)) : Q := fold_right (fun tw s => snd tw * f (fst tw) + s)%Q 0%Q l.
Fixpoint V (D : nat) (P : list T) : Q :=
  match D with
  | O => match P with [] => 0%Q | _ => 1%Q end
  | S D' => wsum (fun t => V D' (filter (fun p => qle (co D' p) t) P)) (steps (grid D') 0)
  end.
Hypothesis grid_sorted : forall i, StronglySorted Qle (grid i).
Hypothesis grid_neg : forall i x, In x (grid i) -> (x <= 0)%Q.

Lemma steps_nonneg stop : forall l, StronglySorted Qle l -> (forall x, In x l -> x <= stop)%Q -> forall tw, In tw (steps l stop) -> In (fst tw) l /\ (0 <= snd tw)%Q.
Proof.
  induction l as [|a l IH]; intros Hs Hn tw Ht; [destruct Ht|]. cbn [steps] in Ht. inversion Hs as [|? ? Hs' HF]; subst. destruct Ht as [<-|Ht].
  - cbn. split; [left; reflexivity|]. destruct l as [|b l]; [pose proof (Hn a (or_introl eq_refl)); lra|]. inversion HF; subst. lra.
  - destruct (IH Hs' (fun x Hx => Hn x (or_intror Hx)) tw Ht) as [H1 H2]. split; [right; exact H1|exact H2].
Qed.
Lemma wsum_le f g l : (forall tw, In tw l -> (0 <= snd tw)%Q /\ (f (fst tw) <= g (fst tw))%Q) -> (wsum f l <= wsum g l)%Q.
Proof.
  induction l as [|[t w] l IH]; intros H; cbn; [lra|]. specialize (IH (fun tw Ht => H tw (or_intror Ht))). destruct (H (t, w) (or_introl eq_refl)) as [H1 H2]. cbn in *.
  unfold wsum in IH. apply Qplus_le_compat; [|exact IH]. rewrite !(Qmult_comm w). apply Qmult_le_compat_r; assumption.
Qed.
Lemma wsum_ext f g l : (forall tw, In tw l -> (f (fst tw) == g (fst tw))%Q) -> (wsum f l == wsum g l)%Q.
Proof. induction l as [|[t w] l IH]; intros H; cbn; [reflexivity|]. rewrite (H (t, w) (or_introl eq_refl)). unfold wsum in IH. rewrite IH; [reflexivity|]. intros tw Ht. apply H. right. exact Ht. Qed.
Lemma wsum_plus f g l : (wsum (fun t => f t + g t) l == wsum f l + wsum g l)%Q.
Proof. induction l as [|[t w] l IH]; cbn; [reflexivity|]. unfold wsum in IH. rewrite IH. cbn. ring. Qed.
Lemma wsum_scale c f l : (wsum (fun t => c * f t) l == c * wsum f l)%Q.
Proof. induction l as [|[t w] l IH]; cbn; [ring|]. unfold wsum in IH. rewrite IH. cbn. ring. Qed.
Lemma wsum_zero f l : (forall tw, In tw l -> (f (fst tw) == 0)%Q) -> (wsum f l == 0)%Q.
Proof. intros H. rewrite (wsum_ext f (fun _ => 0 * 0)%Q) by (intros tw Ht; rewrite (H tw Ht); reflexivity). rewrite wsum_scale. ring. Qed.
Lemma grid_steps i tw : In tw (steps (grid i) 0) -> In (fst tw) (grid i) /\ (0 <= snd tw)%Q.
Proof. apply steps_nonneg; [apply grid_sorted|apply grid_neg]. Qed.

Lemma V_nil D : (V D [] == 0)%Q.
Proof. induction D as [|D IH]; cbn; [reflexivity|]. apply wsum_zero. intros tw _. exact IH. Qed.
Lemma V_mono D : forall P P', incl P P' -> (V D P <= V D P')%Q.
Proof.
  induction D as [|D IH]; intros P P' H.
  - cbn. destruct P as [|p P], P' as [|p' P']; try lra. exfalso. exact (H p (or_introl eq_refl)).
  - cbn [V]. apply wsum_le. intros tw Ht. apply grid_steps in Ht as [_ Ht]. split; [exact Ht|]. apply IH. intros x Hx. apply filter_In in Hx as [H1 H2]. apply filter_In. split; [apply H; exact H1|exact H2].
Qed.
Lemma V_nonneg D P : (0 <= V D P)%Q.
Proof. rewrite <- (V_nil D). apply V_mono. intros x []. Qed.
Lemma V_same D P P' : incl P P' -> incl P' P -> (V D P == V D P')%Q.
Proof. intros H1 H2. apply Qle_antisym; apply V_mono; assumption. Qed.
Lemma V_perm D P P' : Permutation P P' -> (V D P == V D P')%Q.
Proof. intros H. apply V_same; intros x Hx; [eapply Permutation_in; eassumption|eapply Permutation_in; [symmetry; eassumption|exact Hx]]. Qed.
Lemma V_sub D : forall x P P', incl P P' -> (V D (x :: P') - V D P' <= V D (x :: P) - V D P)%Q.
Proof.
  induction D as [|D IH]; intros x P P' H.
  - cbn. destruct P as [|p P], P' as [|p' P']; try lra. exfalso. exact (H p (or_introl eq_refl)).
  - cbn [V].
    assert (Hle : (wsum (fun t => V D (filter (fun p => qle (co D p) t) (x :: P')) + V D (filter (fun p => qle (co D p) t) P)) (steps (grid D) 0)
      <= wsum (fun t => V D (filter (fun p => qle (co D p) t) (x :: P)) + V D (filter (fun p => qle (co D p) t) P')) (steps (grid D) 0))%Q).
    { apply wsum_le. intros tw Ht. apply grid_steps in Ht as [_ Ht]. split; [exact Ht|]. set (t := fst tw). 
      assert (Hf : incl (filter (fun p => qle (co D p) t) P) (filter (fun p => qle (co D p) t) P')) by (intros z Hz; apply filter_In in Hz as [H1 H2]; apply filter_In; split; [apply H; exact H1|exact H2]).
      cbn [filter]. destruct (qle (co D x) t); [specialize (IH x _ _ Hf); lra|lra]. }
    rewrite !wsum_plus in Hle. lra.
Qed.
Definition null D x P : Prop := (V D (x :: P) == V D P)%Q.
Lemma null_more D x P P' : incl P P' -> null D x P -> null D x P'.
Proof. unfold null. intros H H0. pose proof (V_sub D x P P' H) as H1. pose proof (V_mono D P' (x :: P') ltac:(intros z Hz; right; exact Hz)) as H2. lra. Qed.
Lemma null_dom D : forall x y P, In y P -> (forall i, i < D -> (co i y <= co i x)%Q) -> null D x P.
Proof.
  unfold null. induction D as [|D IH]; intros x y P Hy Hle.
  - destruct P; [destruct Hy|reflexivity].
  - cbn [V]. apply wsum_ext. intros tw _. cbn [filter]. destruct (qle (co D x) (fst tw)) eqn:E; [|reflexivity]. apply (IH x y).
    + apply filter_In. split; [exact Hy|]. apply qle_iff. apply qle_iff in E. eapply Qle_trans; [apply Hle; lia|exact E].
    + intros i Hi. apply Hle. lia.
Qed.
(** sum of the widths from a place of the grid on *)
Lemma widths_from_stop stop c : forall l, StronglySorted Qle l -> (exists a, In a l /\ (a == c)%Q) -> (wsum (fun t => if qle c t then 1 else 0) (steps l stop) == stop - c)%Q.
Proof.
  induction l as [|a l IH]; intros Hs [a0 [Hin Ha0]]; [destruct Hin|]. inversion Hs as [|? ? Hs' HF]; subst. destruct (qle c a) eqn:E.
  - assert (Hca : (c == a)%Q).
    { apply qle_iff in E. destruct Hin as [-> |Hin]; [symmetry; exact Ha0|]. rewrite Forall_forall in HF. specialize (HF a0 Hin). lra. }
    cbn [steps wsum fold_right fst snd]. rewrite E. rewrite Hca. clear - HF Hs' Hca. revert a Hca HF. induction l as [|b l IH]; intros a Hca HF; cbn [steps fold_right fst snd]; [ring|].
    inversion HF as [|? ? Hab HF']; subst. inversion Hs' as [|? ? Hs'' HFb]; subst. assert (E : qle c b = true) by (apply qle_iff; lra). rewrite E.
    assert (H : forall b' l', StronglySorted Qle l' -> Forall (Qle b') l' -> (c <= b')%Q -> (fold_right (fun tw s => snd tw * (if qle c (fst tw) then 1 else 0) + s)%Q 0%Q (steps l' stop) == match l' with [] => 0 | x :: _ => stop - x end)%Q).
    { clear. intros b' l'. revert b'. induction l' as [|x l' IH]; intros b' Hs Hf Hc; cbn; [reflexivity|]. inversion Hf as [|? ? Hx Hf']; subst. inversion Hs as [|? ? Hs' Hfx]; subst.
      assert (E : qle c x = true) by (apply qle_iff; lra). rewrite E. rewrite (IH x Hs' Hfx ltac:(lra)). destruct l'; ring. }
    rewrite (H b l Hs'' HFb ltac:(lra)). destruct l; ring.
  - cbn [steps wsum fold_right fst snd]. rewrite E. destruct Hin as [-> |Hin]; [exfalso; assert (qle c a0 = true) by (apply qle_iff; lra); congruence|].
    unfold wsum in IH. rewrite (IH Hs' (ex_intro _ a0 (conj Hin Ha0))). ring.
Qed.
Lemma widths_from c l : StronglySorted Qle l -> (exists a, In a l /\ (a == c)%Q) -> (wsum (fun t => if qle c t then 1 else 0) (steps l 0) == - c)%Q.
Proof. intros H1 H2. rewrite (widths_from_stop 0 c l H1 H2). ring. Qed.
Definition on_grid i (x : T) : Prop := exists a, In a (grid i) /\ (a == co i x)%Q.
Lemma V_increment D x P : on_grid D x -> (forall y, In y P -> co D y <= co D x)%Q -> (V (S D) (x :: P) == V (S D) P - co D x * (V D (x :: P) - V D P))%Q.
Proof.
  intros Hg Hle. cbn [V].
  assert (E : (wsum (fun t => V D (filter (fun p => qle (co D p) t) (x :: P))) (steps (grid D) 0) ==
    wsum (fun t => V D (filter (fun p => qle (co D p) t) P) + (V D (x :: P) - V D P) * (if qle (co D x) t then 1 else 0)) (steps (grid D) 0))%Q).
  { apply wsum_ext. intros tw _. set (t := fst tw). cbn [filter]. destruct (qle (co D x) t) eqn:E; [|ring].
    assert (Hall : filter (fun p => qle (co D p) t) P = P).
    { clear - Hle E. induction P as [|y P IH]; cbn; [reflexivity|]. assert (Hy : qle (co D y) t = true) by (apply qle_iff; apply qle_iff in E; eapply Qle_trans; [apply Hle; left; reflexivity|exact E]).
      rewrite Hy. f_equal. apply IH. intros z Hz. apply Hle. right. exact Hz. }
    rewrite Hall. ring. }
  rewrite E, wsum_plus, wsum_scale, (widths_from (co D x) (grid D) (grid_sorted D) Hg). ring.
Qed.
Lemma V_single D x : on_grid D x -> (V (S D) [x] == - co D x * V D [x])%Q.
Proof. intros H. rewrite (V_increment D x [] H) by (intros y []). rewrite !V_nil. ring. Qed.
(** a coordinate equal to that of the reference *)
Lemma null_zero D : forall x P i, i < D -> (0 <= co i x)%Q -> (forall j, j < D -> on_grid j x) -> null D x P.
Proof.
  unfold null. induction D as [|D IH]; intros x P i Hi H0 Hg; [lia|].
  assert (Hz : (V (S D) [x] == 0)%Q).
  { rewrite V_single by (apply Hg; lia). destruct (Nat.eq_dec i D) as [-> |Hne].
    - destruct (Hg D ltac:(lia)) as [a [Ha Hax]]. pose proof (grid_neg D a Ha). assert (Hc : (co D x == 0)%Q) by lra. rewrite Hc. ring.
    - pose proof (IH x [] i ltac:(lia) H0 ltac:(intros j Hj; apply Hg; lia)) as H. rewrite H, V_nil. ring. }
  apply (null_more (S D) x [] P ltac:(intros z [])). unfold null. rewrite Hz, V_nil. reflexivity.
Qed.
(** a place below the reference starts a cell of positive width *)
Lemma wide_cell c : forall l, StronglySorted Qle l -> (exists a, In a l /\ (a == c)%Q) -> (c < 0)%Q -> exists tw, In tw (steps l 0) /\ (fst tw == c)%Q /\ (0 < snd tw)%Q.
Proof.
  induction l as [|a l IH]; intros Hs [a0 [Hin Ha0]] Hc; [destruct Hin|]. inversion Hs as [|? ? Hs' HF]; subst.
  assert (Hdec : (exists a1, In a1 l /\ (a1 == c)%Q) \/ ~ (exists a1, In a1 l /\ (a1 == c)%Q)).
  { clear. induction l as [|b l IHl]; [right; intros [? [[] _]]|]. destruct (Qeq_dec b c) as [E|E]; [left; exists b; split; [left; reflexivity|exact E]|]. destruct IHl as [[a1 [H1 H2]]|H]; [left; exists a1; split; [right; exact H1|exact H2]|].
    right. intros [a1 [[<-|H1] H2]]; [exact (E H2)|]. apply H. exists a1. auto. }
  destruct Hdec as [H|H].
  - destruct (IH Hs' H Hc) as [tw [H1 H2]]. exists tw. split; [right; exact H1|exact H2].
  - destruct Hin as [-> |Hin]; [|exfalso; apply H; exists a0; auto]. cbn [steps]. eexists. split; [left; reflexivity|]. cbn [fst snd]. split; [exact Ha0|]. destruct l as [|b l]; [lra|].
    inversion HF as [|? ? Hab _]; subst. destruct (Qlt_le_dec a0 b) as [Hlt|Hge]; [lra|]. exfalso. apply H. exists b. split; [left; reflexivity|]. lra.
Qed.
Lemma wsum_zero_inv f l : (forall tw, In tw l -> (0 <= snd tw)%Q /\ (0 <= f (fst tw))%Q) -> (wsum f l == 0)%Q -> forall tw, In tw l -> (snd tw * f (fst tw) == 0)%Q.
Proof.
  induction l as [|tw0 l IH]; intros H E tw Ht; [destruct Ht|]. cbn in E.
  assert (H1 : (0 <= snd tw0 * f (fst tw0))%Q) by (destruct (H tw0 (or_introl eq_refl)); apply Qmult_le_0_compat; assumption).
  assert (H2 : (0 <= wsum f l)%Q).
  { rewrite <- (wsum_zero (fun _ => 0%Q) l ltac:(reflexivity)). apply wsum_le. intros tw' Ht'. apply H. right. exact Ht'. }
  unfold wsum in H2. destruct Ht as [<-|Ht]; [lra|]. apply IH; [intros tw' Ht'; apply H; right; exact Ht'| |exact Ht]. unfold wsum. lra.
Qed.
Lemma null_dominated D : forall x P, (forall i, i < D -> on_grid i x /\ (co i x < 0)%Q) -> null D x P -> exists y, In y P /\ forall i, i < D -> (co i y <= co i x)%Q.
Proof.
  unfold null. induction D as [|D IH]; intros x P Hx H0.
  - destruct P as [|y P]; [cbn in H0; discriminate|]. exists y. split; [left; reflexivity|intros i Hi; lia].
  - cbn [V] in H0.
    assert (Hd : (wsum (fun t => V D (filter (fun p => qle (co D p) t) (x :: P)) + (-1) * V D (filter (fun p => qle (co D p) t) P)) (steps (grid D) 0) == 0)%Q) by (rewrite wsum_plus, wsum_scale, H0; ring).
    destruct (Hx D ltac:(lia)) as [Hg Hneg]. destruct (wide_cell (co D x) (grid D) (grid_sorted D) Hg Hneg) as [tw [Ht [Et Hw]]].
    assert (Hnn : forall tw', In tw' (steps (grid D) 0) -> (0 <= snd tw')%Q /\ (0 <= V D (filter (fun p => qle (co D p) (fst tw')) (x :: P)) + (-1) * V D (filter (fun p => qle (co D p) (fst tw')) P))%Q).
    { intros tw' Ht'. split; [apply (grid_steps D tw' Ht')|].
      pose proof (V_mono D (filter (fun p => qle (co D p) (fst tw')) P) (filter (fun p => qle (co D p) (fst tw')) (x :: P)) ltac:(intros z Hz; apply filter_In in Hz as [Hz1 Hz2]; apply filter_In; split; [right; exact Hz1|exact Hz2])) as Hm. lra. }
    pose proof (wsum_zero_inv _ _ Hnn Hd tw Ht) as Hz. cbv beta in Hz.
    assert (Hdiff : (V D (filter (fun p => qle (co D p) (fst tw)) (x :: P)) == V D (filter (fun p => qle (co D p) (fst tw)) P))%Q).
    { apply Qmult_integral in Hz as [Hz|Hz]; lra. }
    cbn [filter] in Hdiff. assert (E : qle (co D x) (fst tw) = true) by (apply qle_iff; lra). rewrite E in Hdiff.
    destruct (IH x _ ltac:(intros i Hi; apply Hx; lia) Hdiff) as [y [Hy Hle]]. apply filter_In in Hy as [Hy Hq]. exists y. split; [exact Hy|]. intros i Hi.
    destruct (Nat.eq_dec i D) as [-> |Hne]; [apply qle_iff in Hq; lra|]. apply Hle. lia.
Qed.
End Volume.

(** maps *)
Lemma V_map {T U : Type} (co : nat -> T -> Q) (co' : nat -> U -> Q) grid (f : U -> T) D : forall P, (forall u i, In u P -> i < D -> co i (f u) = co' i u) -> V co grid D (map f P) = V co' grid D P.
Proof.
  induction D as [|D IH]; intros P H; [destruct P; reflexivity|]. cbn [V]. assert (E : forall l, wsum (fun t => V co grid D (filter (fun p => qle (co D p) t) (map f P))) l = wsum (fun t => V co' grid D (filter (fun p => qle (co' D p) t) P)) l); [|apply E].
  induction l as [|[t w] l IHl]; [reflexivity|]. cbn. unfold wsum in IHl. rewrite IHl. do 2 f_equal.
  rewrite <- IH by (intros u i Hu Hi; apply filter_In in Hu as [Hu _]; apply H; [exact Hu|lia]). f_equal. clear - H. induction P as [|u P IHP]; [reflexivity|]. cbn. rewrite (H u D (or_introl eq_refl)) by lia.
  rewrite IHP by (intros v i Hv Hi; apply H; [right; exact Hv|exact Hi]). destruct (qle (co' D u) t); reflexivity.
Qed.

Section Joined.
Variable r : list Q.
Variable grid : nat -> list Q.
Hypothesis grid_sorted : forall i, StronglySorted Qle (grid i).
Hypothesis grid_neg : forall i x, In x (grid i) -> (x <= 0)%Q.
Definition rel (i : nat) (p : list Q) : Q := (nth i p 0 - nth i r 0)%Q.
Notation vol := (V rel grid).
Lemma join_length p q : length p = length q -> length (join p q) = length p.
Proof. intros H. unfold join. rewrite map_length, combine_length, <- H. lia. Qed.
Lemma join_nth : forall p q i, length p = length q -> i < length p -> nth i (join p q) 0%Q = Qmax (nth i p 0%Q) (nth i q 0%Q).
Proof. unfold join. induction p as [|x p IH]; intros [|y q] i H Hi; try discriminate; cbn in *; [lia|]. destruct i as [|i]; [reflexivity|]. apply IH; lia. Qed.
Lemma join_le p q i t : length p = length q -> i < length p -> qle (rel i (join p q)) t = qle (rel i p) t && qle (rel i q) t.
Proof.
  intros H Hi. apply eq_true_iff_eq. rewrite andb_true_iff, !qle_iff. unfold rel. rewrite join_nth by assumption.
  pose proof (Q.le_max_l (nth i p 0%Q) (nth i q 0%Q)). pose proof (Q.le_max_r (nth i p 0%Q) (nth i q 0%Q)). split; [intros Hx; split; lra|].
  intros [Ha Hb]. destruct (Q.max_spec (nth i p 0%Q) (nth i q 0%Q)) as [[_ E]|[_ E]]; rewrite E; lra.
Qed.
Lemma vol_union d D p : D <= d -> length p = d -> forall P, (forall q, In q P -> length q = d) -> (vol D (p :: P) == vol D [p] + vol D P - vol D (map (join p) P))%Q.
Proof.
  intros HD Hp. induction D as [|D IH]; intros P HP; [destruct P; cbn; ring|]. cbn [V].
  assert (E : (wsum (fun t => vol D (filter (fun q => qle (rel D q) t) (p :: P)) + vol D (filter (fun q => qle (rel D q) t) (map (join p) P))) (steps (grid D) 0) ==
    wsum (fun t => vol D (filter (fun q => qle (rel D q) t) [p]) + vol D (filter (fun q => qle (rel D q) t) P)) (steps (grid D) 0))%Q).
  { apply wsum_ext. intros tw _. set (t := fst tw).
    assert (Ef : filter (fun q => qle (rel D q) t) (map (join p) P) = if qle (rel D p) t then map (join p) (filter (fun q => qle (rel D q) t) P) else []).
    { clear - HP Hp HD. induction P as [|q P IHP]; cbn; [destruct (qle (rel D p) t); reflexivity|]. pose proof (HP q (or_introl eq_refl)) as Hq. rewrite join_le by lia. rewrite IHP by (intros z Hz; apply HP; right; exact Hz).
      destruct (qle (rel D p) t), (qle (rel D q) t); reflexivity. }
    rewrite Ef. cbn [filter]. destruct (qle (rel D p) t).
    - rewrite (IH ltac:(lia) (filter (fun q => qle (rel D q) t) P)) by (intros q Hq; apply filter_In in Hq; apply HP; tauto). ring.
    - rewrite !V_nil. ring. }
  rewrite !wsum_plus in E. lra.
Qed.
Definition product (l : list Q) : Q := fold_right Qmult 1%Q l.
Lemma product_app l m : (product (l ++ m) == product l * product m)%Q.
Proof. unfold product. induction l as [|x l IH]; cbn; [ring|]. rewrite IH. ring. Qed.
Definition gridded d p : Prop := length p = d /\ forall i, i < d -> on_grid rel grid i p.
Lemma vol_box p : gridded (length r) p -> (vol (length r) [p] == box r p)%Q.
Proof.
  intros [Hl Hg]. assert (H : forall D, D <= length r -> (vol D [p] == product (map (fun i => nth i r 0 - nth i p 0)%Q (seq 0 D)))%Q).
  { induction D as [|D IH]; intros HD; [cbn; reflexivity|]. rewrite (V_single rel grid grid_sorted D p (Hg D ltac:(lia))), (IH ltac:(lia)), seq_S, map_app, product_app. unfold rel. cbn. ring. }
  rewrite (H _ (le_n _)). clear - Hl. revert p Hl. induction r as [|y r' IH]; intros [|x p] Hl; try discriminate; [reflexivity|]. cbn [box length seq map]. rewrite <- seq_shift, map_map. cbn. cbn in IH. rewrite IH by (cbn in Hl; lia). reflexivity.
Qed.
Lemma gridded_join d p q : d <= length r -> gridded d p -> gridded d q -> gridded d (join p q).
Proof.
  intros Hd [L1 G1] [L2 G2]. split; [rewrite join_length; lia|]. intros i Hi. destruct (G1 i Hi) as [a [A1 A2]], (G2 i Hi) as [b [B1 B2]]. unfold on_grid, rel. rewrite join_nth by lia. unfold rel in A2, B2.
  destruct (Q.max_spec (nth i p 0%Q) (nth i q 0%Q)) as [[_ E]|[_ E]]; [exists b|exists a]; (split; [assumption|]); rewrite E; assumption.
Qed.
Lemma covered_vol : forall P m, gridded (length r) m -> (forall q, In q P -> gridded (length r) q) -> (covered r m P == vol (length r) (map (join m) P))%Q.
Proof.
  induction P as [|p P IH]; intros m Hm HP; [cbn [covered map]; rewrite V_nil; reflexivity|]. cbn [covered map].
  assert (Hp : gridded (length r) p) by (apply HP; left; reflexivity). assert (HP' : forall q, In q P -> gridded (length r) q) by (intros q Hq; apply HP; right; exact Hq).
  assert (Hj : gridded (length r) (join m p)) by (apply gridded_join; auto).
  rewrite (IH m Hm HP'), (IH (join m p) Hj HP'). rewrite (vol_union (length r) (length r) (join m p) (le_n _) (proj1 Hj)) by (intros q Hq; apply in_map_iff in Hq as [q' [<- Hq]]; apply (gridded_join (length r) m q'); auto).
  rewrite (vol_box _ Hj).
  assert (E : (vol (length r) (map (join (join m p)) P) == vol (length r) (map (join (join m p)) (map (join m) P)))%Q).
  { rewrite map_map. rewrite (V_map rel (fun i q => rel i (join (join m p) q)) grid (join (join m p))) by reflexivity.
    rewrite (V_map rel (fun i q => rel i (join (join m p) (join m q))) grid (fun q => join (join m p) (join m q))) by reflexivity.
    assert (HE : forall P0 D, (forall q, In q P0 -> length q = length r) -> D <= length r -> (V (fun i q => rel i (join (join m p) q)) grid D P0 == V (fun i q => rel i (join (join m p) (join m q))) grid D P0)%Q).
    { intros P0 D HP0 HD. revert P0 HP0. induction D as [|D IHD]; intros P0 HP0; [destruct P0; reflexivity|]. cbn [V]. apply wsum_ext. intros tw _.
      assert (Ef : filter (fun q => qle (rel D (join (join m p) q)) (fst tw)) P0 = filter (fun q => qle (rel D (join (join m p) (join m q))) (fst tw)) P0).
      { apply filter_ext_in. intros q Hq. pose proof (HP0 q Hq). destruct Hm as [Lm _], Hp as [Lp _]. rewrite !join_le by (rewrite ?join_length; rewrite ?join_length; lia).
        destruct (qle (rel D m) (fst tw)), (qle (rel D p) (fst tw)), (qle (rel D q) (fst tw)); reflexivity. }
      rewrite Ef. apply IHD; [lia|]. intros q Hq. apply filter_In in Hq. apply HP0. tauto. }
    apply HE; [intros q Hq; apply HP'; exact Hq|lia]. }
  rewrite E. reflexivity.
Qed.
Lemma union_vol : forall P, (forall q, In q P -> gridded (length r) q) -> (union_volume r P == vol (length r) P)%Q.
Proof.
  induction P as [|p P IH]; intros HP; [cbn [union_volume]; rewrite V_nil; reflexivity|]. cbn [union_volume].
  assert (Hp : gridded (length r) p) by (apply HP; left; reflexivity). assert (HP' : forall q, In q P -> gridded (length r) q) by (intros q Hq; apply HP; right; exact Hq).
  rewrite (IH HP'), (covered_vol P p Hp HP'), (vol_union (length r) (length r) p (le_n _) (proj1 Hp)) by (intros q Hq; apply HP'; exact Hq). rewrite (vol_box p Hp). reflexivity.
Qed.
End Joined.

(** Cells of a grid *)
Definition csum (f : list Q -> Q) (l : list (list Q * Q)) : Q := fold_right (fun c s => snd c * f (fst c) + s)%Q 0%Q l.
Lemma csum_ext f g l : (forall c, In c l -> (f (fst c) == g (fst c))%Q) -> (csum f l == csum g l)%Q.
Proof. induction l as [|c l IH]; intros H; cbn; [reflexivity|]. rewrite (H c (or_introl eq_refl)). unfold csum in IH. rewrite IH by (intros c' Hc; apply H; right; exact Hc). reflexivity. Qed.
Lemma csum_plus f g l : (csum (fun c => f c + g c) l == csum f l + csum g l)%Q.
Proof. induction l as [|c l IH]; cbn; [reflexivity|]. unfold csum in IH. rewrite IH. ring. Qed.
Lemma csum_scale a f l : (csum (fun c => a * f c) l == a * csum f l)%Q.
Proof. induction l as [|c l IH]; cbn; [ring|]. unfold csum in IH. rewrite IH. ring. Qed.
Lemma csum_app f l m : (csum f (l ++ m) == csum f l + csum f m)%Q.
Proof. unfold csum. induction l as [|c l IH]; cbn; [ring|]. rewrite IH. ring. Qed.
Lemma csum_map_scale f t w l : (csum f (map (fun c => (t :: fst c, w * snd c)%Q) l) == w * csum (fun c => f (t :: c)) l)%Q.
Proof. unfold csum. induction l as [|c l IH]; cbn; [ring|]. rewrite IH. ring. Qed.
Definition ind (P : list (list Q)) (corner : list Q) : Q := if dominatedb P corner then 1%Q else 0%Q.
Lemma cell_volume_csum grid r P : (cell_volume grid r P == csum (ind P) (cells grid r))%Q.
Proof. unfold cell_volume, csum, ind. induction (cells grid r) as [|c l IH]; cbn; [reflexivity|]. destruct (dominatedb P (fst c)); cbn; rewrite IH; ring. Qed.
Lemma cells_length : forall grid r c, length grid = length r -> In c (cells grid r) -> length (fst c) = length r.
Proof.
  induction grid as [|g grid IH]; intros [|y r] c H Hc; try discriminate; cbn in Hc; [destruct Hc as [<-|[]]; reflexivity|]. apply in_flat_map in Hc as [s [_ Hc]]. apply in_map_iff in Hc as [c' [<- Hc]]. cbn. f_equal. apply IH; [cbn in H; lia|exact Hc].
Qed.
Definition leb_all (p corner : list Q) : bool := forallb (fun xy => Qle_bool (fst xy) (snd xy)) (combine p corner).
Lemma leb_all_join : forall p q k, length p = length q -> leb_all (join p q) k = leb_all p k && leb_all q k.
Proof.
  unfold leb_all, join. induction p as [|x p IH]; intros [|y q] [|z k] H; try discriminate; try reflexivity. cbn in *. rewrite IH by lia.
  assert (E : Qle_bool (Qmax x y) z = Qle_bool x z && Qle_bool y z).
  { apply eq_true_iff_eq. rewrite andb_true_iff, !Qle_bool_iff. split; [intros H'; split; eapply Qle_trans; try exact H'; [apply Q.le_max_l|apply Q.le_max_r]|]. intros [H1 H2]. apply Q.max_lub; assumption. }
  rewrite E. destruct (Qle_bool x z), (Qle_bool y z), (forallb _ (combine p k)); reflexivity.
Qed.
Lemma ind_union p P k : (forall q, In q P -> length q = length p) -> (ind (p :: P) k == ind [p] k + ind P k - ind (map (join p) P) k)%Q.
Proof.
  intros H. unfold ind. assert (E : dominatedb (map (join p) P) k = leb_all p k && dominatedb P k).
  { induction P as [|q P IH]; cbn; [rewrite andb_false_r; reflexivity|]. fold (leb_all (join p q) k) (leb_all q k). rewrite leb_all_join by (symmetry; apply H; left; reflexivity).
    unfold dominatedb in IH. rewrite IH by (intros z Hz; apply H; right; exact Hz). destruct (leb_all p k), (leb_all q k); reflexivity. }
  rewrite E. cbn. fold (leb_all p k). fold (dominatedb P k). destruct (leb_all p k), (dominatedb P k); cbn; ring.
Qed.
(** every coordinate of the point is a place *)
Definition placed (grid : list (list Q)) (p : list Q) : Prop := Forall2 (fun places x => exists a, In a places /\ (a == x)%Q) grid p.
Lemma cells_box : forall grid r p, length grid = length r -> Forall (StronglySorted Qle) grid -> placed grid p -> (csum (ind [p]) (cells grid r) == box r p)%Q.
Proof.
  unfold placed. induction grid as [|g grid IH]; intros [|y r] p H Hs Hp; try discriminate; inversion Hp as [|? x ? p' Hx Hp']; subst; [cbn; ring|].
  inversion Hs as [|? ? Hg Hs']; subst. cbn [cells box].
  assert (E : forall st, (csum (ind [x :: p']) (flat_map (fun s => map (fun c => (fst s :: fst c, snd s * snd c)%Q) (cells grid r)) st) == wsum (fun t => if qle x t then 1 else 0) st * csum (ind [p']) (cells grid r))%Q).
  { induction st as [|[t w] st IHs]; cbn [flat_map wsum fold_right]; [cbn; ring|]. rewrite csum_app, csum_map_scale, IHs. cbn [fst snd]. unfold wsum.
    assert (Ei : (csum (fun c => ind [x :: p'] (t :: c)) (cells grid r) == (if qle x t then 1 else 0) * csum (ind [p']) (cells grid r))%Q).
    { rewrite <- csum_scale. apply csum_ext. intros k _. unfold ind. cbn. fold (qle x t). destruct (qle x t); cbn; [|ring]. destruct (forallb _ _); cbn; ring. }
    rewrite Ei. ring. }
  rewrite E, (widths_from_stop y x g Hg Hx), (IH r p' ltac:(cbn in H; lia) Hs' Hp'). reflexivity.
Qed.
Lemma placed_join grid p q : placed grid p -> placed grid q -> placed grid (join p q).
Proof.
  unfold placed, join. intros H. revert q. induction H as [|g x grid p Hx H IH]; intros q Hq; inversion Hq as [|? y ? q' Hy Hq']; subst; cbn; constructor; [|apply IH; exact Hq'].
  destruct Hx as [a [A1 A2]], Hy as [b [B1 B2]]. destruct (Q.max_spec x y) as [[_ E]|[_ E]]; [exists b|exists a]; (split; [assumption|]); rewrite E; assumption.
Qed.
Lemma placed_length grid p : placed grid p -> length p = length grid.
Proof. intros H. induction H; cbn; auto. Qed.
Lemma cells_nil G r : (csum (ind []) (cells G r) == 0)%Q.
Proof. induction (cells G r) as [|c l IH]; cbn; [reflexivity|]. unfold csum in IH. rewrite IH. unfold ind. cbn. ring. Qed.
Section Cells.
Variables (grid : list (list Q)) (r : list Q).
Hypothesis Hlen : length grid = length r.
Hypothesis Hsort : Forall (StronglySorted Qle) grid.
Lemma cells_union p P : placed grid p -> (forall q, In q P -> placed grid q) -> (csum (ind (p :: P)) (cells grid r) == box r p + csum (ind P) (cells grid r) - csum (ind (map (join p) P)) (cells grid r))%Q.
Proof.
  intros Hp HP. assert (E : (csum (fun k => ind (p :: P) k + ind (map (join p) P) k) (cells grid r) == csum (fun k => ind [p] k + ind P k) (cells grid r))%Q).
  { apply csum_ext. intros k _. rewrite (ind_union p P) by (intros q Hq; rewrite (placed_length _ _ Hp); apply placed_length, HP; exact Hq). ring. }
  rewrite !csum_plus, (cells_box grid r p Hlen Hsort Hp) in E. lra.
Qed.
Lemma covered_cells : forall P m, placed grid m -> (forall q, In q P -> placed grid q) -> (covered r m P == csum (ind (map (join m) P)) (cells grid r))%Q.
Proof.
  induction P as [|p P IH]; intros m Hm HP; [cbn [covered map]; rewrite cells_nil; reflexivity|]. cbn [covered map].
  assert (Hp : placed grid p) by (apply HP; left; reflexivity). assert (HP' : forall q, In q P -> placed grid q) by (intros q Hq; apply HP; right; exact Hq).
  assert (Hj : placed grid (join m p)) by (apply placed_join; assumption).
  rewrite (IH m Hm HP'), (IH (join m p) Hj HP'), (cells_union (join m p) (map (join m) P) Hj) by (intros q Hq; apply in_map_iff in Hq as [q' [<- Hq]]; apply placed_join; auto).
  assert (E : (csum (ind (map (join (join m p)) P)) (cells grid r) == csum (ind (map (join (join m p)) (map (join m) P))) (cells grid r))%Q).
  { apply csum_ext. intros k _. unfold ind. rewrite map_map. assert (Ed : dominatedb (map (join (join m p)) P) (fst k) = dominatedb (map (fun q => join (join m p) (join m q)) P) (fst k)); [|rewrite Ed; reflexivity].
    clear - HP' Hm Hp. induction P as [|q P IHP]; [reflexivity|]. cbn. unfold dominatedb in IHP. rewrite IHP by (intros z Hz; apply HP'; right; exact Hz). f_equal. fold (leb_all (join (join m p) q) (fst k)) (leb_all (join (join m p) (join m q)) (fst k)).
    pose proof (placed_length _ _ Hm). pose proof (placed_length _ _ Hp). pose proof (placed_length _ _ (HP' q (or_introl eq_refl))). rewrite !leb_all_join by (rewrite ?join_length; rewrite ?join_length; lia).
    destruct (leb_all m (fst k)), (leb_all p (fst k)), (leb_all q (fst k)); reflexivity. }
  rewrite E. reflexivity.
Qed.
Lemma union_cells : forall P, (forall q, In q P -> placed grid q) -> (union_volume r P == cell_volume grid r P)%Q.
Proof.
  intros P. rewrite cell_volume_csum. induction P as [|p P IH]; intros HP; [cbn [union_volume]; rewrite cells_nil; reflexivity|]. cbn [union_volume].
  assert (Hp : placed grid p) by (apply HP; left; reflexivity). assert (HP' : forall q, In q P -> placed grid q) by (intros q Hq; apply HP; right; exact Hq).
  rewrite (IH HP'), (covered_cells P p Hp HP'), (cells_union p P Hp HP'). reflexivity.
Qed.
End Cells.

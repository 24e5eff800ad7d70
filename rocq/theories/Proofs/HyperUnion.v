(** From the algorithm to the union of the boxes. *)
From Coq Require Import QArith Bool List Arith Lia Lqa Permutation Sorting Qminmax.
From Verif.Model Require Import Prelude MultiValue Nsga2 Hypervolume.
From Verif.Spec Require Import Hypervolume.
From Verif.Proofs Require Import Prelude MultiValue Nsga2 HyperMeasure Hypervolume.
Import ListNotations.
Open Scope nat_scope.

Definition shift (r : list Q) (P : list (list Q)) : list (list Q) := map (fun p => minus p r) P.
Lemma minus_nth : forall p r i, length p = length r -> i < length r -> nth i (minus p r) 0%Q = (nth i p 0 - nth i r 0)%Q.
Proof. unfold minus. induction p as [|x p IH]; intros [|y r] i H Hi; try discriminate; cbn in *; [lia|]. destruct i; [reflexivity|]. apply IH; lia. Qed.
Lemma minus_length p r : length p = length r -> length (minus p r) = length r.
Proof. intros H. unfold minus. rewrite map_length, combine_length. lia. Qed.
Lemma Forall2_len {A B} (R : A -> B -> Prop) l m : Forall2 R l m -> length l = length m.
Proof. intros H. induction H; cbn; auto. Qed.
Lemma Forall2_nth_le : forall p r i, Forall2 Qle p r -> (nth i p 0 <= nth i r 0)%Q.
Proof. intros p r i H. revert i. induction H; intros [|i]; cbn; try lra; auto. Qed.
Lemma filter_all_id {A} (f : A -> bool) l : (forall x, In x l -> f x = true) -> filter f l = l.
Proof. induction l as [|a l IH]; intros H; cbn; [reflexivity|]. rewrite (H a (or_introl eq_refl)), IH by (intros x Hx; apply H; right; exact Hx). reflexivity. Qed.
Section Union.
Variable r : list Q.
Variable points : list (list Q).
Hypothesis Hb : below r points.
Notation sh := (shift r points).
Notation N := (length points).
Notation d := (length r).
Lemma sh_nth x : x < N -> nth x sh [] = minus (nth x points []) r.
Proof. intros H. unfold shift. rewrite (nth_indep _ [] (minus [] r)) by (rewrite map_length; exact H). exact (map_nth (fun p => minus p r) points [] x). Qed.
Lemma point_length p : In p points -> length p = d.
Proof. intros H. eapply Forall2_len. apply Hb. exact H. Qed.
Lemma sh_coord i x : x < N -> i < d -> coord sh i x = rel r i (nth x points []).
Proof. intros Hx Hi. unfold coord, at_. rewrite sh_nth by exact Hx. apply minus_nth; [apply point_length, nth_In; exact Hx|exact Hi]. Qed.
Lemma sh_neg i x : x < length sh -> (coord sh i x <= 0)%Q.
Proof.
  unfold shift at 1. rewrite map_length. intros Hx. destruct (le_lt_dec d i) as [Hi|Hi].
  - unfold coord, at_. rewrite sh_nth by exact Hx. rewrite nth_overflow; [lra|]. rewrite minus_length; [lia|]. apply point_length, nth_In. exact Hx.
  - rewrite sh_coord by assumption. unfold rel. pose proof (Forall2_nth_le _ _ i (Hb _ (nth_In points [] Hx))). lra.
Qed.
Notation G := (places sh).
Lemma gridded_points p : In p points -> gridded r G (length r) p.
Proof.
  intros H. split; [apply point_length; exact H|]. intros i Hi. destruct (In_nth _ _ [] H) as [x [Hx E]]. destruct (on_places sh i x ltac:(unfold shift; rewrite map_length; exact Hx)) as [a [A1 A2]]. exists a. split; [exact A1|]. rewrite A2, sh_coord by assumption. rewrite E. reflexivity.
Qed.
Lemma G_sorted i : StronglySorted Qle (G i).
Proof. apply places_sorted. Qed.
Lemma G_neg i x : In x (G i) -> (x <= 0)%Q.
Proof. apply places_neg. exact sh_neg. Qed.
Lemma union_is P : incl P points -> (union_volume r P == V (rel r) G d P)%Q.
Proof. intros H. apply union_vol; [apply G_sorted|]. intros q Hq. apply gridded_points, H. exact Hq. Qed.
Lemma nodes_volume : (V (coord sh) G d (seq 0 N) == union_volume r points)%Q.
Proof.
  rewrite (union_is points) by (intros x; auto). rewrite <- (V_map (rel r) (coord sh) G (fun x => nth x points []) d (seq 0 N)).
  - assert (E : map (fun x => nth x points []) (seq 0 N) = points); [|rewrite E; reflexivity]. clear. induction points as [|p P IH]; [reflexivity|]. cbn [length seq map]. f_equal. rewrite <- seq_shift, map_map. exact IH.
  - intros u i Hu Hi. apply in_seq in Hu. symmetry. apply sh_coord; lia.
Qed.
Lemma compute_union : 0 < d -> (points <> [] \/ d = 1) -> (3 < d -> no_tie r points) -> exists v, compute r points = Ok v /\ (v == union_volume r points)%Q.
Proof.
  intros Hd Hne Hg. unfold compute. destruct (length r) as [|top] eqn:Er; [lia|]. fold sh. assert (Hlen : length sh = N) by (unfold shift; apply map_length).
  destruct top as [|top].
  - cbn [recursive]. unfold chain_length, chain, at_, initial. cbn [h_chains seq map nth]. replace (0 - 1) with 0 by lia. cbn [nth].
    destruct (sorted_by sh 0) as [|x l] eqn:Es.
    + assert (Hn : points = []). { pose proof (Permutation_length (srt_perm sh 0)) as Hp. rewrite Es, seq_length, Hlen in Hp. destruct points; [reflexivity|discriminate]. }
      cbn. rewrite Hn. cbn. exists 0%Q. split; [reflexivity|reflexivity].
    + cbn [length Nat.eqb bind fst]. exists (- coord sh 0 x)%Q. split; [destruct points; reflexivity|]. rewrite <- nodes_volume, Er.
      assert (Hx : x < length sh) by (apply (srt_in sh 0); rewrite Es; left; reflexivity).
      transitivity (V (coord sh) G 1 [x]).
      * rewrite (V_single (coord sh) G G_sorted 0 x (on_places sh 0 x Hx)). cbn [V]. ring.
      * assert (Hmin : forall y, y < length sh -> (coord sh 0 x <= coord sh 0 y)%Q).
        { intros y Hy. apply (srt_in sh 0) in Hy. pose proof (srt_sorted sh 0) as Hs. rewrite Es in Hs, Hy. inversion Hs as [|? ? _ HF]; subst. destruct Hy as [<-|Hy]; [lra|]. rewrite Forall_forall in HF. apply HF. exact Hy. }
        assert (Hin : incl [x] (seq 0 N)) by (intros y [<-|[]]; apply in_seq; lia).
        apply Qle_antisym; [apply (V_mono (coord sh) G G_sorted G_neg); exact Hin|].
        assert (Hall : forall l', (forall y, In y l' -> y < length sh) -> (V (coord sh) G 1 (l' ++ [x]) <= V (coord sh) G 1 [x])%Q).
        { induction l' as [|y l' IH]; intros H; [cbn [app]; lra|]. cbn [app]. pose proof (null_dom (coord sh) G 1 y x (l' ++ [x]) ltac:(apply in_or_app; right; left; reflexivity) ltac:(intros i Hi; replace i with 0 by lia; apply Hmin, H; left; reflexivity)) as Hnull.
          unfold null in Hnull. rewrite Hnull. apply IH. intros z Hz. apply H. right. exact Hz. }
        eapply Qle_trans; [|apply (Hall (seq 0 N)); intros y Hy; apply in_seq in Hy; lia]. apply (V_mono (coord sh) G G_sorted G_neg). intros y Hy. apply in_or_app. left. exact Hy.
  - assert (Hne' : points <> []) by (destruct Hne as [Hne|Hne]; [exact Hne|lia]).
    assert (Hhigh : 3 < S (S top) -> good sh (S (S top))).
    { intros H3. destruct (Hg H3) as [Hg1 Hg2]. split.
      - intros x i Hx Hi. rewrite Hlen in Hx. rewrite sh_coord by lia. unfold rel. pose proof (Hg1 (nth x points []) i (nth_In points [] Hx) ltac:(lia)). lra.
      - intros x y i Hx Hy Hxy Hi Hi'. rewrite Hlen in Hx, Hy. rewrite !sh_coord by lia. unfold rel. intros E. apply (Hg2 x y (nth x points []) (nth y points []) i (nth_error_nth' _ _ Hx) (nth_error_nth' _ _ Hy) Hxy Hi ltac:(lia)). lra. }
    destruct (recursive_spec sh (S (S top)) sh_neg Hhigh (S top) ltac:(lia) (initial sh (S (S top))) (seq 0 N)) as [q [st' [E [Hq _]]]].
    + apply seq_NoDup.
    + intros x Hx. apply in_seq in Hx. lia.
    + destruct points; [congruence|discriminate].
    + split; unfold initial; cbn [h_chains h_bounds]; [rewrite map_length, seq_length|rewrite repeat_length]; reflexivity.
    + lia.
    + intros i Hi. unfold chain, at_, initial. cbn [h_chains]. rewrite nth_map_seq by lia. unfold chain_of. symmetry. apply filter_all_id. intros x Hx. apply memb_iff, in_seq. apply srt_in in Hx. lia.
    + intros _ x _ H. cbn in H. lia.
    + intros _ E _ b pre y post Hbnd. unfold bnd, initial in Hbnd. cbn [h_bounds] in Hbnd. rewrite nth_repeat in Hbnd. discriminate.
    + exists q. split; [rewrite E; destruct points; [congruence|reflexivity]|]. rewrite Hq, <- nodes_volume, Er. reflexivity.
Qed.
End Union.
Lemma below_incl r P P' : incl P P' -> below r P' -> below r P.
Proof. intros H Hb p Hp. apply Hb, H. exact Hp. Qed.
Lemma union_mono r P P' : below r P' -> incl P P' -> (union_volume r P <= union_volume r P')%Q.
Proof.
  intros Hb H. rewrite (union_is r P' Hb P H), (union_is r P' Hb P') by (intros x; auto). apply V_mono; [apply G_sorted|apply G_neg; exact Hb|exact H].
Qed.
Lemma union_same r P P' : below r P -> incl P P' -> incl P' P -> (union_volume r P == union_volume r P')%Q.
Proof. intros Hb H H'. apply Qle_antisym; apply union_mono; auto. eapply below_incl; eauto. Qed.
Lemma union_dominated r P p q : below r P -> In q P -> Forall2 Qle q p -> Forall2 Qle p r -> (union_volume r (p :: P) == union_volume r P)%Q.
Proof.
  intros Hb Hq Hqp Hpr. assert (Hb' : below r (p :: P)) by (intros x [<-|Hx]; auto). rewrite (union_is r (p :: P) Hb' (p :: P)) by (intros x; auto). rewrite (union_is r (p :: P) Hb' P) by (intros x Hx; right; exact Hx).
  apply (null_dom (rel r) _ (length r) p q P Hq). intros i Hi. unfold rel. pose proof (Forall2_nth_le q p i Hqp). lra.
Qed.
Lemma union_nonneg r P : below r P -> (0 <= union_volume r P)%Q.
Proof. intros Hb. apply (union_mono r [] P Hb). intros x []. Qed.
Lemma box_strict r p : Forall2 Qlt p r -> (0 < box r p)%Q.
Proof. intros H. induction H; cbn; [lra|]. apply Qmult_lt_0_compat; lra. Qed.
(** a point that no other weakly dominates, strictly below the reference, adds to the volume *)
Lemma union_strict r P p : below r P -> Forall2 Qlt p r -> (forall q, In q P -> ~ Forall2 Qle q p) -> (union_volume r P < union_volume r (p :: P))%Q.
Proof.
  intros Hb Hp Hn. assert (Hpr : Forall2 Qle p r) by (clear - Hp; induction Hp; constructor; [lra|assumption]).
  assert (Hb' : below r (p :: P)) by (intros x [<-|Hx]; auto).
  destruct (Qlt_le_dec (union_volume r P) (union_volume r (p :: P))) as [H|H]; [exact H|]. exfalso.
  assert (E : null (rel r) (places (shift r (p :: P))) (length r) p P).
  { unfold null. rewrite <- (union_is r (p :: P) Hb' (p :: P)) by (intros x; auto). rewrite <- (union_is r (p :: P) Hb' P) by (intros x Hx; right; exact Hx). apply Qle_antisym; [exact H|]. apply union_mono; [exact Hb'|intros x Hx; right; exact Hx]. }
  destruct (null_dominated (rel r) (places (shift r (p :: P))) (G_sorted r (p :: P)) (G_neg r (p :: P) Hb') (length r) p P) as [y [Hy Hd]].
  - intros i Hi. split; [apply (gridded_points r (p :: P) Hb' p (or_introl eq_refl)); exact Hi|]. unfold rel.
    assert (Hlt : (nth i p 0 < nth i r 0)%Q); [|lra]. clear - Hp Hi. revert i Hi. induction Hp; intros [|i] Hi; cbn in *; try lia; [assumption|]. apply IHHp. lia.
  - exact E.
  - apply (Hn y Hy). pose proof (Forall2_len _ _ _ (Hb y Hy)) as L1. pose proof (Forall2_len _ _ _ Hpr) as L2. unfold rel in Hd.
    assert (Hd' : forall i, i < length y -> (nth i y 0 <= nth i p 0)%Q) by (intros i Hi; pose proof (Hd i ltac:(lia)); lra). assert (L : length y = length p) by lia. clear - Hd' L. revert p L Hd'. induction y as [|a y IH]; intros [|b p] L H; try discriminate; constructor; [apply (H 0); cbn; lia|]. apply IH; [cbn in L; lia|]. intros i Hi. apply (H (S i)). cbn. lia.
Qed.

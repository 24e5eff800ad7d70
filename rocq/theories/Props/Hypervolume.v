(** C25: the hypervolume indicator. *)
From Coq Require Import QArith Bool List Arith Lia Lqa Permutation Sorting.
From Verif.Model Require Import Prelude MultiValue Nsga2 Hypervolume.
From Verif.Spec Require Import Hypervolume.
From Verif.Proofs Require Import Prelude MultiValue Nsga2 HyperMeasure Hypervolume HyperUnion.
Import ListNotations.
Open Scope nat_scope.

(** C25. For points that are nowhere worse than the reference, [compute] returns the volume of the union of the boxes between the points and the reference, with any
    number of objectives: unconditionally up to three, and for four or more when the points have no tie. *)
Theorem C25_exact : forall reference points, 0 < length reference -> below reference points -> points <> [] -> (3 < length reference -> no_tie reference points) ->
  exists v, compute reference points = Ok v /\ (v == union_volume reference points)%Q.
Proof. intros r P Hd Hb Hne Hg. apply compute_union; auto. Qed.
Print Assumptions C25_exact.
Definition some_reference : list Q := [0; 0; 0; 0; 0]%Q.
Definition some_points : list (list Q) := [[-1; -4; -3; -5; -2]; [-2; -4; -2; -3; -2]; [-4; -1; -5; -1; -3]; [-2; -2; -1; -2; -6]]%Q.
Example some_below : below some_reference some_points.
Proof. intros p Hp. unfold some_points in Hp. repeat (destruct Hp as [<-|Hp]; [repeat constructor; cbv; discriminate|]). destruct Hp. Qed.
Example some_no_tie : no_tie some_reference some_points.
Proof.
  split.
  - intros p i Hp Hi. cbn in Hi. unfold some_points in Hp. repeat (destruct Hp as [<-|Hp]; [do 4 (destruct i as [|i]; [cbn; reflexivity|]); lia|]). destruct Hp.
  - intros x y p q i Hx Hy Hxy H2 Hi. cbn in Hi. assert (Hi' : i = 2 \/ i = 3) by lia.
    do 4 (destruct x as [|x]; [injection Hx as <-; do 4 (destruct y as [|y]; [try congruence; injection Hy as <-; destruct Hi' as [-> | ->]; cbv; discriminate|]); destruct y; discriminate|]). destruct x; discriminate.
Qed.
Example some_volume : exists v, compute some_reference some_points = Ok v /\ (v == 248)%Q /\ (union_volume some_reference some_points == 248)%Q.
Proof. eexists. split; [vm_compute; reflexivity|]. split; vm_compute; reflexivity. Qed.

(** C25. The volume of the union is the sum of the volumes of the cells inside one of the boxes, for any grid on which the points are. *)
Theorem C25_cells : forall grid reference points, length grid = length reference -> Forall (StronglySorted Qle) grid ->
  (forall p, In p points -> Forall2 (fun places x => exists a, In a places /\ (a == x)%Q) grid p) ->
  (union_volume reference points == cell_volume grid reference points)%Q.
Proof. intros grid r P Hl Hs Hp. apply union_cells; assumption. Qed.
Print Assumptions C25_cells.
Example some_cells : exists v, compute [0; 0]%Q [[-3; -1]; [-1; -3]]%Q = Ok v /\ (v == 5)%Q /\ (cell_volume [[-3; -1]; [-3; -1]] [0; 0] [[-3; -1]; [-1; -3]] == 5)%Q.
Proof. eexists. split; [vm_compute; reflexivity|]. split; vm_compute; reflexivity. Qed.

(** C25. The order of the points and duplicates do not matter. *)
Theorem C25_set_only : forall reference points points' v v', 0 < length reference <= 3 -> below reference points -> points <> [] -> incl points points' -> incl points' points ->
  compute reference points = Ok v -> compute reference points' = Ok v' -> (v == v')%Q.
Proof.
  intros r P P' v v' Hd Hb Hne H H' E E'. assert (Hb' : below r P') by (eapply below_incl; eauto).
  assert (Hne' : P' <> []) by (destruct P as [|p P]; [congruence|]; intros ->; destruct (H p (or_introl eq_refl))).
  destruct (C25_exact r P ltac:(lia) Hb Hne ltac:(lia)) as [w [Ew Hw]]. destruct (C25_exact r P' ltac:(lia) Hb' Hne' ltac:(lia)) as [w' [Ew' Hw']].
  rewrite E in Ew. injection Ew as ->. rewrite E' in Ew'. injection Ew' as ->. rewrite Hw, Hw'. apply union_same; assumption.
Qed.
Print Assumptions C25_set_only.
(** ... nor does a point that another one weakly dominates. *)
Theorem C25_dominated_ignored : forall reference points p q v v', 0 < length reference <= 3 -> below reference points -> In q points -> Forall2 Qle q p -> Forall2 Qle p reference ->
  compute reference points = Ok v -> compute reference (p :: points) = Ok v' -> (v == v')%Q.
Proof.
  intros r P p q v v' Hd Hb Hq Hqp Hpr E E'. assert (Hb' : below r (p :: P)) by (intros x [<-|Hx]; auto).
  destruct (C25_exact r P ltac:(lia) Hb ltac:(intros ->; destruct Hq) ltac:(lia)) as [w [Ew Hw]]. destruct (C25_exact r (p :: P) ltac:(lia) Hb' ltac:(discriminate) ltac:(lia)) as [w' [Ew' Hw']].
  rewrite E in Ew. injection Ew as ->. rewrite E' in Ew'. injection Ew' as ->. rewrite Hw, Hw'. symmetry. eapply union_dominated; eauto.
Qed.
Print Assumptions C25_dominated_ignored.
(** C25. More points never give less; a point strictly better than the reference that no other weakly dominates gives strictly more; nothing is negative. *)
Theorem C25_monotone : forall reference points more v v', 0 < length reference <= 3 -> below reference (points ++ more) -> points <> [] ->
  compute reference points = Ok v -> compute reference (points ++ more) = Ok v' -> (0 <= v /\ v <= v')%Q.
Proof.
  intros r P M v v' Hd Hb Hne E E'. assert (Hb' : below r P) by (eapply below_incl; [apply incl_appl, incl_refl|exact Hb]).
  destruct (C25_exact r P ltac:(lia) Hb' Hne ltac:(lia)) as [w [Ew Hw]]. destruct (C25_exact r (P ++ M) ltac:(lia) Hb ltac:(destruct P; [congruence|discriminate]) ltac:(lia)) as [w' [Ew' Hw']].
  rewrite E in Ew. injection Ew as ->. rewrite E' in Ew'. injection Ew' as ->. rewrite Hw, Hw'. split; [apply union_nonneg; exact Hb'|]. apply union_mono; [exact Hb|apply incl_appl, incl_refl].
Qed.
Print Assumptions C25_monotone.
Theorem C25_contribution : forall reference points p v v', 0 < length reference <= 3 -> below reference points -> points <> [] -> Forall2 Qlt p reference ->
  (forall q, In q points -> ~ Forall2 Qle q p) ->
  compute reference points = Ok v -> compute reference (p :: points) = Ok v' -> (v < v')%Q.
Proof.
  intros r P p v v' Hd Hb Hne Hp Hn E E'. assert (Hb' : below r (p :: P)) by (intros x [<-|Hx]; [clear - Hp; induction Hp; constructor; [lra|assumption]|auto]).
  destruct (C25_exact r P ltac:(lia) Hb Hne ltac:(lia)) as [w [Ew Hw]]. destruct (C25_exact r (p :: P) ltac:(lia) Hb' ltac:(discriminate) ltac:(lia)) as [w' [Ew' Hw']].
  rewrite E in Ew. injection Ew as ->. rewrite E' in Ew'. injection Ew' as ->. rewrite Hw, Hw'. apply union_strict; assumption.
Qed.
Print Assumptions C25_contribution.
Example some_contribution : exists v v', compute [0; 0; 0]%Q [[-3; -1; -1]; [-1; -3; -1]]%Q = Ok v /\ compute [0; 0; 0]%Q [[-1; -1; -2]; [-3; -1; -1]; [-1; -3; -1]]%Q = Ok v' /\ (v == 5)%Q /\ (v' == 6)%Q.
Proof. eexists _, _. split; [vm_compute; reflexivity|]. split; [vm_compute; reflexivity|]. split; vm_compute; reflexivity. Qed.
(** One point: the volume of its box, with any number of objectives. *)
Theorem C25_single : forall reference p, 0 < length reference -> Forall2 Qle p reference -> (3 < length reference -> Forall2 Qlt p reference) ->
  exists v, compute reference [p] = Ok v /\ (v == box reference p)%Q.
Proof.
  intros r p Hd Hp Hs. assert (Hb : below r [p]) by (intros x [<-|[]]; exact Hp). destruct (C25_exact r [p] Hd Hb ltac:(discriminate)) as [v [E Hv]].
  - intros H3. specialize (Hs H3). split.
    + intros x i [<-|[]] Hi. clear - Hs Hi. revert i Hi. induction Hs; intros [|i] Hi; cbn in *; try lia; [assumption|]. apply IHHs. lia.
    + intros x y a b i Hx Hy Hxy. destruct x as [|[|x]], y as [|[|y]]; try discriminate. congruence.
  - exists v. split; [exact E|]. rewrite Hv. cbn. ring.
Qed.
Print Assumptions C25_single.

(** C25, what does not hold. No points: an error, except with one objective. *)
Theorem C25_no_points : forall reference, (length reference = 1 -> compute reference [] = Ok 0%Q) /\ (2 <= length reference -> compute reference [] = Err ValueError).
Proof. intros r. split; intros H; destruct r as [|a [|b r]]; cbn in H; try lia; reflexivity. Qed.
Print Assumptions C25_no_points.
(** Four objectives, with ties: the result is not the volume; it is even less than that of one of the points alone. *)
Theorem C25_ties_refuted : exists reference points p v w, below reference points /\ In p points /\ compute reference points = Ok v /\ compute reference [p] = Ok w /\
  (w == union_volume reference points)%Q /\ (v < w)%Q.
Proof.
  exists [0; 0; 0; 0]%Q, [[-3; -3; -3; -2]; [-3; -3; -3; -3]; [-2; -1; -1; -1]]%Q, [-3; -3; -3; -3]%Q. eexists _, _.
  split; [intros p Hp; repeat (destruct Hp as [<-|Hp]; [repeat constructor; cbv; discriminate|]); destruct Hp|]. split; [right; left; reflexivity|]. split; [vm_compute; reflexivity|]. split; [vm_compute; reflexivity|]. split; vm_compute; reflexivity.
Qed.
Print Assumptions C25_ties_refuted.
(** Five objectives, with ties: wrong even when no point dominates another. *)
Theorem C25_undominated_ties_refuted : exists reference points v, below reference points /\ (forall p q, In p points -> In q points -> Forall2 Qle p q -> p = q) /\
  compute reference points = Ok v /\ ~ (v == union_volume reference points)%Q.
Proof.
  exists [0; 0; 0; 0; 0]%Q, [[-1; -3; -3; -2; -2]; [-1; -3; -3; -3; -1]; [-3; -2; -2; -1; -2]]%Q. eexists.
  split; [intros p Hp; repeat (destruct Hp as [<-|Hp]; [repeat constructor; cbv; discriminate|]); destruct Hp|].
  split; [|split; [vm_compute; reflexivity|vm_compute; discriminate]].
  intros p q Hp Hq H. assert (Hc : forallb (fun ab => Qle_bool (fst ab) (snd ab)) (combine p q) = true). { clear - H. induction H; cbn; [reflexivity|]. apply Qle_bool_iff in H. rewrite H. exact IHForall2. }
  repeat (destruct Hp as [<-|Hp]; [repeat (destruct Hq as [<-|Hq]; [first [reflexivity|cbv in Hc; discriminate]|]); destruct Hq|]). destruct Hp.
Qed.
Print Assumptions C25_undominated_ties_refuted.
(** A point beyond the reference makes the result wrong, possibly negative. *)
Theorem C25_beyond_refuted : exists reference p q v, Forall2 Qle q reference /\ compute reference [p; q] = Ok v /\ (v < 0)%Q /\ (0 < union_volume reference [q])%Q.
Proof. exists [0; 0]%Q, [1; -5]%Q, [-1; -1]%Q. eexists. split; [repeat constructor; cbv; discriminate|]. split; [vm_compute; reflexivity|]. split; vm_compute; reflexivity. Qed.
Print Assumptions C25_beyond_refuted.

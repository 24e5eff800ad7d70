(** Lemmas for C93. *)
From Coq Require Import Arith ZArith QArith Bool Lia Lqa List.
From Verif.Model Require Import Prelude MultiValue Pareto Hypervolume HypervolumePareto ConstraintLayer.
From Verif.Spec Require Import Pareto ConstraintLayer.
From Verif.Proofs Require Import MultiValue Pareto.
Import ListNotations.
Open Scope nat_scope.

Lemma qmax0 q : (0 <= qmax 0 q)%Q /\ ((qmax 0 q <= 0)%Q <-> (q <= 0)%Q).
Proof. unfold qmax. destruct (qlt 0 q) eqn:E; [apply qlt_iff in E|apply qlt_false in E]; split; try lra; split; lra. Qed.
Lemma satisfied_iff l : satisfied l = true <-> Forall (fun q => q <= 0)%Q l.
Proof. unfold satisfied. rewrite forallb_forall, Forall_forall. split; intros H x Hx; apply qle_iff; auto. Qed.
Lemma losses_satisfied a l : losses a = Ok l -> (satisfied l = true <-> meets a).
Proof.
  assert (H : (0 < huge)%Q) by reflexivity.
  rewrite satisfied_iff. destruct a as [b|q| |m|e]; cbn [losses meets]; try discriminate; intros [= <-].
  - destruct (qmax0 q) as (A & B). split.
    + intros F. inversion F as [|? ? F1 _]; subst. destruct (qlt (qmax 0 q) huge); [tauto|lra].
    + intros F. apply B in F. destruct (qlt (qmax 0 q) huge) eqn:E; [|apply qlt_false in E; lra]. constructor; [exact F|constructor].
  - split; [|easy]. intros F. inversion F as [|? ? F1 _]; subst. lra.
  - rewrite !Forall_forall. split.
    + intros F x Hx. apply qmax0, F. now apply in_map.
    + intros F x Hx. apply in_map_iff in Hx. destruct Hx as (y & <- & Hy). now apply qmax0, F.
Qed.
Lemma losses_numeric a : numeric a -> losses a = Ok [excess a].
Proof. destruct a as [b|q| |m|e]; easy. Qed.
Lemma meets_excess a : numeric a -> (meets a <-> (excess a <= 0)%Q).
Proof.
  intros N. pose proof (losses_satisfied a _ (losses_numeric a N)) as H. rewrite <- H, satisfied_iff. split.
  - intros F. now inversion F.
  - intros F. constructor; [exact F|constructor].
Qed.
Lemma losses_vector d a : vector d a -> losses a = Ok (misses a) /\ length (misses a) = d.
Proof. destruct a as [b|q| |m|e]; cbn; try easy. intros <-. split; [easy|apply map_length]. Qed.

Section Search.
Context {V : Type}.
Variable opt : searcher V.
Variable f : V -> answer.

Definition hist (told : V -> list Q) (tried : list V) : history V := map (fun w => (w, told w)) tried.
Lemma hist_snoc told tried v : hist told (tried ++ [v]) = hist told tried ++ [(v, told v)].
Proof. unfold hist. now rewrite map_app. Qed.
Lemma hist_in told tried v l : In (v, l) (hist told tried) <-> In v tried /\ l = told v.
Proof. unfold hist. rewrite in_map_iff. split; [intros (w & [= <- <-] & H); auto|intros (H & ->); eauto]. Qed.
Lemma hist_fst told tried : map fst (hist told tried) = tried.
Proof. unfold hist. rewrite map_map. apply map_id. Qed.
Lemma proposed_nil told : proposed opt told [].
Proof. intros [|i] v; discriminate. Qed.
Lemma proposed_snoc told tried : proposed opt told tried -> proposed opt told (tried ++ [propose opt (hist told tried)]).
Proof.
  intros P i v H. destruct (Nat.lt_ge_cases i (length tried)) as [L|L].
  - rewrite nth_error_app1 in H by assumption. rewrite firstn_app. replace (i - length tried) with 0 by lia. rewrite app_nil_r. now apply P.
  - rewrite nth_error_app2 in H by assumption. destruct (i - length tried) as [|k] eqn:E; [|destruct k; discriminate].
    injection H as <-. rewrite firstn_app, E, firstn_all2, app_nil_r by lia. reflexivity.
Qed.
Lemma until_cons (P : V -> Prop) n v more : ~ P v -> until P n more -> until P (S n) (v :: more).
Proof.
  intros N [(before & w & -> & L & W & B)|(L & B)]; [left|right].
  - exists (v :: before), w. cbn. repeat split; auto. cbn in L. lia.
  - cbn. split; [lia|auto].
Qed.

(** one loss *)
Section One.
Hypothesis F : forall v, numeric (f v).
Hypothesis B : recommends_best opt.
Let told v := [excess (f v)].
Lemma front_one start tried s : tried <> [] -> exists v, front0 opt start (hist told tried) s = (Ok (v, Some (told v)), s) /\ In v tried /\
  forall w, In w tried -> (excess (f v) <= excess (f w))%Q.
Proof.
  intros N. destruct tried as [|t tried]; [easy|].
  destruct (B (hist told (t :: tried))) as (O & _ & K). destruct K as (v & l & E & I & M); [easy|].
  apply hist_in in I. destruct I as (I & ->). exists v. split; [|split; [exact I|]].
  - unfold front0, hist. cbn [map told]. unfold hist in *. cbn [map] in *. unfold told in *. rewrite O, E. reflexivity.
  - intros w W. apply (M w (told w)). now apply hist_in.
Qed.
Lemma search_one start n : forall tried s, proposed opt told tried -> Forall (fun w => ~ meets (f w)) tried ->
  exists more, search opt f start n (hist told tried) s = (hist told (tried ++ more), s, Ok tt) /\ proposed opt told (tried ++ more) /\
    until (fun w => meets (f w)) n more.
Proof.
  induction n as [|n IH]; intros tried s P U.
  - exists []. cbn. rewrite app_nil_r. repeat split; auto. right. auto.
  - cbn [search].
    assert (St : stop opt start (hist told tried) s = (Ok false, s)).
    { destruct tried as [|t tried]; [reflexivity|].
      destruct (front_one start (t :: tried) s) as (v & E & I & _); [easy|].
      unfold stop. unfold hist at 1. cbn [map]. fold (hist told (t :: tried)). change ((t, told t) :: map (fun w => (w, told w)) tried) with (hist told (t :: tried)).
      rewrite E. do 2 f_equal. rewrite Forall_forall in U. specialize (U v I).
      pose proof (losses_satisfied _ _ (losses_numeric _ (F v))) as L. destruct (satisfied (told v)) eqn:Es; [|reflexivity]. tauto. }
    rewrite St. set (v := propose opt (hist told tried)). rewrite (losses_numeric _ (F v)).
    assert (T : tell (hist told tried) s v [excess (f v)] = Ok (hist told (tried ++ [v]), s)).
    { rewrite hist_snoc. destruct tried as [|t tried]; reflexivity. }
    rewrite T. pose proof (proposed_snoc told tried P) as P'. fold v in P'.
    assert (D : meets (f v) \/ ~ meets (f v)).
    { pose proof (meets_excess _ (F v)) as M. destruct (qle (excess (f v)) 0) eqn:E; [apply qle_iff in E|apply qle_false in E]; [left; tauto|right].
      rewrite M. lra. }
    destruct D as [D|D].
    + exists [v]. split; [|split; [exact P'|left; exists [], v; cbn; repeat split; auto; lia]].
      destruct n as [|n]; [reflexivity|]. cbn [search].
      destruct (front_one start (tried ++ [v]) s) as (u & E & I & M); [now destruct tried|].
      replace (stop opt start (hist told (tried ++ [v])) s) with (Ok true, s); [reflexivity|].
      unfold stop. rewrite E. destruct (hist told (tried ++ [v])) eqn:En; [destruct tried; discriminate|].
      do 2 f_equal. symmetry. apply (losses_satisfied (f u)); [apply losses_numeric, F|]. apply meets_excess; [apply F|].
      specialize (M v). assert (Iv : In v (tried ++ [v])) by (apply in_or_app; right; now left). specialize (M Iv). apply meets_excess in D; [lra|apply F].
    + destruct (IH (tried ++ [v]) s P') as (more & E & P2 & U2).
      { apply Forall_app. split; [exact U|constructor; auto]. }
      exists (v :: more). rewrite E. change (tried ++ v :: more) with (tried ++ [v] ++ more). rewrite app_assoc. split; [reflexivity|].
      split; [exact P2|]. now apply until_cons.
Qed.
End One.

(** several losses, while the bounds are being set *)
Section Many.
Variable d : nat.
Hypothesis F : forall v, vector (S (S d)) (f v).
Let told v := misses (f v).
Record inv (tried : list V) (s : hpareto) : Prop := {
  inv_auto : hp_auto s = 15 - length tried;
  inv_none : tried = [] -> hp_bounds s = None;
  inv_from : forall i l, In (i, l) (pf_pareto (hp_pf s)) -> exists v, nth_error tried i = Some v /\ l = told v;
  inv_cover : forall v, In v tried -> exists p, In p (pf_pareto (hp_pf s)) /\ vle (pt_losses p) (told v);
  inv_bounds : tried <> [] -> exists b p, hp_bounds s = Some b /\ length b = S (S d) /\ Forall (fun x => 0 <= x)%Q b /\
                 In p (pf_pareto (hp_pf s)) /\ vle (pt_losses p) b;
  inv_clean : pf_needs_filtering (hp_pf s) = false -> forall p q, In p (pf_pareto (hp_pf s)) -> In q (pf_pareto (hp_pf s)) -> ~ dom (pt_losses q) (pt_losses p) }.
Lemma told_length v : length (told v) = S (S d).
Proof. now apply losses_vector. Qed.
Lemma told_nonneg v : Forall (fun x => 0 <= x)%Q (told v).
Proof.
  unfold told, misses. destruct (f v); try constructor. rewrite Forall_forall. intros x Hx. apply in_map_iff in Hx.
  destruct Hx as (y & <- & _). apply qmax0.
Qed.
Lemma inv_dim tried s : inv tried s -> same_dimension (S (S d)) (pf_pareto (hp_pf s)).
Proof. intros I (i, l) Hp. destruct (inv_from _ _ I i l Hp) as (v & _ & ->). apply told_length. Qed.

(** asking for the front *)
Lemma front_many start tried s : inv tried s -> tried <> [] ->
  exists v s', front0 opt start (hist told tried) s = (Ok (v, Some (told v)), s') /\ In v tried /\
    (forall w, In w tried -> ~ dom (told w) (told v)) /\ inv tried s'.
Proof.
  intros I N. pose proof (inv_dim _ _ I) as Dm.
  set (f' := if pf_needs_filtering (hp_pf s) then pf_filter (hp_pf s) else hp_pf s).
  assert (In' : forall p, In p (pf_pareto f') <-> In p (pf_pareto (hp_pf s)) /\ forall q, In q (pf_pareto (hp_pf s)) -> ~ dom (pt_losses q) (pt_losses p)).
  { intros p. unfold f'. destruct (pf_needs_filtering (hp_pf s)) eqn:En.
    - cbn. rewrite filter_In. split; intros (H1 & H2); split; auto.
      + intros q Hq Hd. apply negb_true_iff in H2. rewrite <- not_true_iff_false in H2. apply H2. apply existsb_exists. exists q. split; auto.
        apply dominates_iff; auto. rewrite (Dm q Hq), (Dm p H1). reflexivity.
      + apply negb_true_iff, not_true_iff_false. intros H3. apply existsb_exists in H3. destruct H3 as (q & Hq & Hd).
        apply dominates_iff in Hd; [now apply (H2 q)|]. now rewrite (Dm q Hq), (Dm p H1).
    - split; [|tauto]. intros H. split; auto. intros q Hq. now apply (inv_clean _ _ I En). }
  assert (Below : forall p, In p (pf_pareto (hp_pf s)) -> exists q, In q (pf_pareto f') /\ vle (pt_losses q) (pt_losses p)).
  { intros p Hp. destruct (nondominated_below _ _ Dm p Hp) as (q & Hq & Hu & Hl & _). exists q. split; [|assumption]. apply In'. split; auto. }
  assert (I' : inv tried (hp_with_pf f' s)).
  { destruct I as [A1 A2 A3 A4 A5 A6]. constructor; cbn; auto.
    - intros i l H. apply In' in H. apply A3, H.
    - intros v Hv. destruct (A4 v Hv) as (p & Hp & Hl). destruct (Below p Hp) as (q & Hq & Hl'). exists q. split; auto. eapply vle_trans; eauto.
    - intros H. destruct (A5 H) as (b & p & E1 & E2 & E3 & Hp & Hl). destruct (Below p Hp) as (q & Hq & Hl'). exists b, q. repeat split; auto. eapply vle_trans; eauto.
    - intros _ p q Hp Hq. apply In' in Hp. apply In' in Hq. now apply Hp. }
  destruct (pf_pareto f') as [|(i, l) rest] eqn:Ef.
  { destruct (inv_bounds _ _ I' N) as (b & p & _ & _ & _ & Hp & _). cbn in Hp. now rewrite Ef in Hp. }
  assert (Hil : In (i, l) (pf_pareto f')) by (rewrite Ef; now left).
  destruct (inv_from _ _ I' i l Hil) as (v & Hv & ->).
  exists v, (hp_with_pf f' s). split; [|split; [now apply nth_error_In in Hv|split; [|exact I']]].
  - destruct tried as [|t tried]; [easy|]. unfold front0. unfold hist. cbn [map].
    pose proof (told_length t) as L. destruct (told t) as [|x [|y r]] eqn:Et; try discriminate.
    unfold hp_front, pf_get_front. fold f'. rewrite Ef.
    replace (nth_error _ i) with (Some (v, told v)); [reflexivity|]. rewrite <- Et. change ((t, told t) :: map (fun w => (w, told w)) tried) with (map (fun w => (w, told w)) (t :: tried)).
    symmetry. exact (map_nth_error (fun w => (w, told w)) i (t :: tried) Hv).
  - intros w Hw Hd. destruct (inv_cover _ _ I w Hw) as (p & Hp & Hl). rewrite Ef in Hil. apply In' in Hil. apply (proj2 Hil p Hp). cbn. eapply vle_dom; eauto.
Qed.

Lemma vle_vmax a : forall b, length a = length b -> vle a (vmax a b).
Proof.
  induction a as [|x a IH]; intros [|y b] L; try discriminate; [constructor|]. unfold vmax. cbn. constructor.
  - unfold qmax. destruct (qlt x y) eqn:E; [apply qlt_iff in E|]; lra.
  - apply IH. now injection L.
Qed.
Lemma vmax_nonneg a : forall b, Forall (fun x => 0 <= x)%Q a -> Forall (fun x => 0 <= x)%Q (vmax a b).
Proof.
  induction a as [|x a IH]; intros [|y b] H; try constructor; inversion H as [|? ? H1 H2]; subst; cbn [fst snd].
  - unfold qmax. destruct (qlt x y) eqn:E; [apply qlt_iff in E|]; lra.
  - now apply IH.
Qed.
Lemma vall_lt_vle a : forall b, length a = length b -> vall_lt a b = true -> vle a b.
Proof.
  induction a as [|x a IH]; intros [|y b] L H; try discriminate; [constructor|]. unfold vall_lt in *. cbn in H.
  apply andb_true_iff in H. destruct H as (H1 & H2). apply qlt_iff in H1. constructor; [lra|]. apply IH; auto.
Qed.
Lemma tell_many tried s v : inv tried s -> length tried < 15 ->
  exists s', tell (hist told tried) s v (told v) = Ok (hist told (tried ++ [v]), s') /\ inv (tried ++ [v]) s'.
Proof.
  intros I L.
  assert (Add : exists s' r, hp_add (length tried, told v) s = (s', Ok r) /\ inv (tried ++ [v]) s').
  { unfold hp_add. cbn [pt_losses snd]. destruct (hp_auto s) as [|auto] eqn:Ea; [pose proof (inv_auto _ _ I); lia|].
    assert (Eauto : auto = 15 - length (tried ++ [v])) by (rewrite app_length; cbn [length]; pose proof (inv_auto _ _ I); lia).
    assert (Old : forall i l, In (i, l) (pf_pareto (hp_pf s)) -> exists w, nth_error (tried ++ [v]) i = Some w /\ l = told w).
    { intros i l H. destruct (inv_from _ _ I i l H) as (w & E & ->). exists w. split; [|easy]. rewrite nth_error_app1; [easy|]. apply nth_error_Some. congruence. }
    assert (New : forall i l, In (i, l) (pf_pareto (pf_add (length tried, told v) (hp_pf s))) -> exists w, nth_error (tried ++ [v]) i = Some w /\ l = told w).
    { intros i l H. cbn in H. apply in_app_or in H. destruct H as [H|[[= <- <-]|[]]]; [now apply Old|]. exists v. split; [|easy].
      rewrite nth_error_app2 by lia. now rewrite Nat.sub_diag. }
    assert (Cover : forall w, In w (tried ++ [v]) -> exists p, In p (pf_pareto (pf_add (length tried, told v) (hp_pf s))) /\ vle (pt_losses p) (told w)).
    { intros w H. apply in_app_or in H. cbn. destruct H as [H|[<-|[]]].
      - destruct (inv_cover _ _ I w H) as (p & Hp & Hl). exists p. split; auto. apply in_or_app. now left.
      - exists (length tried, told v). split; [|apply vle_refl]. apply in_or_app. right. now left. }
    cbn [hp_bounds hp_best hp_pf hp_no]. destruct tried as [|t tried].
    - rewrite (inv_none _ _ I eq_refl). do 2 eexists. split; [reflexivity|]. constructor; cbn [hp_auto hp_bounds hp_pf]; auto; try easy.
      + intros _. exists (told v), (0, told v). split; [easy|]. split; [apply told_length|]. split; [apply told_nonneg|]. split; [|apply vle_refl].
        cbn. apply in_or_app. right. now left.
    - destruct (inv_bounds _ _ I) as (b & p & -> & Lb & Nb & Hp & Hl); [easy|].
      destruct (vall_lt b (told v)) eqn:Ev; do 2 eexists; (split; [reflexivity|]); constructor; cbn [hp_auto hp_bounds hp_pf]; auto; try easy.
      + intros w H. apply in_app_or in H. destruct H as [H|[<-|[]]]; [now apply (inv_cover _ _ I)|]. exists p. split; auto.
        apply vle_trans with b; auto. apply vall_lt_vle; auto. now rewrite Lb, told_length.
      + intros _. exists b, p. auto.
      + apply (inv_clean _ _ I).
      + intros _. exists (vmax b (told v)), p. split; [easy|]. split; [|split; [now apply vmax_nonneg|split]].
        * unfold vmax. rewrite map_length, combine_length, Lb, told_length. lia.
        * cbn. apply in_or_app. now left.
        * apply vle_trans with b; auto. apply vle_vmax. now rewrite Lb, told_length. }
  destruct Add as (s' & r & E & I'). exists s'. split; [|exact I']. rewrite hist_snoc.
  pose proof (told_length v) as Lv. destruct (told v) as [|x [|y l]] eqn:Ev; try discriminate.
  unfold tell. destruct tried as [|t tried].
  - cbn [hist map]. cbn [length] in E. now rewrite E.
  - unfold hist at 1. cbn [map]. rewrite told_length. cbn [length] in Lv |- *. rewrite Lv, Nat.eqb_refl. cbn [negb].
    replace (length (hist told (t :: tried))) with (length (t :: tried)) by (unfold hist; now rewrite map_length). now rewrite E.
Qed.
Lemma below_zero a : forall b, length a = length b -> Forall (fun x => x <= 0)%Q a -> Forall (fun x => 0 <= x)%Q b -> ~ dom a b -> Forall (fun x => x <= 0)%Q b.
Proof.
  intros b L A Bb N. assert (W : vle a b).
  { clear N. revert b L A Bb. induction a as [|x a IH]; intros [|y b] L A Bb; try discriminate; constructor; inversion A; inversion Bb; subst; [lra|]. apply IH; auto. }
  apply Forall_forall. intros y Hy. destruct (qle y 0) eqn:E; [now apply qle_iff|]. apply qle_false in E. exfalso. apply N. split; [exact W|].
  apply In_nth_error in Hy. destruct Hy as (i & Hi). destruct (nth_error a i) as [x|] eqn:Ha.
  - exists i, x, y. repeat split; auto. rewrite Forall_forall in A. apply nth_error_In in Ha. specialize (A x Ha). lra.
  - apply nth_error_None in Ha. assert (i < length b) by (apply nth_error_Some; congruence). lia.
Qed.
Lemma meets_dec v : meets (f v) <-> satisfied (told v) = true.
Proof. symmetry. apply losses_satisfied. now apply (losses_vector (S (S d))). Qed.
Lemma front_meets tried v w : In w tried -> meets (f w) -> (forall u, In u tried -> ~ dom (told u) (told v)) -> meets (f v).
Proof.
  intros Hw M N. apply meets_dec, satisfied_iff. apply (below_zero (told w)); auto; [now rewrite !told_length| |apply told_nonneg].
  apply satisfied_iff, meets_dec, M.
Qed.
Lemma search_many start n : forall tried s, length tried + n <= 15 -> inv tried s -> proposed opt told tried -> Forall (fun w => ~ meets (f w)) tried ->
  exists more s', search opt f start n (hist told tried) s = (hist told (tried ++ more), s', Ok tt) /\ proposed opt told (tried ++ more) /\
    until (fun w => meets (f w)) n more /\ inv (tried ++ more) s'.
Proof.
  induction n as [|n IH]; intros tried s Ln I P U.
  - exists [], s. cbn. rewrite app_nil_r. split; [easy|]. split; [exact P|]. split; [now right|exact I].
  - cbn [search].
    assert (St : exists s', stop opt start (hist told tried) s = (Ok false, s') /\ inv tried s').
    { destruct tried as [|t tried]; [exists s; auto|].
      destruct (front_many start (t :: tried) s I) as (v & s' & E & Hv & _ & I'); [easy|]. exists s'. split; [|exact I'].
      unfold stop. rewrite E. cbn [hist map]. do 2 f_equal. rewrite Forall_forall in U. specialize (U v Hv). rewrite meets_dec in U.
      now apply not_true_iff_false. }
    destruct St as (s1 & -> & I1). set (v := propose opt (hist told tried)).
    destruct (losses_vector _ _ (F v)) as (-> & _). change (misses (f v)) with (told v).
    destruct (tell_many tried s1 v I1) as (s2 & -> & I2); [lia|].
    pose proof (proposed_snoc told tried P) as P'. fold v in P'.
    destruct (satisfied (told v)) eqn:D.
    + apply meets_dec in D. destruct n as [|n].
      * exists [v], s2. cbn [search]. split; [easy|]. split; [exact P'|]. split; [|exact I2]. left. exists [], v. cbn. repeat split; auto.
      * cbn [search]. destruct (front_many start (tried ++ [v]) s2 I2) as (u & s3 & E & Hu & M & I3); [now destruct tried|].
        exists [v], s3. replace (stop opt start (hist told (tried ++ [v])) s2) with (@Ok bool true, s3).
        -- split; [easy|]. split; [exact P'|]. split; [|exact I3]. left. exists [], v. cbn. repeat split; auto. lia.
        -- unfold stop. rewrite E. destruct (hist told (tried ++ [v])) eqn:En; [destruct tried; discriminate|]. do 2 f_equal. symmetry. apply meets_dec.
           apply (front_meets (tried ++ [v]) u v); auto. apply in_or_app. right. now left.
    + assert (D' : ~ meets (f v)) by (rewrite meets_dec; congruence).
      destruct (IH (tried ++ [v]) s2) as (more & s' & E & P2 & U2 & I'); auto.
      { rewrite app_length. cbn. lia. }
      { apply Forall_app. split; [exact U|constructor; auto]. }
      exists (v :: more), s'. rewrite E. change (tried ++ v :: more) with (tried ++ [v] ++ more). rewrite app_assoc. split; [easy|]. split; [exact P2|]. split; [now apply until_cons|exact I'].
Qed.
Lemma inv_init : inv [] (hp_init None 15 false).
Proof. constructor; cbn; try easy. Qed.
End Many.
End Search.

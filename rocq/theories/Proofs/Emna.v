From Coq Require Import List Arith Lia QArith Lqa Bool Permutation Sorted.
From Verif.Model Require Import Prelude MultiValue Nsga2 MetaModel Emna.
From Verif.Spec Require Import Spsa Cma MetaModel Emna.
From Verif.Proofs Require Import MultiValue Cma MetaModel.
Import ListNotations.
Open Scope nat_scope.

Section Emna.
  Variable root : Q -> Q.
  Variables (d mu llambda : nat) (isotropic : bool) (imp : Q).
  Hypothesis Hmu : 1 <= mu.
  Hypothesis Hle : mu <= llambda.
  Notation tell := (emna_tell root d mu llambda isotropic imp).
  Notation run := (emna_run root d mu llambda isotropic imp).

  Lemma vsum_nth pts : (forall p, In p pts -> length p = d) -> length (vsum d pts) = d /\
    forall i, i < d -> exists s, nth_error (vsum d pts) i = Some s /\ (s == fold_right Qplus 0 (map (fun p => nth i p 0) pts))%Q.
  Proof.
    intros P. destruct (fold_vadd d pts (repeat 0%Q d) (repeat_length _ _) P) as (L & H). split; [exact L|].
    intros i Hi. destruct (H i 0%Q (nth_error_repeat 0%Q Hi)) as (s & E & Q). exists s. split; [exact E|]. rewrite Q. ring.
  Qed.

  Lemma mean_vsum pts : length pts = mu -> (forall p, In p pts -> length p = d) -> mean_of d pts (vscale (1 / qnat mu) (vsum d pts)).
  Proof.
    intros L P. destruct (vsum_nth pts P) as (Lv & H). split; [rewrite vscale_length; exact Lv|]. intros i y E.
    unfold vscale in E. rewrite nth_error_map in E. destruct (nth_error (vsum d pts) i) as [s|] eqn:Es; cbn [option_map] in E; [|discriminate E].
    injection E as <-. assert (Hi : i < d) by (rewrite <- Lv; apply nth_error_Some; congruence).
    destruct (H i Hi) as (s' & Es' & Q). rewrite Es in Es'. injection Es' as <-. rewrite L, <- Q. fold (qnat mu). pose proof (qnat_pos mu Hmu). field. lra.
  Qed.

  Lemma vsquare_nth p c i : length p = d -> length c = d -> i < d ->
    nth i (vsquare (vsub p c)) 0%Q = ((nth i p 0 - nth i c 0) * (nth i p 0 - nth i c 0))%Q.
  Proof.
    intros Lp Lc Hi. destruct (nth_error p i) as [x|] eqn:Ex; [|apply nth_error_None in Ex; lia].
    destruct (nth_error c i) as [y|] eqn:Ey; [|apply nth_error_None in Ey; lia].
    apply nth_error_nth. unfold vsquare. rewrite nth_error_map, (vsub_nth _ _ _ _ _ Ex Ey). cbn [option_map].
    rewrite (nth_error_nth p i 0%Q Ex), (nth_error_nth c i 0%Q Ey). reflexivity.
  Qed.
  Lemma total_seq : forall l, (total l == fold_right Qplus 0 (map (fun i => nth i l 0) (seq 0 (length l))))%Q.
  Proof.
    induction l as [|x l IH]; [reflexivity|]. cbn [length seq map total fold_right nth]. unfold total in IH. rewrite IH, <- seq_shift, map_map. reflexivity.
  Qed.
  Lemma sum_plus {A} (f g : A -> Q) l : (fold_right Qplus 0 (map (fun x => f x + g x) l) == fold_right Qplus 0 (map f l) + fold_right Qplus 0 (map g l))%Q.
  Proof. induction l as [|x l IH]; cbn [map fold_right]; [ring|]. rewrite IH. ring. Qed.
  Lemma sum_ext {A} (f g : A -> Q) l : (forall x, In x l -> (f x == g x)%Q) -> (fold_right Qplus 0 (map f l) == fold_right Qplus 0 (map g l))%Q.
  Proof.
    induction l as [|x l IH]; intros H; cbn [map fold_right]; [reflexivity|]. rewrite (H x (or_introl eq_refl)), IH; [reflexivity|]. intros y Hy. apply H. right. exact Hy.
  Qed.
  Lemma sum_swap {A B} (f : A -> B -> Q) l m :
    (fold_right Qplus 0 (map (fun x => fold_right Qplus 0 (map (f x) m)) l) == fold_right Qplus 0 (map (fun y => fold_right Qplus 0 (map (fun x => f x y) l)) m))%Q.
  Proof.
    induction l as [|x l IH]; cbn [map fold_right].
    - induction m as [|y m IHm]; cbn [map fold_right]; [reflexivity|]. rewrite <- IHm. ring.
    - rewrite IH, <- sum_plus. reflexivity.
  Qed.

  Lemma scale_ok pts c : length pts = mu -> (forall p, In p pts -> length p = d) -> length c = d -> 0 < d ->
    scaled root d mu imp isotropic pts c (sigma_map (fun x => x / imp)%Q
      (let stdd := map (fun p => vsquare (vsub p c)) pts in
       if isotropic then Vector (map (fun v => root (v / qnat (mu * d))) (vsum d stdd))%Q
       else Scalar (root (total (map total stdd) / qnat (mu * 1))))).
  Proof.
    intros L P Lc Hd. cbn zeta. set (stdd := map (fun p => vsquare (vsub p c)) pts).
    assert (Ps : forall s, In s stdd -> length s = d).
    { intros s Hs. apply in_map_iff in Hs as (p & <- & Hp). unfold vsquare. rewrite map_length, vsub_length, (P p Hp), Lc. apply Nat.min_id. }
    pose proof (qnat_pos mu Hmu) as Pm. pose proof (qnat_pos d Hd) as Pd. destruct isotropic; cbn [sigma_map scaled].
    - destruct (vsum_nth stdd Ps) as (Lv & H). split; [reflexivity|]. split; [rewrite !map_length; exact Lv|]. intros i x E.
      rewrite !nth_error_map in E. destruct (nth_error (vsum d stdd) i) as [s|] eqn:Es; cbn [option_map] in E; [|discriminate E]. injection E as <-.
      assert (Hi : i < d) by (rewrite <- Lv; apply nth_error_Some; congruence).
      destruct (H i Hi) as (s' & Es' & Q). rewrite Es in Es'. injection Es' as <-.
      exists (s / qnat (mu * d))%Q. split; [|reflexivity]. fold (qnat mu) (qnat d).
      assert (M : (qnat (mu * d) == qnat mu * qnat d)%Q) by (unfold qnat; rewrite Nat2Z.inj_mul, inject_Z_mult; reflexivity).
      rewrite M. setoid_replace (s / (qnat mu * qnat d) * (qnat mu * qnat d))%Q with s by (field; lra).
      rewrite Q. unfold stdd, deviation. rewrite map_map. apply sum_ext. intros p Hp. rewrite (vsquare_nth p c i (P p Hp) Lc Hi). reflexivity.
    - split; [reflexivity|]. exists (total (map total stdd) / qnat (mu * 1))%Q. split; [|reflexivity]. rewrite Nat.mul_1_r. fold (qnat mu).
      setoid_replace (total (map total stdd) / qnat mu * qnat mu)%Q with (total (map total stdd)) by (field; lra).
      unfold deviations. unfold stdd. rewrite map_map. unfold total at 1.
      rewrite (sum_ext (fun p => total (vsquare (vsub p c))) (fun p => fold_right Qplus 0 (map (fun i => (nth i p 0 - nth i c 0) * (nth i p 0 - nth i c 0)) (seq 0 d)))%Q).
      + rewrite sum_swap. apply sum_ext. intros i _. reflexivity.
      + intros p Hp. rewrite total_seq. assert (Lq : length (vsquare (vsub p c)) = d) by (unfold vsquare; rewrite map_length, vsub_length, (P p Hp), Lc; apply Nat.min_id).
        rewrite Lq. apply sum_ext. intros i Hi. apply in_seq in Hi. rewrite (vsquare_nth p c i (P p Hp) Lc ltac:(lia)). reflexivity.
  Qed.

  Definition dim_ok (c : emna_cand) : Prop := length (fst c) = d.
  (** [s] has just finished the generation [g] *)
  Definition after_gen (g : list emna_cand) (s : emna) : Prop :=
    em_children s = [] /\ k_best mu snd g (em_parents s) /\ length (em_parents s) = mu /\
    mean_of d (map fst (em_parents s)) (em_center s) /\ scaled root d mu imp isotropic (map fst (em_parents s)) (em_center s) (em_sigma s).

  Lemma run_app a b s : run (a ++ b) s = bind (run a s) (run b).
  Proof. revert s. induction a as [|c a IH]; intros s; cbn [app emna_run bind]; [reflexivity|]. destruct (tell c s); cbn [bind]; auto. Qed.
  Lemma run_wait cs s : length (em_children s) + length cs < llambda ->
    run cs s = Ok (Emna (em_center s) (em_sigma s) (em_parents s) (em_children s ++ cs)).
  Proof.
    clear Hmu Hle. revert s. induction cs as [|c cs IH]; intros s H; cbn [emna_run].
    - rewrite app_nil_r. destruct s; reflexivity.
    - cbn [length] in H. unfold emna_tell at 1. rewrite app_length. cbn [length].
      destruct (Nat.leb_spec llambda (length (em_children s) + 1)) as [H1|H1]; [lia|]. cbn [bind].
      rewrite IH by (cbn [em_children]; rewrite app_length; cbn [length]; lia). cbn [em_center em_sigma em_parents em_children].
      rewrite <- app_assoc. reflexivity.
  Qed.
  Lemma run_gen g s : 0 < d -> em_children s = [] -> length g = llambda -> Forall dim_ok g -> exists s', run g s = Ok s' /\ after_gen g s'.
  Proof.
    intros Hd Hc Lg F. destruct (exists_last (l := g)) as (g' & c & Eg); [intros ->; cbn in Lg; lia|]. rewrite Eg, run_app.
    assert (Lg' : S (length g') = llambda) by (rewrite <- Lg, Eg, app_length; cbn [length]; lia).
    rewrite run_wait by (rewrite Hc; cbn [length]; lia). cbn [bind emna_run]. rewrite Hc. cbn [app].
    unfold emna_tell. cbn [em_children]. rewrite app_length. cbn [length]. destruct (Nat.leb_spec llambda (length g' + 1)) as [_|H]; [|lia].
    destruct (Nat.eqb_spec mu 0) as [H|_]; [lia|]. rewrite <- Eg. cbn [bind]. eexists. split; [reflexivity|].
    set (parents := firstn mu (stable_sort (fun a b => qle (snd a) (snd b)) g)).
    pose proof (k_best_sort emna_cand snd mu g) as KB. change (k_best mu snd g parents) in KB.
    assert (Lp : length parents = mu) by (destruct KB as (KB & _); transitivity (Nat.min mu llambda); [rewrite <- Lg; exact KB|apply Nat.min_l; exact Hle]).
    assert (Pp : forall p, In p (map fst parents) -> length p = d).
    { intros p Hp. apply in_map_iff in Hp as (c' & <- & Hc'). rewrite Forall_forall in F. apply F. destruct KB as (_ & rest & Perm & _).
      eapply Permutation_in; [exact Perm|]. apply in_or_app. left. exact Hc'. }
    assert (Lf : length (map fst parents) = mu) by (rewrite map_length; exact Lp).
    split; [reflexivity|]. cbn [em_parents em_center em_sigma]. split; [exact KB|]. split; [exact Lp|].
    split; [apply mean_vsum; auto|].
    pose proof (scale_ok (map fst parents) (vscale (1 / qnat mu) (vsum d (map fst parents))) Lf Pp) as Sc. cbn zeta in Sc. rewrite map_map in Sc.
    apply Sc; [rewrite vscale_length; apply vsum_nth; exact Pp|exact Hd].
  Qed.

  Lemma run_gens gens : 0 < d -> Forall (fun g => length g = llambda /\ Forall dim_ok g) gens -> forall s, em_children s = [] ->
    exists s', run (concat gens) s = Ok s' /\ em_children s' = [] /\ (gens = [] -> s' = s) /\ forall gs g, gens = gs ++ [g] -> after_gen g s'.
  Proof.
    intros Hd. induction gens as [|g gens IH]; intros F s Hc.
    - exists s. split; [reflexivity|]. split; [exact Hc|]. split; [reflexivity|]. intros gs g E. destruct gs; discriminate E.
    - pose proof (Forall_inv F) as (Lg & Fg). pose proof (Forall_inv_tail F) as F'. destruct (run_gen g s Hd Hc Lg Fg) as (s1 & E1 & A1).
      destruct (IH F' s1 (proj1 A1)) as (s2 & E2 & C2 & N2 & A2). exists s2. split; [|split; [exact C2|split]].
      + cbn [concat]. rewrite run_app, E1. exact E2.
      + discriminate.
      + intros gs g0 E. destruct gens as [|g1 gens].
        * rewrite (N2 eq_refl). destruct gs as [|x [|y gs]]; cbn [app] in E; [injection E as <-; exact A1|discriminate E|discriminate E].
        * destruct gs as [|x gs]; [discriminate E|]. cbn [app] in E. injection E as _ E. eauto.
  Qed.
End Emna.

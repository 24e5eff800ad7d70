(** C79: estimation of multivariate normal distributions (EMNA) *)
From Coq Require Import List Arith Lia QArith Lqa Bool Permutation.
From Verif.Model Require Import Prelude MultiValue Nsga2 MetaModel Emna.
From Verif.Spec Require Import Spsa Cma MetaModel Emna.
From Verif.Proofs Require Import MultiValue Cma MetaModel Emna.
Import ListNotations.
Open Scope nat_scope.

(** Told candidates are gathered in generations of [llambda].  After any number of full generations and [rest] further
    tells, the search is centred on the mean of the [mu] best candidates of the last full generation, with the scale of
    their deviations from that mean; the further tells have no effect yet. *)
Theorem C79_generations : forall root d mu llambda isotropic imp (gens : list (list emna_cand)) (rest : list emna_cand),
  0 < d -> 1 <= mu -> mu <= llambda -> length rest < llambda ->
  Forall (fun g => length g = llambda /\ Forall (fun c => length (fst c) = d) g) gens ->
  exists s, emna_run root d mu llambda isotropic imp (concat gens ++ rest) (emna_init d isotropic) = Ok s /\ em_children s = rest /\
    (gens = [] -> em_center s = repeat 0%Q d /\ em_sigma s = if isotropic then Scalar 1 else Vector (repeat 1%Q d)) /\
    forall gs g, gens = gs ++ [g] -> exists best, k_best mu snd g best /\ length best = mu /\
      mean_of d (map fst best) (em_center s) /\ scaled root d mu imp isotropic (map fst best) (em_center s) (em_sigma s).
Proof.
  intros root d mu lam iso imp gens rest Hd Hmu Hle Hr F.
  destruct (run_gens root d mu lam iso imp Hmu Hle gens Hd F (emna_init d iso) eq_refl) as (s & E & C & N & A).
  assert (W : length (em_children s) + length rest < lam) by (rewrite C; exact Hr).
  rewrite run_app, E. cbn [bind]. rewrite (run_wait root d mu lam iso imp rest s W).
  eexists. split; [reflexivity|]. cbn [em_children]. split; [rewrite C; reflexivity|]. cbn [em_center em_sigma]. split.
  - intros G. rewrite (N G). split; reflexivity.
  - intros gs g G. destruct (A gs g G) as (_ & KB & L & M & Sc). exists (em_parents s). auto.
Qed.
Print Assumptions C79_generations.

(** The other way round: the documented "isotropic" distribution gets a scale for each coordinate, and the separable one
    a single scale, from the first generation on. *)
Theorem C79_isotropic_refuted : forall root d mu llambda isotropic imp (gens : list (list emna_cand)) (rest : list emna_cand) s,
  0 < d -> 1 <= mu -> mu <= llambda -> length rest < llambda -> gens <> [] ->
  Forall (fun g => length g = llambda /\ Forall (fun c => length (fst c) = d) g) gens ->
  emna_run root d mu llambda isotropic imp (concat gens ++ rest) (emna_init d isotropic) = Ok s ->
  match em_sigma s with Scalar _ => isotropic = false | Vector _ => isotropic = true end.
Proof.
  intros root d mu lam iso imp gens rest s Hd Hmu Hle Hr Hg F E.
  destruct (C79_generations root d mu lam iso imp gens rest Hd Hmu Hle Hr F) as (s' & E' & _ & _ & A). rewrite E in E'. injection E' as <-.
  destruct (exists_last Hg) as (gs & g & G). destruct (A gs g G) as (best & _ & _ & _ & Sc).
  destruct (em_sigma s); cbn [scaled] in Sc; apply Sc.
Qed.
Print Assumptions C79_isotropic_refuted.

Lemma deviation_equal p pts c i : (forall q, In q pts -> q = p) -> (nth i p 0 == nth i c 0)%Q -> (deviation pts c i == 0)%Q.
Proof.
  intros H E. unfold deviation. induction pts as [|q pts IH]; cbn [map fold_right]; [reflexivity|].
  rewrite IH by (intros r Hr; apply H; right; exact Hr). rewrite (H q (or_introl eq_refl)), E. ring.
Qed.
Lemma sum_const {A} (x : Q) (l : list A) : (fold_right Qplus 0 (map (fun _ => x) l) == qnat (length l) * x)%Q.
Proof. induction l as [|a l IH]; cbn [map fold_right length]; [change (qnat 0) with 0%Q; ring|]. rewrite IH, qnat_S. ring. Qed.
Lemma sum_zero (f : nat -> Q) l : (forall i, In i l -> (f i == 0)%Q) -> (fold_right Qplus 0 (map f l) == 0)%Q.
Proof.
  induction l as [|x l IH]; intros H; cbn [map fold_right]; [reflexivity|]. rewrite (H x (or_introl eq_refl)), IH; [ring|]. intros i Hi. apply H. right. exact Hi.
Qed.

(** A generation whose [mu] best candidates are the same point ends the search: every candidate asked from then on, for
    any draw, is that point. *)
Theorem C79_collapse : forall root d mu llambda isotropic imp (gens : list (list emna_cand)) (g : list emna_cand) p (rest : list emna_cand) s z i,
  0 < d -> 1 <= mu -> mu <= llambda -> length rest < llambda -> (forall q, q == 0 -> root q == 0)%Q ->
  Forall (fun g => length g = llambda /\ Forall (fun c => length (fst c) = d) g) (gens ++ [g]) ->
  (forall best, k_best mu snd g best -> forall c, In c best -> fst c = p) ->
  emna_run root d mu llambda isotropic imp (concat (gens ++ [g]) ++ rest) (emna_init d isotropic) = Ok s ->
  length z = d -> i < d ->
  exists x, nth_error (emna_ask z s) i = Some x /\ (x == nth i p 0)%Q.
Proof.
  intros root d mu lam iso imp gens g p rest s z i Hd Hmu Hle Hr R0 F P E Lz Hi.
  destruct (C79_generations root d mu lam iso imp (gens ++ [g]) rest Hd Hmu Hle Hr F) as (s' & E' & _ & _ & A). rewrite E in E'. injection E' as <-.
  destruct (A gens g eq_refl) as (best & KB & Lb & (Lc & M) & Sc). set (c := em_center s) in *.
  assert (Pb : forall q, In q (map fst best) -> q = p) by (intros q Hq; apply in_map_iff in Hq as (x & <- & Hx); exact (P best KB x Hx)).
  assert (Ep : forall j y, nth_error c j = Some y -> (y == nth j p 0)%Q).
  { intros j y Ey. pose proof (M j y Ey) as Q. rewrite map_length, Lb in Q. fold (qnat mu) in Q.
    rewrite (map_ext_in _ (fun _ => nth j p 0%Q)) in Q by (intros q Hq; rewrite (Pb q Hq); reflexivity).
    rewrite sum_const, map_length, Lb in Q. pose proof (qnat_pos mu Hmu). nra. }
  assert (Dv : forall j, j < d -> (deviation (map fst best) c j == 0)%Q).
  { intros j Hj. apply (deviation_equal p); [exact Pb|]. destruct (nth_error c j) as [y|] eqn:Ey; [|apply nth_error_None in Ey; lia].
    rewrite (nth_error_nth c j 0%Q Ey). symmetry. apply Ep. exact Ey. }
  destruct (nth_error c i) as [y|] eqn:Ey; [|apply nth_error_None in Ey; lia].
  destruct (nth_error z i) as [zi|] eqn:Ez; [|apply nth_error_None in Ez; lia].
  pose proof (qnat_pos mu Hmu) as Pm. pose proof (qnat_pos d Hd) as Pd.
  unfold emna_ask. fold c. destruct (em_sigma s) as [x|v]; cbn [scaled] in Sc.
  - destruct Sc as (_ & q & Q & ->). exists (y + (root q / imp) * zi)%Q. split.
    + apply vadd_nth; [exact Ey|]. unfold vscale. rewrite nth_error_map, Ez. reflexivity.
    + assert (Dz : (deviations d (map fst best) c == 0)%Q) by (apply sum_zero; intros j Hj; apply in_seq in Hj; apply Dv; lia).
      rewrite Dz in Q. fold (qnat mu) in Q. rewrite (R0 q) by nra. rewrite (Ep i y Ey). unfold Qdiv. ring.
  - destruct Sc as (_ & Lv & Sv). destruct (nth_error v i) as [x|] eqn:Ex; [|apply nth_error_None in Ex; lia].
    destruct (Sv i x Ex) as (q & Q & ->). exists (y + (root q / imp) * zi)%Q. split.
    + apply vadd_nth; [exact Ey|]. rewrite nth_error_map.
      assert (Ec : forall (a b : list QArith_base.Q) j u w, nth_error a j = Some u -> nth_error b j = Some w -> nth_error (combine a b) j = Some (u, w)).
      { induction a as [|a0 a IH]; intros b [|j] u w H1 H2; try discriminate H1; destruct b as [|b0 b]; try discriminate H2; cbn in *; [congruence|auto]. }
      rewrite (Ec _ _ _ _ _ Ex Ez). reflexivity.
    + rewrite (Dv i Hi) in Q. fold (qnat mu) (qnat d) in Q.
      assert (Z : (q == 0)%Q) by (destruct (Qmult_integral _ _ Q) as [Z|Z]; [exact Z|destruct (Qmult_integral _ _ Z); lra]).
      pose proof (R0 q Z) as Rz. rewrite Rz. rewrite (Ep i y Ey). unfold Qdiv. ring.
Qed.
Print Assumptions C79_collapse.

(** The sizes: a generation never exceeds the budget, has more candidates than parents, and has room for all workers
    unless the budget is too small for that; there is a parent exactly if the budget is at least 4. *)
Theorem C79_sizes : forall d workers budget mu llambda, emna_sizes d workers budget = (mu, llambda) ->
  mu <= llambda /\ (workers <= llambda \/ budget = Some llambda) /\
  (forall b, budget = Some b -> llambda <= b) /\
  (1 <= mu <-> forall b, budget = Some b -> 4 <= b).
Proof.
  intros d w budget mu lam. unfold emna_sizes, emna_mu0.
  destruct budget as [b|]; [destruct (Nat.ltb_spec b (Nat.max (4 * Nat.max 16 d) w)) as [H|H]|]; intros E; apply pair_equal_spec in E as (<- & <-).
  - pose proof (Nat.div_mod b 4 ltac:(lia)) as D. pose proof (Nat.mod_upper_bound b 4 ltac:(lia)) as U.
    split; [lia|]. split; [right; reflexivity|]. split; [intros b' B; injection B as <-; lia|].
    split; [intros L b' B; injection B as <-; lia|intros L; specialize (L b eq_refl); lia].
  - split; [lia|]. split; [left; lia|]. split; [intros b' B; injection B as <-; lia|]. split; [intros L b' B; injection B as <-; lia|intros; lia].
  - split; [lia|]. split; [left; lia|]. split; [discriminate|]. split; [discriminate|intros; lia].
Qed.
Print Assumptions C79_sizes.

(** With a budget of 1, 2 or 3, the last tell of the budget raises ZeroDivisionError, whatever is told. *)
Theorem C79_small_budget_refuted : forall root d workers b isotropic imp (told : list emna_cand) c, 1 <= b <= 3 -> length told + 1 = b ->
  let '(mu, llambda) := emna_sizes d workers (Some b) in
  (exists s, emna_run root d mu llambda isotropic imp told (emna_init d isotropic) = Ok s) /\
  emna_run root d mu llambda isotropic imp (told ++ [c]) (emna_init d isotropic) = Err ZeroDivisionError.
Proof.
  intros root d w b iso imp told c Hb L. unfold emna_sizes, emna_mu0. destruct (Nat.ltb_spec b (Nat.max (4 * Nat.max 16 d) w)) as [_|H]; [|lia].
  assert (Z : b / 4 = 0) by (apply Nat.div_small; lia). rewrite Z.
  assert (E : emna_run root d 0 b iso imp told (emna_init d iso) = Ok (Emna (repeat 0%Q d) (em_sigma (emna_init d iso)) [] told))
    by (rewrite run_wait by (cbn [em_children emna_init length]; lia); reflexivity).
  split; [eexists; exact E|]. rewrite run_app, E. cbn [bind emna_run]. unfold emna_tell. cbn [em_children]. rewrite app_length. cbn [length].
  destruct (Nat.leb_spec b (length told + 1)) as [_|H]; [|lia]. reflexivity.
Qed.
Print Assumptions C79_small_budget_refuted.

(** a run in dimension 2 with 2 parents among 4 (the square root is replaced by the identity) *)
Definition ex_gen : list emna_cand := [([4;0], 3); ([2;4], 1); ([9;9], 8); ([0;8], 2)]%Q.
Example C79_ex_hyp : Forall (fun g : list emna_cand => length g = 4 /\ Forall (fun c => length (fst c) = 2) g) [ex_gen].
Proof. repeat constructor. Qed.
Example C79_ex_isotropic : exists s, emna_run (fun x => x) 2 2 4 true 1 (concat [ex_gen] ++ [([1;1], 5)]%Q) (emna_init 2 true) = Ok s /\
  map Qred (em_center s) = [1; 6]%Q /\ length (em_children s) = 1 /\
  match em_sigma s with Vector v => map Qred v = [1#2; 2]%Q | Scalar _ => False end.
Proof. eexists. split; [vm_compute; reflexivity|]. repeat split. Qed.
Example C79_ex_separable : exists s, emna_run (fun x => x) 2 2 4 false 1 (concat [ex_gen] ++ [([1;1], 5)]%Q) (emna_init 2 false) = Ok s /\
  map Qred (em_center s) = [1; 6]%Q /\
  match em_sigma s with Scalar x => (x == 5)%Q | Vector _ => False end.
Proof. eexists. split; [vm_compute; reflexivity|]. repeat split. Qed.
(** the two best are the same point: nothing else is ever asked *)
Definition ex_same : list emna_cand := [([4;0], 3); ([2;4], 1); ([2;4], 1); ([0;8], 2)]%Q.
Example C79_ex_collapse : exists s, emna_run (fun x => x) 2 2 4 true 1 ex_same (emna_init 2 true) = Ok s /\ map Qred (emna_ask [7;-3]%Q s) = [2;4]%Q.
Proof. eexists. split; [vm_compute; reflexivity|]. reflexivity. Qed.
Example C79_ex_sizes : emna_sizes 2 1 None = (16, 64) /\ emna_sizes 2 1 (Some 10) = (2, 10) /\ emna_sizes 2 1 (Some 3) = (0, 3).
Proof. repeat split. Qed.
(** the hypothesis of [C79_collapse] holds of that generation: its 2 best candidates can only be the equal ones *)
Lemma count_perm {A} (f : A -> bool) l l' : Permutation l l' -> length (filter f l) = length (filter f l').
Proof. induction 1; cbn; repeat match goal with |- context [f ?a] => destruct (f a) end; cbn; lia. Qed.
Lemma filter_length_le' {A} (f : A -> bool) l : length (filter f l) <= length l.
Proof. induction l as [|x l IH]; cbn; [lia|]. destruct (f x); cbn; lia. Qed.
Example C79_ex_collapse_hyp : forall best, k_best 2 snd ex_same best -> forall c, In c best -> fst c = [2;4]%Q.
Proof.
  intros best (L & rest & P & B) c Hc. change (Nat.min 2 (length ex_same)) with 2 in L.
  assert (Hi : In c ex_same) by (eapply Permutation_in; [exact P|apply in_or_app; left; exact Hc]).
  destruct (Qlt_le_dec 1 (snd c)) as [G|G].
  - exfalso. pose (f := fun c : emna_cand => qle (snd c) 1). pose proof (count_perm f _ _ P) as N. rewrite filter_app, app_length in N.
    change (length (filter f ex_same)) with 2 in N.
    assert (R : length (filter f rest) = 0).
    { destruct (filter f rest) as [|r t] eqn:E; [reflexivity|]. assert (Hr : In r (filter f rest)) by (rewrite E; left; reflexivity).
      apply filter_In in Hr as (Hr & Fr). unfold f in Fr. apply qle_iff in Fr. pose proof (B c r Hc Hr). lra. }
    apply in_split in Hc as (a & b & ->). rewrite filter_app, !app_length in N. cbn [filter] in N.
    assert (Fc : f c = false) by (unfold f; apply qle_false; exact G). rewrite Fc in N. rewrite app_length in L. cbn [length] in L.
    pose proof (filter_length_le' f a). pose proof (filter_length_le' f b). unfold emna_cand in *. lia.
  - cbn in Hi. destruct Hi as [<-|[<-|[<-|[<-|[]]]]]; cbn in G; try reflexivity; exfalso; lra.
Qed.

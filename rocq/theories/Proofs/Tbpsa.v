From Coq Require Import List Arith ZArith QArith Qreals Reals Lia Lra Bool Permutation.
From Verif.Model Require Import Prelude MultiValue PopSize Tbpsa.
From Verif.Spec Require Import PopSize.
From Verif.Proofs Require Import MultiValue PopSize.
Import ListNotations.
Open Scope nat_scope.

(** ** Sorting *)
Lemma ch_insert_perm c l : Permutation (ch_insert c l) (c :: l).
Proof.
  induction l as [|d l IH]; cbn; [apply Permutation_refl|].
  destruct (qle (ch_loss c) (ch_loss d)); [apply Permutation_refl|].
  eapply perm_trans; [apply perm_skip; exact IH|apply perm_swap].
Qed.

Lemma ch_sort_perm l : Permutation (ch_sort l) l.
Proof.
  induction l as [|c l IH]; cbn; [constructor|].
  eapply perm_trans; [apply ch_insert_perm|apply perm_skip; exact IH].
Qed.

Lemma ch_sort_length l : length (ch_sort l) = length l.
Proof. apply Permutation_length, ch_sort_perm. Qed.

Fixpoint ch_sorted (l : list child) : Prop :=
  match l with
  | [] => True
  | c :: l' => (forall d, In d l' -> (ch_loss c <= ch_loss d)%Q) /\ ch_sorted l'
  end.

Lemma ch_insert_sorted c l : ch_sorted l -> ch_sorted (ch_insert c l).
Proof.
  induction l as [|d l IH]; cbn [ch_insert]; intros H; [split; [intros d []|exact I]|].
  destruct (qle (ch_loss c) (ch_loss d)) eqn:E.
  - apply qle_iff in E. split; [|exact H]. intros x [<-|Hx]; [exact E|].
    eapply Qle_trans; [exact E|apply (proj1 H); exact Hx].
  - destruct H as [H1 H2]. split; [|apply IH; exact H2].
    intros x Hx. apply (Permutation_in _ (ch_insert_perm c l)) in Hx.
    destruct Hx as [<-|Hx]; [|apply H1; exact Hx].
    destruct (Qlt_le_dec (ch_loss c) (ch_loss d)) as [L|L]; [|exact L].
    apply Qlt_le_weak, qle_iff in L. congruence.
Qed.

Lemma ch_sort_sorted l : ch_sorted (ch_sort l).
Proof. induction l as [|c l IH]; cbn; [exact I|apply ch_insert_sorted; exact IH]. Qed.

Lemma ch_sorted_app l m : ch_sorted (l ++ m) -> forall b r, In b l -> In r m -> (ch_loss b <= ch_loss r)%Q.
Proof.
  induction l as [|c l IH]; cbn; intros H b r Hb Hr; [destruct Hb|].
  destruct H as [H1 H2]. destruct Hb as [<-|Hb]; [apply H1, in_or_app; right; exact Hr|].
  apply IH; assumption.
Qed.

Lemma firstn_mu_best mu l : mu <= length l -> mu_best mu l (firstn mu (ch_sort l)).
Proof.
  intros H. split.
  - rewrite firstn_length, ch_sort_length. lia.
  - exists (skipn mu (ch_sort l)). split.
    + rewrite firstn_skipn. apply Permutation_sym, ch_sort_perm.
    + apply ch_sorted_app. rewrite firstn_skipn. apply ch_sort_sorted.
Qed.

Lemma center_is_mean mu parents : length parents = mu -> 1 <= mu -> is_mean parents (center_of mu parents).
Proof.
  intros <- H i. unfold center_of. field. apply not_0_INR. lia.
Qed.

(** the head of the sorted children *)
Lemma ch_insert_head c l : (forall d, In d l -> (ch_loss c <= ch_loss d)%Q) -> ch_insert c l = c :: l.
Proof.
  destruct l as [|d l]; cbn; intros H; [reflexivity|].
  rewrite (proj2 (qle_iff _ _) (H d (or_introl eq_refl))). reflexivity.
Qed.
Lemma ch_sort_head c l : (forall d, In d l -> (ch_loss c <= ch_loss d)%Q) -> ch_sort (c :: l) = c :: ch_sort l.
Proof.
  intros H. cbn. apply ch_insert_head. intros d Hd. apply H.
  apply (Permutation_in _ (ch_sort_perm l)). exact Hd.
Qed.

Lemma rsum_cons x l : rsum (x :: l) = (x + rsum l)%R.
Proof. reflexivity. Qed.

(** ** Geometric means *)
Lemma geometric_zero mu l : In 0%R l -> geometric mu l = 0%R.
Proof. intros H. unfold geometric. destruct (in_dec Req_EM_T 0%R l); [reflexivity|contradiction]. Qed.
Lemma geometric_pos mu l : (forall x, In x l -> (0 < x)%R) -> (0 < geometric mu l)%R.
Proof.
  intros H. unfold geometric. destruct (in_dec Req_EM_T 0%R l) as [H0|_].
  - exfalso. apply (Rlt_irrefl 0). apply H. exact H0.
  - apply exp_pos.
Qed.

Lemma sigmas_of_ok l : (forall c, In c l -> cd_sigma (ch_cand c) <> None) ->
  exists r, sigmas_of l = Ok r /\ map Some r = map (fun c => cd_sigma (ch_cand c)) l.
Proof.
  induction l as [|c l IH]; cbn; intros H; [exists []; split; reflexivity|].
  destruct (cd_sigma (ch_cand c)) as [s|] eqn:E; [|exfalso; apply (H c); [left; reflexivity|exact E]].
  destruct IH as (r & -> & Hr); [intros d Hd; apply H; right; exact Hd|].
  exists (s :: r). split; [reflexivity|]. cbn. rewrite Hr. reflexivity.
Qed.
Lemma sigmas_of_err l c : In c l -> cd_sigma (ch_cand c) = None -> sigmas_of l = Err KeyError.
Proof.
  induction l as [|d l IH]; cbn; intros H E; [destruct H|].
  destruct (cd_sigma (ch_cand d)) eqn:Ed; [|reflexivity].
  destruct H as [->|H]; [congruence|]. rewrite (IH H E). reflexivity.
Qed.
Lemma sigmas_of_in l r x : sigmas_of l = Ok r -> In x r -> exists c, In c l /\ cd_sigma (ch_cand c) = Some x.
Proof.
  revert r. induction l as [|c l IH]; cbn; intros r H Hx.
  - injection H as <-. destruct Hx.
  - destruct (cd_sigma (ch_cand c)) as [s|] eqn:E; [|discriminate].
    destruct (sigmas_of l) as [r'|]; [|discriminate]. injection H as <-.
    destruct Hx as [<-|Hx].
    + exists c. split; [left; reflexivity|exact E].
    + destruct (IH r' eq_refl Hx) as (d & Hd & Ed). exists d. split; [right; exact Hd|exact Ed].
Qed.
Lemma sigmas_of_in' l r c x : sigmas_of l = Ok r -> In c l -> cd_sigma (ch_cand c) = Some x -> In x r.
Proof.
  revert r. induction l as [|d l IH]; cbn; intros r H Hc E; [destruct Hc|].
  destruct (cd_sigma (ch_cand d)) as [s|] eqn:Ed; [|discriminate].
  destruct (sigmas_of l) as [r'|]; [|discriminate]. injection H as <-.
  destruct Hc as [->|Hc]; [left; congruence|right; apply (IH r' eq_refl Hc E)].
Qed.

(** ** TBPSA: the effect of a tell *)
Section TB.
  Variable dimension : nat.
  Variables mu0 w : nat.
  Hypothesis Hmu0 : 1 <= mu0.
  Hypothesis Hdim : 1 <= dimension.

  Definition tb_inv (s : tbpsa) : Prop :=
    ps_inv mu0 dimension w (tb_pop s) /\ tb_parents s <> [] /\ length (tb_children s) < ps_lambda (tb_pop s).

  Lemma tb_init_inv : tb_inv (tb_init dimension mu0 w).
  Proof.
    pose proof (ps_init_inv mu0 dimension w Hmu0) as H.
    split; [exact H|]. split; [discriminate|]. cbn. lia.
  Qed.

  Lemma firstn_In {A} n (l : list A) x : In x (firstn n l) -> In x l.
  Proof. intros H. rewrite <- (firstn_skipn n l). apply in_or_app. left. exact H. Qed.

  Lemma tb_tell_inv c l s : tb_inv s -> tb_inv (fst (tb_tell c l s)).
  Proof.
    intros (Hp & Hpar & Hch).
    pose proof (ps_add_inv mu0 dimension w l _ Hmu0 Hdim Hp) as Hp'.
    unfold tb_tell.
    destruct (ps_lambda (ps_add l (tb_pop s)) <=? length (tb_children s ++ [c])) eqn:E.
    - apply Nat.leb_le in E.
      assert (Hne : map Some (firstn (ps_mu (ps_add l (tb_pop s))) (ch_sort (tb_children s ++ [c]))) <> []).
      { intros H. apply (f_equal (@length _)) in H.
        rewrite map_length, firstn_length, ch_sort_length in H. cbn [length] in H.
        destruct Hp' as (_ & _ & H3 & _ & _ & H6 & _). lia. }
      destruct (sigmas_of _); (split; [exact Hp'|]); (split; [exact Hne|]);
        cbn [fst tb_children tb_pop length]; destruct Hp' as (_ & _ & H3 & _ & _ & H6 & _); lia.
    - apply Nat.leb_gt in E. split; [exact Hp'|]. split; [exact Hpar|]. exact E.
  Qed.

  Lemma tb_step_inv s o : tb_inv s -> tb_inv (fst (tb_step dimension s o)).
  Proof.
    intros H. destruct o as [g gs|d|i l0 l|d l0 l]; cbn [tb_step]; [exact H|exact H| |].
    - destruct (nth_error (tb_pending s) i); [|exact H]. apply tb_tell_inv. exact H.
    - apply tb_tell_inv. exact H.
  Qed.

  Lemma tb_run_inv ops : tb_inv (tb_run dimension (tb_init dimension mu0 w) ops).
  Proof.
    unfold tb_run. induction ops as [|o ops IH] using rev_ind; [apply tb_init_inv|].
    rewrite fold_left_app. cbn [fold_left]. apply tb_step_inv. exact IH.
  Qed.

  (** the end of a generation *)
  Lemma tb_tell_generation c l s : tb_inv s ->
    let s' := fst (tb_tell c l s) in
    if length (tb_children s) + 1 <? ps_lambda (ps_add l (tb_pop s))
    then tb_children s' = tb_children s ++ [c] /\ tb_center s' = tb_center s /\
         tb_sigma s' = tb_sigma s /\ tb_parents s' = tb_parents s
    else tb_children s' = [] /\
         exists best, tb_parents s' = map Some best /\
           mu_best (ps_mu (tb_pop s')) (tb_children s ++ [c]) best /\ is_mean best (tb_center s').
  Proof.
    intros (Hp & Hpar & Hch).
    pose proof (ps_add_inv mu0 dimension w l _ Hmu0 Hdim Hp) as Hp'.
    unfold tb_tell. rewrite app_length; cbn [length].
    destruct (length (tb_children s) + 1 <? ps_lambda (ps_add l (tb_pop s))) eqn:E.
    - apply Nat.ltb_lt in E.
      destruct (ps_lambda (ps_add l (tb_pop s)) <=? length (tb_children s) + 1) eqn:E'; [apply Nat.leb_le in E'; lia|].
      repeat split.
    - apply Nat.ltb_ge in E.
      rewrite (proj2 (Nat.leb_le _ _) E).
      assert (Hb : mu_best (ps_mu (ps_add l (tb_pop s))) (tb_children s ++ [c])
                     (firstn (ps_mu (ps_add l (tb_pop s))) (ch_sort (tb_children s ++ [c])))).
      { apply firstn_mu_best. rewrite app_length; cbn [length]. destruct Hp' as (_ & _ & H3 & _). lia. }
      assert (Hm := center_is_mean (ps_mu (ps_add l (tb_pop s))) _ (proj1 Hb)).
      assert (1 <= ps_mu (ps_add l (tb_pop s))) as H1 by (destruct Hp' as (_ & _ & _ & _ & _ & H6 & _); exact H6).
      destruct (sigmas_of _); cbn [fst tb_children tb_parents tb_center tb_pop];
        (split; [reflexivity|]); eexists; (split; [reflexivity|]); (split; [exact Hb|]); exact (Hm H1).
  Qed.

  (** ** The step size *)
  Definition sigma_in (P : R -> Prop) (c : cand) : Prop := exists x, cd_sigma c = Some x /\ P x.

  Lemma tb_tell_ok P c l s :
    (forall d, In d (tb_children s ++ [c]) -> sigma_in P (ch_cand d)) ->
    snd (tb_tell c l s) = Ok tt.
  Proof.
    intros H. unfold tb_tell. destruct (_ <=? _); [|reflexivity].
    destruct (sigmas_of_ok (firstn (ps_mu (ps_add l (tb_pop s))) (ch_sort (tb_children s ++ [c])))) as (r & -> & _); [|reflexivity].
    intros d Hd. apply firstn_In in Hd. apply (Permutation_in _ (ch_sort_perm _)) in Hd.
    destruct (H d Hd) as (x & -> & _). discriminate.
  Qed.

  (** positive step sizes *)
  Definition pos_inv (s : tbpsa) : Prop :=
    (0 < tb_sigma s)%R /\
    (forall c, In c (tb_pending s) -> sigma_in (fun x => 0 < x)%R c) /\
    (forall c, In c (tb_children s) -> sigma_in (fun x => 0 < x)%R (ch_cand c)).

  Lemma tb_tell_pos c l s : pos_inv s -> sigma_in (fun x => 0 < x)%R (ch_cand c) ->
    pos_inv (fst (tb_tell c l s)) /\ snd (tb_tell c l s) = Ok tt.
  Proof.
    intros (H1 & H2 & H3) Hc.
    assert (Hall : forall d, In d (tb_children s ++ [c]) -> sigma_in (fun x => 0 < x)%R (ch_cand d)).
    { intros d Hd. apply in_app_or in Hd. destruct Hd as [Hd|[<-|[]]]; [apply H3; exact Hd|exact Hc]. }
    split; [|apply (tb_tell_ok (fun x => 0 < x)%R); exact Hall].
    unfold tb_tell. destruct (_ <=? _).
    - set (best := firstn (ps_mu (ps_add l (tb_pop s))) (ch_sort (tb_children s ++ [c]))).
      assert (Hb : forall d, In d best -> sigma_in (fun x => 0 < x)%R (ch_cand d)).
      { intros d Hd. apply Hall. apply firstn_In in Hd. apply (Permutation_in _ (ch_sort_perm _)). exact Hd. }
      destruct (sigmas_of best) as [r|] eqn:E.
      + split; cbn [fst tb_sigma]; [|split; [exact H2|intros d []]].
        apply geometric_pos. intros x Hx. destruct (sigmas_of_in _ _ _ E Hx) as (d & Hd & Ed).
        destruct (Hb d Hd) as (y & Ey & Py). congruence.
      + split; cbn [fst tb_sigma]; [exact H1|split; [exact H2|intros d []]].
    - split; [exact H1|]. split; [exact H2|]. exact Hall.
  Qed.

  (** the guess for an injected point *)
  Lemma rsum_nonneg l : (forall x, In x l -> (0 <= x)%R) -> (0 <= rsum l)%R.
  Proof.
    induction l as [|x l IH]; intros H; [cbn; lra|]. rewrite rsum_cons.
    pose proof (H x (or_introl eq_refl)). specialize (IH (fun y Hy => H y (or_intror Hy))). lra.
  Qed.
  Lemma rsum_ge l x : (forall y, In y l -> (0 <= y)%R) -> In x l -> (x <= rsum l)%R.
  Proof.
    induction l as [|y l IH]; intros H Hx; [destruct Hx|]. rewrite rsum_cons.
    pose proof (H y (or_introl eq_refl)) as Hy.
    assert (Hl : forall z, In z l -> (0 <= z)%R) by (intros z Hz; apply H; right; exact Hz).
    destruct Hx as [<-|Hx]; [pose proof (rsum_nonneg l Hl); lra|].
    specialize (IH Hl Hx). lra.
  Qed.

  Lemma guessed_pos d c : (exists i, i < dimension /\ d i <> c i) -> (0 < guessed_sigma dimension d c)%R.
  Proof.
    intros (i & Hi & Hne). unfold guessed_sigma.
    apply Rdiv_lt_0_compat; apply sqrt_lt_R0.
    - assert (H : ((d i - c i) * (d i - c i) <= vsum dimension (fun i => (d i - c i) * (d i - c i)))%R).
      { unfold vsum. apply rsum_ge.
        - intros y Hy. apply in_map_iff in Hy. destruct Hy as (j & <- & _). apply Rle_0_sqr.
        - apply in_map_iff. exists i. split; [reflexivity|]. apply in_seq. lia. }
      assert (Hp : (0 < (d i - c i) * (d i - c i))%R).
      { apply (Rsqr_pos_lt (d i - c i)). lra. }
      eapply Rlt_le_trans; [exact Hp|exact H].
    - apply lt_0_INR. lia.
  Qed.

  Lemma rsum_zero l : (forall x, In x l -> x = 0%R) -> rsum l = 0%R.
  Proof.
    induction l as [|x l IH]; intros H; [reflexivity|]. rewrite rsum_cons.
    rewrite (H x (or_introl eq_refl)), IH; [lra|]. intros y Hy. apply H. right. exact Hy.
  Qed.
  Lemma guessed_zero d c : (forall i, i < dimension -> d i = c i) -> guessed_sigma dimension d c = 0%R.
  Proof.
    intros H. unfold guessed_sigma, vsum. rewrite rsum_zero.
    - rewrite sqrt_0. unfold Rdiv. lra.
    - intros x Hx. apply in_map_iff in Hx. destruct Hx as (i & <- & Hi). apply in_seq in Hi.
      rewrite (H i) by lia. lra.
  Qed.

  Lemma in_firstn_skipn {A} i (l : list A) x : In x (firstn i l ++ skipn (S i) l) -> In x l.
  Proof.
    intros H. apply in_app_or in H. destruct H as [H|H]; [eapply firstn_In; exact H|].
    rewrite <- (firstn_skipn (S i) l). apply in_or_app. right. exact H.
  Qed.

  Lemma tb_step_pos s o : pos_inv s -> moving_op dimension s o ->
    pos_inv (fst (tb_step dimension s o)) /\ snd (tb_step dimension s o) = Ok tt.
  Proof.
    intros (H1 & H2 & H3) Ho. destruct o as [g gs|d|i l0 l|d l0 l]; cbn [tb_step].
    - split; [|reflexivity]. split; [exact H1|]. split; [|exact H3].
      intros c Hc. cbn [with_pending tb_pending fst] in Hc. apply in_app_or in Hc.
      destruct Hc as [Hc|[<-|[]]]; [apply H2; exact Hc|].
      eexists. split; [reflexivity|]. apply Rmult_lt_0_compat; [exact H1|apply exp_pos].
    - destruct Ho.
    - destruct (nth_error (tb_pending s) i) as [c|] eqn:E; [|split; [repeat split; assumption|reflexivity]].
      apply tb_tell_pos.
      + split; [exact H1|]. split; [|exact H3]. intros d Hd. apply H2. eapply in_firstn_skipn. exact Hd.
      + apply H2. eapply nth_error_In. exact E.
    - apply tb_tell_pos; [repeat split; assumption|].
      eexists. split; [reflexivity|]. apply guessed_pos. exact Ho.
  Qed.

  (** ** A step size of zero is for ever *)
  Definition frozen_at (x : vec) (c : cand) : Prop := cd_sigma c = Some 0%R /\ forall i, cd_data c i = x i.
  Definition frozen (x : vec) (s : tbpsa) : Prop :=
    tb_sigma s = 0%R /\ (forall i, tb_center s i = x i) /\
    (forall c, In c (tb_pending s) -> frozen_at x c) /\
    (forall c, In c (tb_children s) -> frozen_at x (ch_cand c)).

  Lemma rsum_const (l : list child) (f : child -> R) a : (forall c, In c l -> f c = a) ->
    rsum (map f l) = (INR (length l) * a)%R.
  Proof.
    induction l as [|c l IH]; intros H; [cbn; lra|].
    cbn [map]. rewrite rsum_cons, (H c (or_introl eq_refl)). rewrite IH by (intros d Hd; apply H; right; exact Hd).
    cbn [length]. rewrite S_INR. lra.
  Qed.

  Lemma tb_tell_frozen x c l s : tb_inv s -> frozen x s -> frozen_at x (ch_cand c) -> frozen x (fst (tb_tell c l s)).
  Proof.
    intros Hinv (H1 & H2 & H3 & H4) Hc.
    pose proof (tb_tell_generation c l s Hinv) as G. cbn zeta in G.
    pose proof (tb_tell_inv c l s Hinv) as (Hp' & _).
    assert (Hall : forall d, In d (tb_children s ++ [c]) -> frozen_at x (ch_cand d)).
    { intros d Hd. apply in_app_or in Hd. destruct Hd as [Hd|[<-|[]]]; [apply H4; exact Hd|exact Hc]. }
    unfold tb_tell in *. rewrite app_length in *; cbn [length] in *.
    destruct (ps_lambda (ps_add l (tb_pop s)) <=? length (tb_children s) + 1) eqn:E.
    - apply Nat.leb_le in E.
      destruct (length (tb_children s) + 1 <? ps_lambda (ps_add l (tb_pop s))) eqn:E'; [apply Nat.ltb_lt in E'; lia|].
      set (best := firstn (ps_mu (ps_add l (tb_pop s))) (ch_sort (tb_children s ++ [c]))) in *.
      assert (Hb : forall d, In d best -> frozen_at x (ch_cand d)).
      { intros d Hd. apply Hall. apply firstn_In in Hd. apply (Permutation_in _ (ch_sort_perm _)). exact Hd. }
      destruct (sigmas_of_ok best) as (r & Er & Hr).
      { intros d Hd. rewrite (proj1 (Hb d Hd)). discriminate. }
      rewrite Er in *. cbn [fst tb_children tb_parents tb_center tb_pop tb_sigma tb_pending] in *.
      assert (Hlen : length best = ps_mu (ps_add l (tb_pop s))).
      { unfold best. rewrite firstn_length, ch_sort_length, app_length. cbn [length].
        destruct Hp' as (_ & _ & Q3 & _). lia. }
      assert (Hpos : 1 <= ps_mu (ps_add l (tb_pop s))) by (destruct Hp' as (_ & _ & _ & _ & _ & Q6 & _); exact Q6).
      repeat split.
      + cbn [tb_sigma]. apply geometric_zero.
        destruct best as [|d best']; [cbn in Hlen; lia|].
        eapply sigmas_of_in'; [exact Er|left; reflexivity|]. apply (Hb d). left. reflexivity.
      + intros i. cbn [tb_center]. unfold center_of.
        rewrite (rsum_const best _ (x i)).
        * rewrite Hlen. field. apply not_0_INR. lia.
        * intros d Hd. apply (proj2 (Hb d Hd)).
      + apply (H3 c0 H).
      + apply (H3 c0 H).
      + cbn [tb_children] in H. destruct H.
      + cbn [tb_children] in H. destruct H.
    - repeat split; cbn [fst tb_sigma tb_center tb_pending tb_children] in *; try assumption.
      + apply (H3 c0 H).
      + apply (H3 c0 H).
      + apply (Hall c0 H).
      + apply (Hall c0 H).
  Qed.

  Lemma tb_step_frozen x s o : tb_inv s -> frozen x s -> plain_op o -> frozen x (fst (tb_step dimension s o)).
  Proof.
    intros Hinv HF Ho. pose proof HF as (H1 & H2 & H3 & H4).
    destruct o as [g gs|d|i l0 l|d l0 l]; cbn [tb_step]; [| destruct Ho| |destruct Ho].
    - split; [exact H1|]. split; [exact H2|]. split; [|exact H4].
      intros c Hc. cbn [with_pending tb_pending fst] in Hc. apply in_app_or in Hc.
      destruct Hc as [Hc|[<-|[]]]; [apply H3; exact Hc|].
      unfold tb_propose. rewrite H1. split; cbn [cd_sigma cd_data].
      + f_equal. lra.
      + intros i. rewrite H2. lra.
    - destruct (nth_error (tb_pending s) i) as [c|] eqn:E; [|exact HF].
      apply tb_tell_frozen.
      + exact Hinv.
      + split; [exact H1|]. split; [exact H2|]. split; [|exact H4].
        intros d Hd. apply H3. eapply in_firstn_skipn. exact Hd.
      + apply H3. eapply nth_error_In. exact E.
  Qed.

  Lemma tb_run_frozen x ops s : tb_inv s -> frozen x s -> (forall o, In o ops -> plain_op o) ->
    frozen x (tb_run dimension s ops).
  Proof.
    revert s. induction ops as [|o ops IH]; intros s Hi HF Ho; [exact HF|].
    unfold tb_run. cbn [fold_left]. apply IH.
    - apply tb_step_inv. exact Hi.
    - apply tb_step_frozen; [exact Hi|exact HF|]. apply Ho. left. reflexivity.
    - intros o' H. apply Ho. right. exact H.
  Qed.
End TB.

(** ** Covariances *)
Lemma vsum_S n f : vsum (S n) f = (vsum n f + f n)%R.
Proof.
  unfold vsum. rewrite seq_S, map_app. cbn [map].
  generalize (map f (seq 0 n)). intros l. induction l as [|x l IH]; [cbn; lra|].
  cbn [app]. rewrite !rsum_cons, IH. lra.
Qed.
Lemma vsum_0 f : vsum 0 f = 0%R. Proof. reflexivity. Qed.
Lemma vsum_ext n f g : (forall i, i < n -> f i = g i) -> vsum n f = vsum n g.
Proof.
  induction n as [|n IH]; intros H; [reflexivity|].
  rewrite !vsum_S, IH, (H n) by (try lia; intros; apply H; lia). reflexivity.
Qed.
Lemma vsum_lin n a b f g : vsum n (fun i => a * f i + b * g i)%R = (a * vsum n f + b * vsum n g)%R.
Proof. induction n as [|n IH]; [rewrite !vsum_0; lra|]. rewrite !vsum_S, IH. lra. Qed.
Lemma vsum_scal n a f : vsum n (fun i => a * f i)%R = (a * vsum n f)%R.
Proof. induction n as [|n IH]; [rewrite !vsum_0; lra|]. rewrite !vsum_S, IH. lra. Qed.
Lemma vsum_plus n f g : vsum n (fun i => f i + g i)%R = (vsum n f + vsum n g)%R.
Proof. induction n as [|n IH]; [rewrite !vsum_0; lra|]. rewrite !vsum_S, IH. lra. Qed.
Lemma vsum_nonneg n f : (forall i, i < n -> (0 <= f i)%R) -> (0 <= vsum n f)%R.
Proof.
  induction n as [|n IH]; intros H; [rewrite vsum_0; lra|].
  rewrite vsum_S. pose proof (H n ltac:(lia)). specialize (IH (fun i Hi => H i ltac:(lia))). lra.
Qed.
Lemma vsum_delta n i f : i < n -> vsum n (fun j => if i =? j then f j else 0)%R = f i.
Proof.
  induction n as [|n IH]; intros H; [lia|]. rewrite vsum_S.
  destruct (Nat.eq_dec i n) as [->|Hne].
  - rewrite Nat.eqb_refl.
    assert (E : vsum n (fun j => if n =? j then f j else 0%R) = vsum n (fun j => 0 * f j)%R).
    { apply vsum_ext. intros j Hj. destruct (n =? j) eqn:En; [apply Nat.eqb_eq in En; lia|lra]. }
    rewrite E, vsum_scal. lra.
  - rewrite IH by lia. destruct (i =? n) eqn:En; [apply Nat.eqb_eq in En; lia|lra].
Qed.

Definition qf (n : nat) (m : mat) (v : vec) : R := vsum n (fun i => vsum n (fun j => v i * m i j * v j))%R.

Lemma qf_lin n a b m p v : qf n (fun i j => m i j * a + b * p i j)%R v = (a * qf n m v + b * qf n p v)%R.
Proof.
  unfold qf. rewrite <- vsum_lin. apply vsum_ext. intros i _. rewrite <- vsum_lin.
  apply vsum_ext. intros j _. lra.
Qed.
Lemma qf_rank_one n y v : qf n (fun i j => y i * y j)%R v = (vsum n (fun i => v i * y i) * vsum n (fun i => v i * y i))%R.
Proof.
  unfold qf. rewrite <- vsum_scal. apply vsum_ext. intros i _.
  rewrite (Rmult_comm (vsum n _)), <- vsum_scal. apply vsum_ext. intros j _. lra.
Qed.

Lemma scatter_symmetric c l : symmetric (scatter c l).
Proof. intros i j. unfold scatter. induction l as [|x l IH]; [reflexivity|].
  cbn [map]. rewrite !rsum_cons, IH. lra. Qed.

Lemma scatter_psd n c l : psd n (scatter c l).
Proof.
  intros v. change (0 <= qf n (scatter c l) v)%R.
  induction l as [|x l IH].
  - assert (E : qf n (scatter c []) v = 0%R).
    { unfold qf. transitivity (vsum n (fun i => 0 * 0)%R); [|rewrite vsum_scal; lra].
      apply vsum_ext. intros i _. transitivity (vsum n (fun j => 0 * 0)%R); [|rewrite vsum_scal; lra].
      apply vsum_ext. intros j _. cbn. lra. }
    rewrite E. lra.
  - assert (E : qf n (scatter c (x :: l)) v =
                (1 * qf n (fun i j => (x i - c i) * (x j - c j))%R v + 1 * qf n (scatter c l) v)%R).
    { rewrite <- qf_lin. unfold qf. apply vsum_ext. intros i _. apply vsum_ext. intros j _.
      unfold scatter. cbn [map]. rewrite rsum_cons. lra. }
    rewrite E, (qf_rank_one n (fun i => x i - c i)%R).
    pose proof (Rle_0_sqr (vsum n (fun i => v i * (x i - c i))%R)) as Hs. unfold Rsqr in Hs. lra.
Qed.

Lemma identity_psd n : psd n (fun i j => if i =? j then 1%R else 0%R).
Proof.
  intros v. apply Rle_trans with (vsum n (fun i => v i * v i)%R).
  - apply vsum_nonneg. intros i _. apply (Rle_0_sqr (v i)).
  - right. apply vsum_ext. intros i Hi.
    rewrite <- (vsum_delta n i (fun j => v i * v j)%R Hi) at 1.
    apply vsum_ext. intros j _. destruct (i =? j); lra.
Qed.
Lemma identity_symmetric : symmetric (fun i j => if i =? j then 1%R else 0%R).
Proof. intros i j. rewrite Nat.eqb_sym. reflexivity. Qed.

Lemma ed_tell_cov adaptation memory n c l s :
  symmetric (ed_cov s) /\ psd n (ed_cov s) ->
  symmetric (ed_cov (fst (ed_tell adaptation memory c l s))) /\ psd n (ed_cov (fst (ed_tell adaptation memory c l s))).
Proof.
  intros [Hs Hp]. unfold ed_tell.
  set (pop := if adaptation then _ else _). destruct (ps_lambda pop <=? _); [|split; assumption].
  set (best := firstn _ _). set (m := if memory then 0.9%R else 0%R).
  assert (Hm : (0 <= m <= 1)%R) by (unfold m; destruct memory; lra).
  set (sc := scatter _ _).
  assert (G : symmetric (fun i j => ed_cov s i j * m + (1 - m) * sc i j)%R /\
              psd n (fun i j => ed_cov s i j * m + (1 - m) * sc i j)%R).
  { split.
    - intros i j. rewrite (Hs i j). unfold sc. rewrite (scatter_symmetric _ _ i j). reflexivity.
    - intros v. change (0 <= qf n (fun i j => ed_cov s i j * m + (1 - m) * sc i j)%R v)%R. rewrite qf_lin.
      pose proof (Hp v) as H1. pose proof (scatter_psd n (ed_center s) (map (fun c => cd_data (ch_cand c)) best) v) as H2.
      fold (qf n (ed_cov s) v) in H1. fold sc in H2. fold (qf n sc v) in H2.
      apply Rplus_le_le_0_compat; apply Rmult_le_pos; try assumption; lra. }
  destruct (sigmas_of best); exact G.
Qed.

(** ** EDA: the generations *)
Definition ed_inv mu0 dimension w (s : eda) : Prop :=
  ps_inv mu0 dimension w (ed_pop s) /\ length (ed_children s) < ps_lambda (ed_pop s) /\
  forall c, In c (ed_children s) -> cd_sigma (ch_cand c) <> None.

Lemma ed_tell_generation adaptation memory mu0 dimension w c l s : 1 <= mu0 -> 1 <= dimension ->
  ed_inv mu0 dimension w s -> cd_sigma (ch_cand c) <> None ->
  let s' := fst (ed_tell adaptation memory c l s) in
  snd (ed_tell adaptation memory c l s) = Ok tt /\ ed_inv mu0 dimension w s' /\
  (ed_children s' = ed_children s ++ [c] /\ ed_center s' = ed_center s /\ ed_cov s' = ed_cov s /\
   ed_parents s' = ed_parents s \/
   ed_children s' = [] /\
   exists best, ed_parents s' = map Some best /\
     mu_best (ps_mu (ed_pop s')) (ed_children s ++ [c]) best /\ is_mean best (ed_center s')).
Proof.
  intros Hm0 Hd (Hp & Hch & Hsig) Hc. cbn zeta.
  assert (Hall : forall d, In d (ed_children s ++ [c]) -> cd_sigma (ch_cand d) <> None).
  { intros d Hin. apply in_app_or in Hin. destruct Hin as [Hin|[<-|[]]]; [apply Hsig; exact Hin|exact Hc]. }
  unfold ed_tell. set (pop := if adaptation then ps_add l (ed_pop s) else ed_pop s).
  assert (Hp' : ps_inv mu0 dimension w pop).
  { unfold pop. destruct adaptation; [apply ps_add_inv; assumption|exact Hp]. }
  pose proof Hp' as (_ & _ & Q3 & _ & _ & Q6 & _).
  destruct (ps_lambda pop <=? length (ed_children s ++ [c])) eqn:E.
  - apply Nat.leb_le in E.
    destruct (sigmas_of_ok (firstn (ps_mu pop) (ch_sort (ed_children s ++ [c])))) as (r & -> & _).
    { intros d Hin. apply Hall. apply firstn_In in Hin. apply (Permutation_in _ (ch_sort_perm _)). exact Hin. }
    assert (Hb : mu_best (ps_mu pop) (ed_children s ++ [c]) (firstn (ps_mu pop) (ch_sort (ed_children s ++ [c]))))
      by (apply firstn_mu_best; lia).
    split; [reflexivity|]. split.
    + split; [exact Hp'|]. cbn [fst ed_children ed_pop length]. split; [lia|]. intros d [].
    + right. split; [reflexivity|]. eexists. split; [reflexivity|]. split; [exact Hb|].
      apply center_is_mean; [exact (proj1 Hb)|exact Q6].
  - apply Nat.leb_gt in E. split; [reflexivity|]. split.
    + split; [exact Hp'|]. split; [exact E|exact Hall].
    + left. repeat split.
Qed.

(** a best child without "sigma" *)
Lemma ch_insert_keeps_head c d l : (ch_loss c <= ch_loss d)%Q -> ch_sort (c :: l) = c :: l ->
  exists m, ch_sort (c :: l ++ [d]) = c :: m.
Proof.
  intros H E.
  exists (ch_sort (l ++ [d])). apply ch_sort_head. intros x Hx. apply in_app_or in Hx.
  destruct Hx as [Hx|[<-|[]]]; [|exact H].
  pose proof (ch_sort_sorted (c :: l)) as Hs. rewrite E in Hs. apply (proj1 Hs). exact Hx.
Qed.

(** Lemmas about the wrapper of Ax. *)
From Coq Require Import Bool Arith List Reals Lra Lia.
From Verif Require Import Model.Prelude Model.AxPlatform Spec.AxPlatform.
Import ListNotations.
Open Scope nat_scope.
Open Scope list_scope.

Section Ax.
Context {L : Type}.
Record inv (s : axp L) : Prop := Inv {
  i_trials : x_trials s = [];
  i_made : ax_made (x_client s) = x_num_ask s;
  i_len : List.length (x_cands s) = x_num_ask s;
  i_cands : forall c, c < x_num_ask s -> nth_error (x_cands s) c = Some (Some (c, c));
  i_done : forall c, In c (map fst (ax_done (x_client s))) -> c < x_num_ask s;
  i_asked : forall c, In c (x_asked s) -> c < x_num_ask s /\ ~ In c (map fst (ax_done (x_client s))) }.
Lemma inv_new : inv new_axp.
Proof. constructor; cbn; try easy. Qed.
Lemma existsb_in c l : existsb (Nat.eqb c) l = true <-> In c l.
Proof.
  rewrite existsb_exists. split.
  - intros (x & I & E). apply Nat.eqb_eq in E. now subst.
  - intros I. exists c. split; [easy|apply Nat.eqb_refl].
Qed.
Lemma inv_tell (s : axp L) c l : inv s -> In c (x_asked s) ->
  tell s c l = (Axp (x_num_ask s) (x_trials s) (Client (ax_made (x_client s)) (ax_done (x_client s) ++ [(c, l)])) (x_cands s)
                 (filter (fun v => negb (Nat.eqb c v)) (x_asked s)), Ok tt).
Proof.
  intros I A. unfold tell. rewrite (proj2 (existsb_in c _) A). destruct (i_asked s I c A) as [B D].
  rewrite (i_cands s I c B). unfold complete. rewrite (i_made s I). apply Nat.ltb_lt in B. rewrite B. cbn [negb].
  destruct (existsb _ _) eqn:E; [|easy]. apply existsb_in in E. contradiction.
Qed.
Lemma inv_step (s : axp L) e : inv s -> simple e -> inv (step s e).
Proof.
  intros I S. destruct e as [f m| |c l]; cbn in S; [subst m| easy |].
  - cbn [step]. unfold ask. cbn [ask_loop]. unfold internal_ask. rewrite (i_trials s I). destruct f.
    + cbn [x_trials x_num_ask x_client x_cands x_asked fst]. constructor; cbn [x_trials x_num_ask x_client x_cands x_asked ax_made ax_done].
      * easy.
      * rewrite (i_made s I). lia.
      * rewrite app_length, (i_len s I). cbn. lia.
      * intros c H. destruct (Nat.eq_dec c (x_num_ask s)) as [->|N].
        -- rewrite nth_error_app2 by (rewrite (i_len s I); lia). rewrite (i_len s I), Nat.sub_diag. cbn. now rewrite (i_made s I).
        -- rewrite nth_error_app1 by (rewrite (i_len s I); lia). apply (i_cands s I). lia.
      * intros c D. apply (i_done s I) in D. lia.
      * intros c A. apply in_app_or in A as [A|[<-|[]]].
        -- destruct (i_asked s I c A). split; [lia|easy].
        -- rewrite (i_len s I). split; [lia|]. intros D.
           apply (i_done s I) in D. lia.
    + rewrite (i_trials s I). cbn. exact I.
  - cbn [step]. destruct (in_dec Nat.eq_dec c (x_asked s)) as [A|A].
    + rewrite (inv_tell s c l I A). destruct (i_asked s I c A) as [B D].
      constructor; cbn [fst x_trials x_num_ask x_client x_cands x_asked ax_made ax_done]; try apply I.
      1:{ intros c' D'. rewrite map_app, in_app_iff in D'. cbn in D'. destruct D' as [D'|[<-|[]]]; [now apply (i_done s I)|easy]. }
      intros c' A'. apply filter_In in A' as [A' N]. destruct (i_asked s I c' A') as [B' D']. split; [easy|].
      rewrite map_app, in_app_iff. cbn. destruct (Nat.eqb_spec c c'); [easy|]. intros [X|[X|[]]]; [auto|congruence].
    + unfold tell. destruct (existsb (Nat.eqb c) (x_asked s)) eqn:E; [apply existsb_in in E; contradiction|]. easy.
Qed.
Lemma inv_run (evs : list (event L)) : Forall simple evs -> inv (run evs).
Proof.
  unfold run. assert (G : forall s, inv s -> Forall simple evs -> inv (fold_left step evs s)); [|intros F; now apply G, F; apply inv_new].
  induction evs as [|e evs IH]; intros s I F; [easy|]. apply Forall_cons_iff in F as [F1 F2]. cbn. apply IH; [now apply inv_step|easy].
Qed.
End Ax.

Open Scope R_scope.
Lemma eps_bounds : 0 < ax_eps < 1 / 2.
Proof. unfold ax_eps. split; [apply Rinv_0_lt_compat; lra|]. apply Rmult_lt_reg_r with (10 ^ 15); [lra|]. rewrite Rinv_l by lra. lra. Qed.
Lemma clip_bounds x : ax_eps <= clip x <= 1 - ax_eps.
Proof.
  pose proof eps_bounds. unfold clip. split; [|apply Rmin_r]. apply Rmin_glb; [apply Rmax_r|lra].
Qed.
Lemma clip_mono x y : x <= y -> clip x <= clip y.
Proof.
  intros H. unfold clip, Rmin, Rmax. pose proof eps_bounds.
  destruct (Rle_dec x ax_eps), (Rle_dec y ax_eps);
  repeat match goal with |- context [Rle_dec ?a ?b] => destruct (Rle_dec a b) end; lra.
Qed.
Lemma clip_id x : ax_eps <= x <= 1 - ax_eps -> clip x = x.
Proof. intros H. unfold clip. rewrite Rmax_left by lra. now rewrite Rmin_left by lra. Qed.
Lemma sigmoid_invsig x : sigmoid (invsig x) = clip x.
Proof.
  pose proof eps_bounds as E. pose proof (clip_bounds x) as B. unfold sigmoid, invsig. rewrite exp_Ropp, exp_ln.
  - field. lra.
  - apply Rdiv_lt_0_compat; lra.
Qed.
Lemma invsig_mono x y : x <= y -> invsig x <= invsig y.
Proof.
  intros H. pose proof eps_bounds as E. pose proof (clip_bounds x) as B. pose proof (clip_bounds y) as C. apply clip_mono in H.
  unfold invsig. assert (D : clip x / (1 - clip x) <= clip y / (1 - clip y)).
  { unfold Rdiv. apply Rmult_le_compat; [lra| |lra|].
    - left. apply Rinv_0_lt_compat. lra.
    - apply Rinv_le_contravar; lra. }
  destruct (Rle_lt_or_eq_dec _ _ D) as [D'|D']; [|rewrite D'; lra]. left. apply ln_increasing; [apply Rdiv_lt_0_compat; lra|easy].
Qed.


(** Lemmas on the training of modules. *)
From Coq Require Import Arith QArith Lqa Lia Bool List.
From Verif.Model Require Import Prelude MultiValue Torch.
From Verif.Spec Require Import Torch.
From Verif.Proofs Require Import MultiValue.
Import ListNotations.
Open Scope nat_scope.

Section P.
Context {S : Type} (ask : S -> S * weights) (tell : S -> weights -> Q -> S) (f32 : Q -> Q) (bound : Q).
Hypothesis Pos : (- bound < bound)%Q.
Notation init := (torch_init ask bound).
Notation step := (torch_step ask tell f32 bound).
Notation train := (train ask tell f32 bound).
Notation holding := (holding f32 bound).

Lemma clip_eq x : clip bound x = if qlt x (- bound) then (- bound)%Q else if qlt bound x then bound else x.
Proof.
  unfold clip, qmax, qmin. destruct (qlt x (- bound)) eqn:E; [|reflexivity]. assert (F : qlt bound (- bound) = false) by (apply qlt_false; lra). now rewrite F.
Qed.
Lemma set_value m : forall c, same_shape m c -> set_candidate f32 m (value bound c) = holding c.
Proof.
  intros c H. induction H as [|x y m c Hl H IH]; [reflexivity|].
  change (set_candidate f32 (x :: m) (value bound (y :: c))) with (map f32 (map (clip bound) y) :: set_candidate f32 m (value bound c)). rewrite IH.
  unfold Spec.Torch.holding. cbn [map]. f_equal. rewrite map_map. apply map_ext. intros z. now rewrite clip_eq.
Qed.
Lemma shape_refl m : same_shape m m.
Proof. unfold same_shape. induction m; constructor; auto. Qed.
Lemma shape_sym a b : same_shape a b -> same_shape b a.
Proof. unfold same_shape. intros H. induction H; constructor; auto. Qed.
Lemma shape_trans a b c : same_shape a b -> same_shape b c -> same_shape a c.
Proof.
  unfold same_shape. intros H. revert c. induction H as [|x y a b H1 H IH]; intros c K; inversion K; subst; constructor; [congruence|auto].
Qed.
Lemma holding_shape c : same_shape c (holding c).
Proof. unfold same_shape, Spec.Torch.holding. induction c; constructor; [now rewrite map_length|exact IHc]. Qed.

(** the candidates asked during a training, after the first one *)
Fixpoint asked (batches : list (weights -> Q)) (t : torch S) : list weights :=
  match batches with
  | [] => []
  | b :: bs => let t' := step (b (t_module t)) t in t_candidate t' :: asked bs t'
  end.
Lemma asked_length bs : forall t, length (asked bs t) = length bs.
Proof. induction bs; intros t; cbn; auto. Qed.

Lemma step_candidate loss t : t_candidate (step loss t) = snd (ask (tell (t_optimizer t) (t_candidate t) loss)).
Proof. unfold torch_step. destruct (ask _). reflexivity. Qed.
Lemma step_module loss t shape : asks_shape ask shape -> same_shape shape (t_module t) ->
  t_module (step loss t) = holding (t_candidate (step loss t)) /\ same_shape shape (t_module (step loss t)).
Proof.
  intros A H. pose proof (A (tell (t_optimizer t) (t_candidate t) loss)) as K. rewrite step_candidate. unfold torch_step.
  destruct (ask (tell (t_optimizer t) (t_candidate t) loss)) as [s c]. cbn [t_module snd] in *.
  assert (M : same_shape (t_module t) c) by (eapply shape_trans; [apply shape_sym; exact H|exact K]).
  rewrite (set_value _ _ M). split; [reflexivity|]. eapply shape_trans; [exact K|apply holding_shape].
Qed.
Lemma train_step b bs t : train (b :: bs) t = (fst (train bs (step (b (t_module t)) t)), (t_candidate t, b (t_module t)) :: snd (train bs (step (b (t_module t)) t))).
Proof. cbn. destruct (train bs _). reflexivity. Qed.
Lemma train_candidates bs : forall t, map fst (snd (train bs t)) = firstn (length bs) (t_candidate t :: asked bs t).
Proof.
  induction bs as [|b bs IH]; intros t; [reflexivity|]. rewrite train_step. cbn [snd map fst length firstn asked]. f_equal.
  rewrite IH. destruct bs; reflexivity.
Qed.
Lemma train_losses bs shape : asks_shape ask shape -> forall t, same_shape shape (t_module t) ->
  forall k b c l, nth_error bs k = Some b -> nth_error (snd (train bs t)) k = Some (c, l) ->
  l = b (match k with O => t_module t | _ => holding c end).
Proof.
  intros A. induction bs as [|b0 bs IH]; intros t H k b c l Hb Hk; [destruct k; discriminate Hb|]. rewrite train_step in Hk.
  destruct (step_module (b0 (t_module t)) t shape A H) as [M1 M2].
  destruct k as [|k]; cbn in Hb, Hk; [congruence|]. specialize (IH _ M2 k b c l Hb Hk). destruct k as [|k]; [|exact IH].
  rewrite M1 in IH. rewrite IH. f_equal. f_equal. destruct bs as [|b1 bs]; [discriminate Hb|]. rewrite train_step in Hk. cbn in Hk. congruence.
Qed.
Lemma train_module bs shape : asks_shape ask shape -> forall t, same_shape shape (t_module t) ->
  t_module (fst (train bs t)) = (match bs with [] => t_module t | _ => holding (last (asked bs t) []) end) /\ same_shape shape (t_module (fst (train bs t))).
Proof.
  intros A. induction bs as [|b bs IH]; intros t H; [split; [reflexivity|exact H]|]. rewrite train_step. cbn [fst asked].
  destruct (step_module (b (t_module t)) t shape A H) as [M1 M2]. destruct (IH _ M2) as [I1 I2]. split; [|exact I2]. rewrite I1.
  destruct bs as [|b1 bs]; [cbn [asked last]; exact M1|]. cbn [asked]. reflexivity.
Qed.
Lemma holding_within c : rounding f32 -> (f32 bound == bound)%Q -> (f32 (- bound) == - bound)%Q -> within bound (holding c).
Proof.
  intros [Mono _] B1 B2. unfold within, Spec.Torch.holding. apply Forall_forall. intros l Hl. apply in_map_iff in Hl as [x [<- _]].
  apply Forall_forall. intros y Hy. apply in_map_iff in Hy as [z [<- _]].
  assert (R0 : (- bound <= (if qlt z (- bound) then - bound else if qlt bound z then bound else z) <= bound)%Q).
  { destruct (qlt z (- bound)) eqn:E1; [lra|]. apply qlt_false in E1. destruct (qlt bound z) eqn:E2; [lra|]. apply qlt_false in E2. lra. }
  destruct R0 as [R1 R2]. apply Mono in R1. apply Mono in R2. rewrite B2 in R1. rewrite B1 in R2. split; assumption.
Qed.
Lemma init_spec ps s t : init ps s = Ok t -> t_module t = ps /\ t_candidate t = snd (ask s) /\ within bound ps.
Proof.
  unfold torch_init. destruct (qle bound (- bound)); [discriminate|]. destruct (forallb (forallb (inside bound)) ps) eqn:E; [|discriminate].
  destruct (ask s) as [s' c]. intros H. injection H as <-. split; [reflexivity|]. split; [reflexivity|].
  unfold within. rewrite forallb_forall in E. apply Forall_forall. intros l Hl. specialize (E l Hl). rewrite forallb_forall in E. apply Forall_forall. intros x Hx.
  specialize (E x Hx). unfold inside in E. apply andb_prop in E as [E1 E2]. apply qle_iff in E1. apply qle_iff in E2. auto.
Qed.
End P.
Lemma init_pos {S} (ask : S -> S * weights) bound ps s t : torch_init ask bound ps s = Ok t -> (- bound < bound)%Q.
Proof. unfold torch_init. destruct (qle bound (- bound)) eqn:E; [discriminate|]. intros _. apply qle_false in E. exact E. Qed.
Lemma init_ok {S} (ask : S -> S * weights) bound ps s : (- bound < bound)%Q -> within bound ps -> exists t, torch_init ask bound ps s = Ok t.
Proof.
  intros P W. unfold torch_init. assert (E : qle bound (- bound) = false) by (apply qle_false; exact P). rewrite E.
  assert (F : forallb (forallb (inside bound)) ps = true).
  { apply forallb_forall. intros l Hl. unfold within in W. rewrite Forall_forall in W. specialize (W l Hl). rewrite Forall_forall in W. apply forallb_forall. intros x Hx.
    specialize (W x Hx). unfold inside. apply andb_true_intro. split; apply qle_iff; lra. }
  rewrite F. destruct (ask s). eauto.
Qed.
Definition q_dec (a b : Q) : {a = b} + {a <> b}.
Proof. decide equality; [apply Pos.eq_dec|apply Z.eq_dec]. Defined.
Definition weights_dec (a b : weights) : {a = b} + {a <> b} := list_eq_dec (list_eq_dec q_dec) a b.

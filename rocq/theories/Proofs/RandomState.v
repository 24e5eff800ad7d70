(** Lemmas about random states. *)
From Coq Require Import List ZArith Arith Lia.
From Verif.Model Require Import Prelude RandomState.
From Verif.Spec Require Import RandomState.
Import ListNotations.
Open Scope nat_scope.

Fixpoint tree_induction (P : tree -> Prop) (H : forall k st d kids, Forall (fun p => P (snd p)) kids -> P (Tree k st d kids)) (t : tree) : P t :=
  match t with
  | Tree k st d kids => H k st d kids ((fix go kids := match kids return Forall (fun p => P (snd p)) kids with
                                                      | [] => Forall_nil _
                                                      | p :: kids' => Forall_cons _ (tree_induction P H (snd p)) (go kids')
                                                      end) kids)
  end.
Lemma every_inv P k st d kids : every P (Tree k st d kids) -> P st /\ Forall (fun p => every P (snd p)) kids.
Proof. intros H. now inversion H. Qed.
Lemma every_impl (P Q : option nat -> Prop) t : (forall s, P s -> Q s) -> every P t -> every Q t.
Proof.
  intros H. induction t as [k st d kids IH] using tree_induction. intros K. apply every_inv in K. destruct K as (K1 & K2). constructor; [auto|].
  rewrite Forall_forall in *. intros p Hp. apply IH; auto.
Qed.
Lemma every_set (P : option nat -> Prop) s t : P s -> every P (set_state s t).
Proof.
  intros H. induction t as [k st d kids IH] using tree_induction. cbn. constructor; [exact H|]. apply Forall_map. cbn. exact IH.
Qed.

Lemma Forall_firstn {A} (P : A -> Prop) n l : Forall P l -> Forall P (firstn n l).
Proof. intros H. revert n. induction H; intros [|n]; cbn; auto. Qed.
Lemma Forall_skipn {A} (P : A -> Prop) n l : Forall P l -> Forall P (skipn n l).
Proof. intros H. revert n. induction H; intros [|n]; cbn; auto. Qed.
Section Proofs.
Variable stream : Z -> nat -> Z.
Variable sig : list (nat * tree) -> Z.
Notation draws := (draws stream).
Notation move := (move stream sig).
Notation shift := (shift sig).
Notation mutate := (mutate stream).
Notation sample_in := (sample_in stream).
Notation step := (step stream).
Notation run := (run stream).

(** * A property [P] of all states, and a relation between the worlds before and after *)
Variable P : option nat -> Prop.
Variable W : world -> world -> Prop.
Hypothesis P_some : forall s, P s -> s <> None.
Hypothesis W_refl : forall w, W w w.
Hypothesis W_trans : forall w1 w2 w3, W w1 w2 -> W w2 w3 -> W w1 w3.
Hypothesis W_draws : forall n h w, P (Some h) -> W w (snd (draws n h w)).

Lemma read_settled glob t w : every P t -> exists h, state_of t = Some h /\ P (Some h) /\ read_state glob t w = (t, h, w).
Proof using P_some.
  destruct t as [k st d kids]. intros H. apply every_inv in H. destruct H as (H & _). destruct st as [h|]; [|now apply P_some in H]. exists h. auto.
Qed.
Lemma through_same f kids w : Forall (fun p => forall w, f (snd p) w = (snd p, w)) kids -> through f kids w = (kids, w).
Proof. intros H. revert w. induction H as [|[k t] kids Ht H IH]; intros w; [reflexivity|]. cbn in *. rewrite Ht. fold (through f). now rewrite IH. Qed.
Lemma check_settled glob t : every P t -> forall w, check glob t w = (t, w).
Proof using P_some.
  induction t as [k st d kids IH] using tree_induction. intros H w. apply every_inv in H. destruct H as (H & Hk). destruct st as [h|]; [|now apply P_some in H]. cbn [check].
  rewrite through_same; [reflexivity|]. rewrite Forall_forall in *. intros p Hp. now apply IH, Hk.
Qed.
Lemma shift_every zs t : every P t -> every P (shift zs t).
Proof.
  revert zs. induction t as [k st d kids IH] using tree_induction. intros zs H. pose proof H as H0. apply every_inv in H. destruct H as (H & Hk). destruct k; cbn; [exact H0|constructor; auto|].
  constructor; [exact H|]. revert zs. induction IH as [|[k t] kids Ht IH' IHk]; intros zs; [constructor|]. inversion Hk; subst. constructor; [now apply Ht|]. apply IHk; [assumption|now constructor].
Qed.
Lemma through_every f kids w : Forall (fun p => every P (snd p)) kids -> Forall (fun p => forall w, every P (snd p) -> every P (fst (f (snd p) w)) /\ W w (snd (f (snd p) w))) kids ->
  Forall (fun p => every P (snd p)) (fst (through f kids w)) /\ W w (snd (through f kids w)).
Proof using W_refl W_trans.
  intros H K. revert w H. induction K as [|[k t] kids Kt K IH]; intros w H; [split; [constructor|apply W_refl]|]. inversion H as [|? ? Ht Hk]; subst. cbn in *. fold (through f).
  destruct (Kt w Ht) as (A & B). destruct (f t w) as [t1 w1]. specialize (IH w1 Hk). destruct (through f kids w1) as [ks w2]. cbn in *. destruct IH as (C & D). split; [now constructor|eauto].
Qed.
Lemma move_every t : forall w, every P t -> every P (fst (move t w)) /\ W w (snd (move t w)).
Proof using P_some W_refl W_trans W_draws.
  induction t as [k st d kids IH] using tree_induction. intros w H. pose proof H as H0. apply every_inv in H. destruct H as (H & Hk). destruct st as [h|]; [|now apply P_some in H].
  pose proof (through_every move kids w Hk IH) as (A & B).
  assert (K : k <> Const -> every P (fst (let (ks, w1) := through move kids w in let t1 := Tree k (Some h) d ks in let (zs, w2) := draws (dim t1) h w1 in (shift zs t1, w2))) /\
     W w (snd (let (ks, w1) := through move kids w in let t1 := Tree k (Some h) d ks in let (zs, w2) := draws (dim t1) h w1 in (shift zs t1, w2)))).
  { intros _. destruct (through move kids w) as [ks w1]. cbn in A, B. cbv zeta. pose proof (W_draws (dim (Tree k (Some h) d ks)) h w1 H) as C.
    destruct (draws _ h w1) as [zs w2]. cbn [fst snd] in *. split; [apply shift_every; now constructor|eauto]. }
  destruct k; cbn [RandomState.move]; [cbn; split; [exact H0|apply W_refl]|apply K; discriminate|apply K; discriminate].
Qed.
Lemma mutate_settled glob t w : every P t -> mutate glob sig t w = move t w.
Proof using P_some.
  intros H. unfold RandomState.mutate. destruct t as [[] st d kids].
  - now destruct st.
  - rewrite (check_settled glob _ H). reflexivity.
  - rewrite (check_settled glob _ H). reflexivity.
Qed.
(** sampling, without the global generator *)
Lemma sample_settled glob1 glob2 t : every P t -> forall w,
  sample_in glob1 sig None t w = sample_in glob2 sig None t w /\
  every P (fst (fst (sample_in glob1 sig None t w))) /\ every P (snd (fst (sample_in glob1 sig None t w))) /\ W w (snd (sample_in glob1 sig None t w)).
Proof using P_some W_refl W_trans W_draws.
  induction t as [k st d kids IH] using tree_induction. intros H w. pose proof H as H0. apply every_inv in H. destruct H as (H & Hk). destruct st as [h|]; [|now apply P_some in H].
  destruct k; cbn [RandomState.sample_in].
  - cbn. repeat split; auto.
  - rewrite !mutate_settled by exact H0. pose proof (move_every _ w H0) as (A & B). destruct (move _ w) as [c w2]. cbn in *. repeat split; auto.
  - set (go1 := fix go kids w := match kids with [] => ([], [], w) | (key, t) :: kids' => let '(p, c, w1) := sample_in glob1 sig None t w in let '(ps, cs, w2) := go kids' w1 in ((key, p) :: ps, (key, c) :: cs, w2) end).
    set (go2 := fix go kids w := match kids with [] => ([], [], w) | (key, t) :: kids' => let '(p, c, w1) := sample_in glob2 sig None t w in let '(ps, cs, w2) := go kids' w1 in ((key, p) :: ps, (key, c) :: cs, w2) end).
    assert (K : forall w, go1 kids w = go2 kids w /\ Forall (fun p => every P (snd p)) (fst (fst (go1 kids w))) /\ Forall (fun p => every P (snd p)) (snd (fst (go1 kids w))) /\ W w (snd (go1 kids w))).
    { clear H0. induction IH as [|[key t] kids It IH' IHk]; intros w0; [cbn; repeat split; auto|]. inversion Hk as [|? ? Ht Hk']; subst. specialize (IHk Hk'). cbn in It. destruct (It Ht w0) as (A & B & C & D).
      cbn. rewrite <- A. destruct (sample_in glob1 sig None t w0) as [[p c] w1]. cbn in *. destruct (IHk w1) as (A' & B' & C' & D'). rewrite <- A'.
      destruct (go1 kids w1) as [[ps cs] w2]. cbn in *. repeat split; try constructor; auto. eauto. }
    destruct (K w) as (A & B & C & D). rewrite <- A. destruct (go1 kids w) as [[ps cs] w2]. cbn in *. repeat split; try constructor; auto.
Qed.
(** at a path *)
Lemma on_kid_agree {A} f1 f2 key kids : Forall (fun p => every P (snd p)) kids -> (forall t, every P t -> f1 t = f2 t) -> @on_kid A f1 key kids = on_kid f2 key kids.
Proof. intros H K. induction H as [|[k t] kids Ht H IH]; [reflexivity|]. cbn in *. rewrite (K t Ht), IH. reflexivity. Qed.
Lemma on_path_agree {A} (f1 f2 : tree -> world -> result (A * tree * world)) path w : (forall t, every P t -> f1 t w = f2 t w) -> forall t, every P t -> on_path f1 path t w = on_path f2 path t w.
Proof.
  intros K. induction path as [|key path IH]; intros t H; cbn; [auto|]. destruct t as [k st d kids]. apply every_inv in H. destruct H as (H & Hk).
  now rewrite (on_kid_agree (fun t' => on_path f1 path t' w) (fun t' => on_path f2 path t' w) key kids Hk).
Qed.
Lemma on_path_every {A} (f : tree -> world -> result (A * tree * world)) path w : (forall t a t1 w1, every P t -> f t w = Ok (a, t1, w1) -> every P t1 /\ W w w1) ->
  forall t a t1 w1, every P t -> on_path f path t w = Ok (a, t1, w1) -> every P t1 /\ W w w1.
Proof.
  intros K. induction path as [|key path IH]; intros t a t1 w1 H E; cbn in E; [eauto|]. destruct t as [k st d kids]. apply every_inv in H. destruct H as (H & Hk).
  destruct (on_kid _ key kids) as [[[a' ks] w']|] eqn:E'; [|discriminate]. cbn in E. injection E as -> <- ->.
  assert (L : Forall (fun p => every P (snd p)) ks /\ W w w1).
  { clear H. revert ks E'. induction Hk as [|[key' t'] kids Ht Hk IHk]; intros ks E'; [discriminate|]. cbn in E'. destruct (Nat.eqb key key').
    - destruct (on_path f path t' w) as [[[a2 t2] w2]|] eqn:E2; [|discriminate]. cbn in E'. injection E' as <- <- <-. destruct (IH _ _ _ _ Ht E2). split; [now constructor|assumption].
    - destruct (on_kid _ key kids) as [[[a2 ks2] w2]|]; [|discriminate]. cbn in E'. injection E' as <- <- <-. destruct (IHk _ eq_refl). split; [now constructor|assumption]. }
  destruct L. split; [now constructor|assumption].
Qed.
Lemma put_every key t kids : every P t -> Forall (fun p => every P (snd p)) kids -> Forall (fun p => every P (snd p)) (put key t kids).
Proof. intros H K. induction K as [|[key' t'] kids Kt K IH]; cbn; [now repeat constructor|]. destruct (Nat.eqb key key'); constructor; auto. Qed.

Definition good (s : state) : Prop := Forall (every P) (pop s).
Lemma individual_agree {A} (f1 f2 : tree -> world -> result (A * tree * world)) i s : good s -> (forall t, every P t -> f1 t (gens s) = f2 t (gens s)) ->
  on_individual i f1 s = on_individual i f2 s.
Proof.
  intros H K. unfold on_individual. destruct (nth_error (pop s) i) as [t|] eqn:E; [|reflexivity]. rewrite K; [reflexivity|]. unfold good in H. rewrite Forall_forall in H. apply H. eapply nth_error_In, E.
Qed.
Lemma individual_good {A} (f : tree -> world -> result (A * tree * world)) i s a s' : good s ->
  (forall t a t1 w1, every P t -> f t (gens s) = Ok (a, t1, w1) -> every P t1 /\ W (gens s) w1) -> on_individual i f s = Ok (a, s') -> good s' /\ W (gens s) (gens s').
Proof.
  intros H K E. unfold on_individual in E. destruct (nth_error (pop s) i) as [t|] eqn:Et; [|discriminate]. destruct (f t (gens s)) as [[[a' t1] w1]|] eqn:Ef; [|discriminate]. cbn in E. injection E as <- <-.
  unfold good in *. cbn. assert (Ht : every P t) by (rewrite Forall_forall in H; eapply H, nth_error_In, Et). destruct (K _ _ _ _ Ht Ef) as (A1 & A2). split; [|exact A2].
  apply Forall_app. split; [now apply Forall_firstn|]. constructor; [exact A1|]. now apply (Forall_skipn (every P) (S i) (pop s)).
Qed.
Definition fine (o : op) : Prop :=
  quiet o /\ match o with Seed _ _ _ => (forall z w, W w (snd (new_gen z w))) /\ (forall h, P (Some h)) | _ => True end.
Lemma step_good glob1 glob2 o s : fine o -> good s ->
  step glob1 sig o s = step glob2 sig o s /\ forall s', step glob1 sig o s = Ok s' -> good s' /\ W (gens s) (gens s').
Proof using P_some W_refl W_trans W_draws.
  intros (Hq & Hf) Hs. destruct o as [i path|i path z|i path n|i path|i|i|i|i|i path key sub|i path sub]; cbn [RandomState.step]; try (destruct Hq; fail).
  - (* ReadState *)
    assert (K : forall glob t, every P t -> (let '(t1, _, w1) := read_state glob t (gens s) in @Ok (unit * tree * world) (tt, t1, w1)) = Ok (tt, t, gens s)).
    { intros glob t Ht. destruct (read_settled glob t (gens s) Ht) as (h & _ & _ & ->). reflexivity. }
    split.
    + f_equal. apply individual_agree; [exact Hs|]. apply on_path_agree. intros t Ht. now rewrite !K.
    + intros s' E. destruct (on_individual _ _ _) as [[a s1]|] eqn:Ei; [|discriminate]. injection E as <-. revert Ei. apply individual_good; [exact Hs|]. apply on_path_every.
      intros t a' t1 w1 Ht E. rewrite K in E by exact Ht. injection E as <- <- <-. auto.
  - (* Seed *)
    split; [reflexivity|]. destruct Hf as (F1 & F2). intros s' E. destruct (on_individual _ _ _) as [[a s1]|] eqn:Ei; [|discriminate]. injection E as <-. revert Ei. apply individual_good; [exact Hs|]. apply on_path_every.
    intros t a' t1 w1 Ht E. pose proof (F1 z (gens s)) as F. destruct (new_gen z (gens s)) as [h w']. injection E as <- <- <-. split; [apply every_set, F2|exact F].
  - (* Use *)
    assert (K : forall glob t, every P t -> exists h, P (Some h) /\ (let '(t1, h, w1) := read_state glob t (gens s) in let (zs, w2) := draws n h w1 in Ok (zs, t1, w2)) = Ok (fst (draws n h (gens s)), t, snd (draws n h (gens s))) /\ state_of t = Some h).
    { intros glob t Ht. destruct (read_settled glob t (gens s) Ht) as (h & E1 & Hh & ->). exists h. split; [exact Hh|]. split; [now destruct (draws n h (gens s))|exact E1]. }
    split.
    + f_equal. apply individual_agree; [exact Hs|]. apply on_path_agree. intros t Ht. destruct (K glob1 t Ht) as (h1 & _ & -> & E1). destruct (K glob2 t Ht) as (h2 & _ & -> & E2). rewrite E1 in E2. now injection E2 as <-.
    + intros s' E. destruct (on_individual _ _ _) as [[a s1]|] eqn:Ei; [|discriminate]. injection E as <-. cbn. assert (G : good s1 /\ W (gens s) (gens s1)); [|exact G]. revert Ei. apply individual_good; [exact Hs|]. apply on_path_every.
      intros t a' t1 w1 Ht E. destruct (K glob1 t Ht) as (h & Hh & E' & _). rewrite E' in E. injection E as <- <- <-. auto.
  - (* Mutate *)
    assert (K : forall glob t, every P t -> (let (t1, w1) := mutate glob sig t (gens s) in @Ok (unit * tree * world) (tt, t1, w1)) = Ok (tt, fst (move t (gens s)), snd (move t (gens s)))).
    { intros glob t Ht. rewrite mutate_settled by exact Ht. now destruct (move t (gens s)). }
    split.
    + f_equal. apply individual_agree; [exact Hs|]. apply on_path_agree. intros t Ht. now rewrite !K.
    + intros s' E. destruct (on_individual _ _ _) as [[a s1]|] eqn:Ei; [|discriminate]. injection E as <-. revert Ei. apply individual_good; [exact Hs|]. apply on_path_every.
      intros t a' t1 w1 Ht E. rewrite K in E by exact Ht. injection E as <- <- <-. now apply move_every.
  - (* Spawn *)
    assert (K : forall glob t, every P t -> (let '(t1, c, w1) := spawn glob t (gens s) in Ok (c, t1, w1)) = Ok (t, t, gens s)).
    { intros glob t Ht. unfold spawn. destruct (read_settled glob t (gens s) Ht) as (h & _ & _ & ->). now destruct t as [[] ? ? ?]. }
    split.
    + f_equal. apply individual_agree; [exact Hs|]. intros t Ht. now rewrite !K.
    + intros s' E. destruct (on_individual _ _ _) as [[a s1]|] eqn:Ei; [|discriminate]. injection E as <-. unfold add, good. cbn.
      assert (G : (good s1 /\ every P a) /\ W (gens s) (gens s1)).
      { unfold on_individual in Ei. destruct (nth_error (pop s) i) as [t|] eqn:Et; [|discriminate]. assert (Ht : every P t) by (unfold good in Hs; rewrite Forall_forall in Hs; eapply Hs, nth_error_In, Et).
        rewrite K in Ei by exact Ht. cbn in Ei. injection Ei as <- <-. cbn. split; [|apply W_refl]. split; [|exact Ht]. unfold good. cbn.
        apply Forall_app. split; [now apply Forall_firstn|]. constructor; [exact Ht|]. now apply (Forall_skipn (every P) (S i) (pop s)). }
      destruct G as ((G1 & G2) & G3). split; [apply Forall_app; split; [exact G1|repeat constructor; exact G2]|exact G3].
  - (* Sample *)
    assert (K : forall t, every P t -> (let '(t1, c, w1) := sample stream glob1 sig t (gens s) in Ok (c, t1, w1)) = (let '(t1, c, w1) := sample stream glob2 sig t (gens s) in Ok (c, t1, w1))).
    { intros t Ht. unfold sample. destruct (sample_settled glob1 glob2 t Ht (gens s)) as (-> & _). reflexivity. }
    split.
    + f_equal. apply individual_agree; [exact Hs|exact K].
    + intros s' E. destruct (on_individual _ _ _) as [[a s1]|] eqn:Ei; [|discriminate]. injection E as <-. unfold add, good. cbn.
      assert (G : (good s1 /\ every P a) /\ W (gens s) (gens s1)).
      { unfold on_individual in Ei. destruct (nth_error (pop s) i) as [t|] eqn:Et; [|discriminate]. assert (Ht : every P t) by (unfold good in Hs; rewrite Forall_forall in Hs; eapply Hs, nth_error_In, Et).
        unfold sample in Ei. destruct (sample_settled glob1 glob2 t Ht (gens s)) as (_ & A & B & C). destruct (sample_in glob1 sig None t (gens s)) as [[t1 c] w1]. cbn in *. injection Ei as <- <-. cbn.
        split; [|exact C]. split; [|exact B]. unfold good. cbn. apply Forall_app. split; [now apply Forall_firstn|]. constructor; [exact A|]. now apply (Forall_skipn (every P) (S i) (pop s)). }
      destruct G as ((G1 & G2) & G3). split; [apply Forall_app; split; [exact G1|repeat constructor; exact G2]|exact G3].
  - (* Copy *)
    split; [reflexivity|]. intros s' E. destruct (on_individual _ _ _) as [[a s1]|] eqn:Ei; [|discriminate]. injection E as <-. unfold add, good. cbn.
    assert (G : (good s1 /\ every P a) /\ W (gens s) (gens s1)).
    { unfold on_individual in Ei. destruct (nth_error (pop s) i) as [t|] eqn:Et; [|discriminate]. assert (Ht : every P t) by (unfold good in Hs; rewrite Forall_forall in Hs; eapply Hs, nth_error_In, Et).
      cbn in Ei. injection Ei as <- <-. cbn. split; [|apply W_refl]. split; [|exact Ht]. unfold good. cbn.
      apply Forall_app. split; [now apply Forall_firstn|]. constructor; [exact Ht|]. now apply (Forall_skipn (every P) (S i) (pop s)). }
    destruct G as ((G1 & G2) & G3). split; [apply Forall_app; split; [exact G1|repeat constructor; exact G2]|exact G3].
  - (* SetItem *)
    split; [reflexivity|]. intros s' E. destruct (on_individual _ _ _) as [[a s1]|] eqn:Ei; [|discriminate]. injection E as <-. revert Ei. apply individual_good; [exact Hs|]. apply on_path_every.
    intros t a' t1 w1 Ht E. unfold set_item in E. destruct t as [[] st d kids]; try discriminate. cbn in E. injection E as <- <- <-. apply every_inv in Ht. destruct Ht as (Ht & Hk).
    split; [|apply W_refl]. constructor; [exact Ht|]. apply put_every; [|exact Hk]. destruct st as [h|]; [now apply every_set|now apply P_some in Ht].
Qed.
Lemma run_good glob1 glob2 prog s : Forall fine prog -> good s ->
  run glob1 sig prog s = run glob2 sig prog s /\ forall s', run glob1 sig prog s = Ok s' -> good s' /\ W (gens s) (gens s').
Proof using P_some W_refl W_trans W_draws.
  intros H. revert s. induction H as [|o prog Ho H IH]; intros s Hs; cbn.
  - split; [reflexivity|]. intros s' [= <-]. auto.
  - destruct (step_good glob1 glob2 o s Ho Hs) as (E & K). rewrite <- E. destruct (step glob1 sig o s) as [s1|]; cbn; [|split; [reflexivity|discriminate]].
    destruct (K s1 eq_refl) as (G1 & G2). destruct (IH s1 G1) as (E' & K'). split; [exact E'|]. intros s' Es. destruct (K' s' Es). split; eauto.
Qed.
End Proofs.

(** * Draws *)
Section Draws.
Variable stream : Z -> nat -> Z.
Variable sig : list (nat * tree) -> Z.
Lemma draws_spec n : forall h w, let (zs, w') := draws stream n h w in
  zs = map (stream (seed w h)) (seq (count w h) n) /\ seed w' = seed w /\ fresh w' = fresh w /\ used w' = used w /\
  count w' h = (count w h + n)%nat /\ forall h', h' <> h -> count w' h' = count w h'.
Proof.
  induction n as [|n IH]; intros h w; cbn [draws]; [repeat split; auto|]. unfold draw. set (w1 := {| seed := seed w; count := _; fresh := _; used := _ |}).
  specialize (IH h w1). destruct (draws stream n h w1) as [zs w2]. destruct IH as (E1 & E2 & E3 & E4 & E5 & E6). cbn [seed count fresh used w1] in *. rewrite Nat.eqb_refl in *.
  split; [cbn; now f_equal|]. repeat split; auto; [lia|]. intros h' Hh. rewrite E6 by exact Hh. apply Nat.eqb_neq in Hh. now rewrite Hh.
Qed.
Lemma only_refl h w : only h w w.
Proof. repeat split; auto. Qed.
Lemma only_trans h w1 w2 w3 : only h w1 w2 -> only h w2 w3 -> only h w1 w3.
Proof.
  intros (A1 & A2 & A3 & A4 & A5) (B1 & B2 & B3 & B4 & B5). unfold only. rewrite B1, B2, B3. repeat split; auto; [lia|]. intros h' Hh. rewrite B5 by exact Hh. auto.
Qed.
Lemma only_draws n h w : only h w (snd (draws stream n h w)).
Proof. pose proof (draws_spec n h w) as H. destruct (draws stream n h w) as [zs w']. destruct H as (_ & E2 & E3 & E4 & E5 & E6). cbn. repeat split; auto. lia. Qed.
Lemma same_draws h n h' w : Some h' = Some h -> only h w (snd (draws stream n h' w)).
Proof. intros [= ->]. apply only_draws. Qed.

(** * Mutation, by depth *)
Lemma through_nth f h kids w i key t :
  (forall t w, In t (map snd kids) -> only h w (snd (f t w))) -> nth_error kids i = Some (key, t) ->
  exists wa, only h w wa /\ nth_error (fst (through f kids w)) i = Some (key, fst (f t wa)) /\ only h (snd (f t wa)) (snd (through f kids w)).
Proof.
  revert w i. induction kids as [|[k t0] kids IH]; intros w i Hf E; [destruct i; discriminate|]. cbn in *.
  pose proof (Hf t0 w (or_introl eq_refl)) as H0. destruct (f t0 w) as [t1 w1] eqn:E0. cbn in H0.
  assert (Hthrough : forall w, only h w (snd (through f kids w))).
  { clear - Hf. induction kids as [|[k1 t1] kids IH]; intros w; [apply only_refl|]. cbn. pose proof (Hf t1 w (or_intror (or_introl eq_refl))) as H1. destruct (f t1 w) as [t2 w2]. cbn in H1.
    assert (K : only h w2 (snd (through f kids w2))) by (apply IH; intros t w' [Ht|Ht]; apply Hf; cbn; auto). fold (through f). destruct (through f kids w2) as [ks w3]. cbn in *. eapply only_trans; eassumption. }
  fold (through f). destruct i as [|i]; cbn in E.
  - injection E as -> ->. exists w. split; [apply only_refl|]. rewrite E0. specialize (Hthrough w1). destruct (through f kids w1) as [ks w2]. cbn in *. auto.
  - destruct (IH w1 i) as (wa & A & B & C); [intros; apply Hf; now right|exact E|]. destruct (through f kids w1) as [ks w2]. cbn in *. exists wa. split; [eapply only_trans; eassumption|auto].
Qed.
Lemma move_only h t w : all_same h t -> only h w (snd (move stream sig t w)).
Proof.
  intros H. apply (move_every stream sig (fun s => s = Some h) (only h)); auto; [intros s -> ?; discriminate|apply only_refl|apply only_trans|]. intros n h' w' E. now apply same_draws.
Qed.
Lemma move_inert t : inert t -> forall w, dim t = 0%nat /\ move stream sig t w = (t, w) /\ shift sig [] t = t.
Proof.
  induction t as [k st d kids IH] using tree_induction. intros H w. inversion H as [|? ? ? Hk]; subst; [split; [reflexivity|]; split; [now destruct st|reflexivity]|].
  assert (Hd : dim (Tree Container st d kids) = 0%nat).
  { cbn. clear H. induction Hk as [|[key t] kids Ht Hk IHk]; [reflexivity|]. inversion IH as [|? ? It IH']; subst. cbn. cbn in It, Ht. destruct (It Ht w) as (-> & _). now apply IHk. }
  assert (Hs : shift sig [] (Tree Container st d kids) = Tree Container st d kids).
  { cbn. f_equal. clear H Hd. induction Hk as [|[key t] kids Ht Hk IHk]; [reflexivity|]. inversion IH as [|? ? It IH']; subst. destruct (It Ht w) as (D & _ & S). cbn in D, S. rewrite D. cbn [firstn skipn]. now rewrite S, IHk. }
  split; [exact Hd|]. split; [|exact Hs]. destruct st as [h|]; [|reflexivity]. cbn [move].
  rewrite through_same. 2:{ rewrite Forall_forall in *. intros p Hp w'. now apply IH, Hk. }
  cbv zeta. rewrite Hd. cbn [draws]. now rewrite Hs.
Qed.
Lemma shift_array zs path t d kids : length zs = dim t -> array_at path t d kids ->
  exists d', array_at path (shift sig zs t) d' kids /\ length d' = length d /\
    forall j x, nth_error d j = Some x -> exists k z, nth_error zs k = Some z /\ nth_error d' j = Some (x + sig kids * z)%Z.
Proof.
  intros Hl H. revert zs Hl. induction H as [st d kids|i key path st d kids t d' kids' E H IH]; intros zs Hl.
  - cbn [shift dim] in *. eexists. split; [constructor|]. split; [rewrite map_length, combine_length; lia|]. intros j x Hx.
    assert (K : exists z, nth_error zs j = Some z).
    { destruct (nth_error zs j) eqn:Ez; [eauto|]. apply nth_error_None in Ez. assert (nth_error d j <> None) by congruence. apply nth_error_Some in H. lia. }
    destruct K as (z & Ez). exists j, z. split; [exact Ez|]. rewrite nth_error_map. replace (nth_error (combine d zs) j) with (Some (x, z)); [reflexivity|].
    clear Hl. revert zs j Hx Ez. induction d as [|a d IH]; intros [|b zs] [|j] Hx Ez; try discriminate; cbn in *; [now injection Hx as ->; injection Ez as ->|now apply IH].
  - cbn [shift]. set (go := fix go kids zs := match kids with [] => [] | (k, t) :: kids' => (k, shift sig (firstn (dim t) zs) t) :: go kids' (skipn (dim t) zs) end).
    assert (K : exists zs', length zs' = dim t /\ nth_error (go kids zs) i = Some (key, shift sig zs' t) /\ forall k z, nth_error zs' k = Some z -> exists k', nth_error zs k' = Some z).
    { clear H IH. cbn [dim] in Hl. revert i zs E Hl. induction kids as [|[k0 t0] kids IHk]; intros i zs E Hl; [destruct i; discriminate|]. cbn in Hl. destruct i as [|i]; cbn in E.
      - injection E as -> ->. exists (firstn (dim t) zs). split; [rewrite firstn_length; lia|]. split; [reflexivity|]. intros k z Ez. exists k.
        assert (Hk : (k < length (firstn (dim t) zs))%nat) by (apply nth_error_Some; congruence). rewrite firstn_length in Hk.
        rewrite <- (firstn_skipn (dim t) zs), nth_error_app1 by (rewrite firstn_length; lia). exact Ez.
      - destruct (IHk i (skipn (dim t0) zs) E) as (zs' & A & B & C); [rewrite skipn_length; unfold list_sum in *; cbn in *; lia|]. exists zs'. split; [exact A|]. split; [exact B|]. intros k z Ez. destruct (C k z Ez) as (k' & Ek).
        exists (dim t0 + k')%nat. rewrite <- (firstn_skipn (dim t0) zs), nth_error_app2 by (rewrite firstn_length; lia). rewrite firstn_length, Nat.min_l by lia. now replace (dim t0 + k' - dim t0)%nat with k' by lia. }
    destruct K as (zs' & A & B & C). destruct (IH zs' A) as (d1 & H1 & H2 & H3). exists d1. split; [econstructor; eassumption|]. split; [exact H2|]. intros j x Hx. destruct (H3 j x Hx) as (k & z & Ek & Ed).
    destruct (C k z Ek) as (k' & Ek'). eauto.
Qed.
Lemma nth_draws n h w k z : nth_error (fst (draws stream n h w)) k = Some z ->
  exists p, (count w h <= p < count (snd (draws stream n h w)) h)%nat /\ z = stream (seed w h) p.
Proof.
  pose proof (draws_spec n h w) as H. destruct (draws stream n h w) as [zs w']. destruct H as (-> & _ & _ & _ & E & _). cbn. intros K.
  assert (Hk : (k < n)%nat) by (rewrite <- (seq_length n (count w h)), <- (map_length (stream (seed w h))); apply nth_error_Some; congruence).
  rewrite nth_error_map in K. exists (count w h + k)%nat. split; [lia|]. rewrite (nth_error_nth' _ 0%nat) in K by now rewrite seq_length. rewrite seq_nth in K by exact Hk. now injection K as <-.
Qed.
Lemma draws_length n h w : length (fst (draws stream n h w)) = n.
Proof. pose proof (draws_spec n h w) as H. destruct (draws stream n h w) as [zs w']. destruct H as (-> & _). cbn. now rewrite map_length, seq_length. Qed.
Notation moved := (moved stream).
Lemma move_array h path t d kids w : ordinary t -> all_same h t -> array_at path t d kids ->
  exists d', array_at path (fst (move stream sig t w)) d' kids /\ moved h w (snd (move stream sig t w)) (S (length path)) (sig kids) d d'.
Proof.
  intros Ho Hs Ha. revert w Ho Hs. induction Ha as [st d kids|i key path st d kids t d' kids' E Ha IH]; intros w Ho Hs.
  - apply every_inv in Hs. destruct Hs as (-> & Hk). inversion Ho as [|? ? ? Hi|]; subst. cbn [move]. rewrite through_same.
    2:{ rewrite Forall_forall in *. intros p Hp w'. now apply move_inert, Hi. }
    cbv zeta. destruct (draws stream (dim (Tree Data (Some h) d kids)) h w) as [zs w2] eqn:Ed.
    assert (El : length zs = dim (Tree Data (Some h) d kids)) by (rewrite <- (draws_length (dim (Tree Data (Some h) d kids)) h w), Ed; reflexivity).
    destruct (shift_array zs [] (Tree Data (Some h) d kids) d kids El) as (d1 & A & B & C); [constructor|]. exists d1. split; [exact A|]. split; [exact B|]. intros j x Hx.
    destruct (C j x Hx) as (k & z & Ek & En). destruct (nth_draws (dim (Tree Data (Some h) d kids)) h w k z) as (p & Hp & ->); [now rewrite Ed|]. rewrite Ed in Hp. cbn [snd] in Hp.
    exists [p]. split; [reflexivity|]. split; [repeat constructor; auto|]. split; [now repeat constructor|]. rewrite En. cbn. now rewrite Z.add_0_r.
  - apply every_inv in Hs. destruct Hs as (-> & Hk). inversion Ho as [| |? ? ? Hi]; subst. cbn [move].
    assert (Hin : In (key, t) kids) by (eapply nth_error_In, E).
    destruct (through_nth (move stream sig) h kids w i key t) as (wa & A & B & C); [|exact E|].
    { intros t' w' Ht. apply in_map_iff in Ht. destruct Ht as (q & <- & Hq). apply move_only. rewrite Forall_forall in Hk. now apply Hk. }
    rewrite Forall_forall in Hi, Hk. destruct (IH wa (Hi _ Hin) (Hk _ Hin)) as (d1 & A1 & A2 & A3).
    destruct (through (move stream sig) kids w) as [ks w1]. cbn [fst snd] in *. cbv zeta.
    set (t1 := Tree Container (Some h) d ks). destruct (draws stream (dim t1) h w1) as [zs w2] eqn:Ed.
    assert (El : length zs = dim t1) by (rewrite <- (draws_length (dim t1) h w1), Ed; reflexivity).
    destruct (shift_array zs (i :: path) t1 d1 kids' El) as (d2 & B1 & B2 & B3); [econstructor; eassumption|]. exists d2. split; [exact B1|]. split; [congruence|]. cbn [snd].
    intros j x Hx. destruct (A3 j x Hx) as (ps & L1 & L2 & L3 & L4). destruct (B3 j _ L4) as (k & z & Ek & En).
    destruct (nth_draws (dim t1) h w1 k z) as (p & Hp & ->); [now rewrite Ed|]. rewrite Ed in Hp. cbn [snd] in Hp.
    destruct A as (S1 & _ & _ & A & _). destruct C as (S2 & _ & _ & C & _).
    assert (S0 : seed (snd (move stream sig t wa)) = seed wa) by (apply (move_only h t wa); now apply (Hk _ Hin)).
    exists (p :: ps). split; [cbn; now rewrite L1|]. split.
    + constructor; [|exact L2]. intros Hp'. rewrite Forall_forall in L3. specialize (L3 p Hp'). lia.
    + split.
      * constructor; [pose proof (move_only h t wa (Hk _ Hin)) as (_ & _ & _ & M & _); lia|]. revert L3. apply Forall_impl. intros q Hq. lia.
      * rewrite En. f_equal. cbn [map zsum fold_right]. unfold zsum. rewrite S2, S0, S1. ring.
Qed.
(** sampling moves once *)
Lemma sample_array glob h path t d kids w : ordinary t -> all_same h t -> array_at path t d kids ->
  exists d', array_at path (snd (fst (sample_in stream glob sig None t w))) d' kids /\ moved h w (snd (sample_in stream glob sig None t w)) 1 (sig kids) d d'.
Proof.
  intros Ho Hs Ha. revert w Ho Hs. induction Ha as [st d kids|i key path st d kids t d' kids' E Ha IH]; intros w Ho Hs.
  - pose proof (move_array h [] (Tree Data st d kids) d kids w Ho Hs (array_here st d kids)) as H.
    pose proof Hs as Hs'. apply every_inv in Hs'. destruct Hs' as (-> & Hk). cbn [sample_in].
    rewrite (mutate_settled stream sig (fun s => s = Some h)) by (auto; intros s -> ?; discriminate).
    destruct (move stream sig _ w) as [c w2]. cbn [fst snd] in *. exact H.
  - apply every_inv in Hs. destruct Hs as (-> & Hk). inversion Ho as [| |? ? ? Hi]; subst. cbn [sample_in].
    set (go := fix go kids w := match kids with [] => ([], [], w) | (key, t) :: kids' => let '(p, c, w1) := sample_in stream glob sig None t w in let '(ps, cs, w2) := go kids' w1 in ((key, p) :: ps, (key, c) :: cs, w2) end).
    assert (Ps : forall s, s = Some h -> s <> None) by (intros s -> ?; discriminate).
    assert (So : forall t w, all_same h t -> only h w (snd (sample_in stream glob sig None t w))).
    { intros t' w' Ht. apply (sample_settled stream sig (fun s => s = Some h) (only h) Ps (only_refl h) (only_trans h) (fun n h' w E => same_draws h n h' w E) glob glob t' Ht w'). }
    assert (Go : forall w, only h w (snd (go kids w))).
    { clear - So Hk. induction Hk as [|[k t] kids Ht Hk IH]; intros w; [apply only_refl|]. cbn. cbn in Ht. pose proof (So t w Ht) as S1. destruct (sample_in stream glob sig None t w) as [[p c] w1]. cbn in S1.
      specialize (IH w1). destruct (go kids w1) as [[ps cs] w2]. cbn in *. eapply only_trans; eassumption. }
    assert (K : exists wa, only h w wa /\ nth_error (snd (fst (go kids w))) i = Some (key, snd (fst (sample_in stream glob sig None t wa))) /\ only h (snd (sample_in stream glob sig None t wa)) (snd (go kids w))).
    { clear IH Ha Ho. revert w i E. induction Hk as [|[k t0] kids Ht Hk IHk]; intros w i E; [destruct i; discriminate|]. inversion Hi as [|? ? Hi1 Hi2]; subst.
      assert (Go' : forall w, only h w (snd (go kids w))).
      { intros w'. clear - So Hk. revert w'. induction Hk as [|[k t] kids Ht Hk IH]; intros w; [apply only_refl|]. cbn. cbn in Ht. pose proof (So t w Ht) as S1. destruct (sample_in stream glob sig None t w) as [[p c] w1]. cbn in S1.
        specialize (IH w1). destruct (go kids w1) as [[ps cs] w2]. cbn in *. eapply only_trans; eassumption. }
      cbn. cbn in Ht. pose proof (So t0 w Ht) as S1. destruct (sample_in stream glob sig None t0 w) as [[p c] w1] eqn:E0. cbn in S1. destruct i as [|i]; cbn in E.
      - injection E as -> ->. exists w. split; [apply only_refl|]. rewrite E0. specialize (Go' w1). destruct (go kids w1) as [[ps cs] w2]. cbn in *. auto.
      - destruct (IHk Hi2 Go' w1 i E) as (wa & A & B & C). destruct (go kids w1) as [[ps cs] w2]. cbn in *. exists wa. split; [eapply only_trans; eassumption|auto]. }
    destruct K as (wa & A & B & C). assert (Hin : In (key, t) kids) by (eapply nth_error_In, E). rewrite Forall_forall in Hi, Hk.
    destruct (IH wa (Hi _ Hin) (Hk _ Hin)) as (d1 & A1 & A2 & A3). destruct (go kids w) as [[ks cs] w2]. cbn [fst snd] in *.
    exists d1. split; [econstructor; eassumption|]. split; [exact A2|]. intros j x Hx. destruct (A3 j x Hx) as (ps & L1 & L2 & L3 & L4). exists ps.
    split; [exact L1|]. split; [exact L2|]. destruct A as (S1 & _ & _ & A & _). destruct C as (_ & _ & _ & C & _). split.
    + revert L3. apply Forall_impl. intros q Hq. lia.
    + now rewrite <- S1.
Qed.
End Draws.

From Coq Require Import Bool Arith List String ZArith QArith Lia Lqa.
From Verif Require Import Model.Prelude Model.MultiValue Model.Planning Model.Control Spec.Control Proofs.MultiValue.
Import ListNotations.
Open Scope nat_scope.
Open Scope list_scope.

Lemma product_sum m j v : forall k,
  qsum (map (fun ix => (snd ix * m_at m (fst ix) j)%Q) (combine (seq k (List.length v)) v)) = product_from k v (m_at m) j.
Proof. induction v as [|x v IH]; intros k; [reflexivity|]. cbn [List.length seq combine map qsum fold_right product_from fst snd]. rewrite <- IH. reflexivity. Qed.
Lemma nth_error_seq n : forall k j x, nth_error (seq k n) j = Some x -> x = k + j.
Proof. induction n as [|n IH]; intros k [|j] x Hx; cbn in Hx; try discriminate; [injection Hx as <-; lia|]. apply IH in Hx. lia. Qed.
Lemma matmul_ok v m : List.length v = m_rows m ->
  exists a, matmul v m = Ok a /\ List.length a = m_cols m /\
    forall j x, nth_error a j = Some x -> (x == product_from 0 v (m_at m) j)%Q.
Proof.
  intros L. unfold matmul. rewrite L, Nat.eqb_refl. cbn [negb]. eexists. split; [reflexivity|]. split; [now rewrite map_length, seq_length|].
  intros j x Hx. rewrite nth_error_map in Hx. destruct (nth_error (seq 0 (m_cols m)) j) as [k|] eqn:Hk; [|discriminate].
  apply nth_error_seq in Hk. cbn in Hk. subst k. injection Hx as <-. rewrite <- L, product_sum. reflexivity.
Qed.
Lemma normalize_ok norm n obs :
  match norm with None => True | Some (mean, std) => List.length mean = n /\ List.length std = n end -> List.length obs = n ->
  exists o, normalize norm obs = Ok o /\ List.length o = n.
Proof.
  intros Hm Ho. destruct norm as [[mean std]|]; [|now exists obs]. destruct Hm as [A B]. unfold normalize. rewrite A, B, Ho, Nat.eqb_refl. cbn [andb].
  eexists. split; [reflexivity|]. rewrite map_length, !combine_length, A, B, Ho. lia.
Qed.

(** the shapes of the layers after the first one: from [n] to [last] *)
Fixpoint chain (n : nat) (shapes : list (nat * nat)) (last : nat) : Prop :=
  match shapes with [] => n = last | (a, b) :: l => a = n /\ chain b l last end.
Lemma shapes_chain : forall mid n last,
  List.length (layer_shapes (n :: mid ++ [last])) = S (List.length mid) /\ chain n (layer_shapes (n :: mid ++ [last])) last.
Proof.
  induction mid as [|k mid IH]; intros n last; [split; [reflexivity|cbn; auto]|].
  destruct (IH k last) as [L C].
  assert (E : layer_shapes (n :: (k :: mid) ++ [last]) = (n, k) :: layer_shapes (k :: mid ++ [last])).
  { unfold layer_shapes. cbn [app tl]. change (removelast (n :: k :: mid ++ [last])) with (n :: removelast (k :: mid ++ [last])).
    destruct (mid ++ [last]) eqn:Em; [now apply app_eq_nil in Em as [_ ?]|]. reflexivity. }
  rewrite E. split; [cbn [List.length]; now rewrite L|]. cbn [chain]. now split.
Qed.
Lemma shapes_split first mid last : exists n1 rest, layer_shapes (first :: mid ++ [last]) = (first, n1) :: rest /\
  List.length rest = List.length mid /\ chain n1 rest last.
Proof.
  destruct (shapes_chain mid first last) as [L C]. destruct (layer_shapes (first :: mid ++ [last])) as [|[a b] rest]; [discriminate|].
  cbn in L, C. destruct C as [-> C]. exists b, rest. repeat split; [lia|assumption].
Qed.

Section S.
Variables ftanh fsigmoid : Q -> Q.
Lemma activate_ok name v : (name = "tanh" \/ name = "sigmoid")%string -> exists a, activate ftanh fsigmoid name v = Ok a /\ List.length a = List.length v.
Proof. intros [->| ->]; unfold activate; cbn; eexists; (split; [reflexivity|apply map_length]). Qed.
Lemma next_ok name : (name = "tanh" \/ name = "sigmoid")%string -> forall layers coefs a n last,
  List.length a = n -> List.length coefs = List.length layers -> chain n (map (fun m => (m_rows m, m_cols m)) layers) last ->
  exists a', next_layers ftanh fsigmoid name a (combine layers coefs) = Ok a' /\ List.length a' = last.
Proof.
  intros Hn. induction layers as [|m layers IH]; intros coefs a n last Ha Hc Hl; cbn [map chain] in Hl.
  - exists a. split; [reflexivity|congruence].
  - destruct coefs as [|c coefs]; [discriminate|]. destruct Hl as [Hr Hl]. cbn [combine next_layers].
    destruct (activate_ok name a Hn) as (b & -> & Lb). cbn [bind].
    destruct (matmul_ok (map (fun q => (q + (1 # 1000))%Q) b) m) as (d & -> & Ld & _); [rewrite map_length; congruence|]. cbn [bind].
    apply IH with (n := m_cols m); [unfold scale; now rewrite map_length|cbn in Hc; lia|assumption].
Qed.

Lemma combine_snoc (ls : list matrix) (cs : list Q) m c : List.length cs = List.length ls ->
  combine (ls ++ [m]) (cs ++ [c]) = combine ls cs ++ [(m, c)].
Proof. revert cs. induction ls as [|l ls IH]; intros [|d cs] H; cbn in *; try discriminate; [reflexivity|]. f_equal. apply IH. lia. Qed.
Lemma next_snoc name layers : forall a a' m c, next_layers ftanh fsigmoid name a layers = Ok a' ->
  next_layers ftanh fsigmoid name a (layers ++ [(m, c)]) = next_layers ftanh fsigmoid name a' [(m, c)].
Proof.
  induction layers as [|[x r] layers IH]; intros a a' m c H; cbn [app next_layers] in *; [now injection H as <-|].
  destruct (activate ftanh fsigmoid name a) as [b|]; [|discriminate]. cbn [bind] in *.
  destruct (matmul _ x) as [d|]; [|discriminate]. cbn [bind] in *. now rewrite (IH _ _ _ _ H).
Qed.

Variable G : Type.
Variable normals : G -> nat -> G * list Q.
Variable E : Type.
Variables (reset : E -> E * list Q) (step : E -> list Q -> result (E * (list Q * Q * bool))).
Notation run := (run ftanh fsigmoid G normals E step).
Notation rollouts := (rollouts ftanh fsigmoid G normals E reset step).
Notation act p := (action_of ftanh fsigmoid (p_act p) (p_norm p) (p_coefs p) (p_layers p)).

Lemma quiet level g a : (level <= 0)%Q -> noisy G normals level g a = (g, a).
Proof. intros L. unfold noisy. apply qlt_false in L. now rewrite L. Qed.

Lemma run_spec p : (p_noise p <= 0)%Q -> forall fuel e g obs t e' g' t', run fuel p e g obs t = Ok (e', g', t') ->
  g' = g /\ exists rs, episode step (act p) e obs e' rs /\ (t' == t + total rs)%Q.
Proof.
  intros Hn. induction fuel as [|fuel IH]; intros e g obs t e' g' t' H; [discriminate|]. cbn [Control.run] in H.
  destruct (act p obs) as [a|] eqn:Ha; [|discriminate]. cbn [bind] in H. rewrite quiet in H by assumption.
  destruct (step e a) as [[e1 [[obs1 r] done]]|] eqn:Hs; [|discriminate]. cbn [bind] in H. destruct done.
  - injection H as <- <- <-. split; [reflexivity|]. exists [r]. split; [eapply episode_done; eassumption|]. cbn. ring.
  - apply IH in H. destruct H as (-> & rs & He & Ht). split; [reflexivity|]. exists (r :: rs).
    split; [eapply episode_more; eassumption|]. rewrite Ht. unfold total. cbn [fold_right]. ring.
Qed.
Lemma rollouts_spec p fuel : (p_noise p <= 0)%Q -> forall n e g e' g' rs, rollouts fuel n p e g = Ok (e', g', rs) ->
  g' = g /\ List.length rs = n /\ exists rewards, List.length rewards = n /\ episodes reset step (act p) e rewards /\
    Forall2 (fun r l => (r == total l)%Q) rs rewards.
Proof.
  intros Hn. induction n as [|n IH]; intros e g e' g' rs H; cbn [Control.rollouts] in H.
  - injection H as <- <- <-. split; [reflexivity|]. split; [reflexivity|]. exists []. repeat split; constructor.
  - destruct (reset e) as [e1 obs] eqn:Hr. destruct (run fuel p e1 g obs 0%Q) as [[[e2 g2] r]|] eqn:Hrun; [|discriminate].
    cbn [bind] in H. apply run_spec in Hrun; [|assumption]. destruct Hrun as (-> & rw & He & Ht).
    destruct (rollouts fuel n p e2 g) as [[[e3 g3] rs']|] eqn:Hro; [|discriminate]. cbn [bind] in H. injection H as <- <- <-.
    apply IH in Hro. destruct Hro as (-> & L & rewards & LR & HE & HF). split; [reflexivity|]. split; [cbn; congruence|].
    exists (rw :: rewards). split; [cbn; congruence|]. split.
    + econstructor; [|exact HE]. now rewrite Hr.
    + constructor; [|assumption]. rewrite Ht. ring.
Qed.
Lemma run_state p : (p_noise p <= 0)%Q -> forall fuel e g g' obs t,
  match run fuel p e g obs t, run fuel p e g' obs t with
  | Ok (e1, _, t1), Ok (e2, _, t2) => e1 = e2 /\ t1 = t2
  | Err x, Err y => x = y
  | _, _ => False
  end.
Proof.
  intros Hn. induction fuel as [|fuel IH]; intros e g g' obs t; [reflexivity|]. cbn [Control.run].
  destruct (act p obs) as [a|]; [|reflexivity]. cbn [bind]. rewrite !quiet by assumption.
  destruct (step e a) as [[e1 [[obs1 r] done]]|]; [|reflexivity]. cbn [bind]. destruct done; [now split|apply IH].
Qed.
Lemma rollouts_state fuel p : (p_noise p <= 0)%Q -> forall n e g g',
  match rollouts fuel n p e g, rollouts fuel n p e g' with
  | Ok (e1, _, t1), Ok (e2, _, t2) => e1 = e2 /\ t1 = t2
  | Err x, Err y => x = y
  | _, _ => False
  end.
Proof.
  intros Hn. induction n as [|n IH]; intros e g g'; cbn [Control.rollouts]; [now split|].
  destruct (reset e) as [e1 obs]. pose proof (run_state p Hn fuel e1 g g' obs 0%Q) as R.
  destruct (run fuel p e1 g obs 0%Q) as [[[e2 g2] r2]|], (run fuel p e1 g' obs 0%Q) as [[[e3 g3] r3]|]; try easy; try (cbn; congruence).
  destruct R as [-> ->]. cbn [bind]. specialize (IH e3 g2 g3).
  destruct (rollouts fuel n p e3 g2) as [[[e4 g4] r4]|], (rollouts fuel n p e3 g3) as [[[e5 g5] r5]|]; cbn [bind]; try easy.
  destruct IH as [-> ->]. now split.
Qed.
End S.
Lemma totals_qsum rs rewards : Forall2 (fun r l => (r == total l)%Q) rs rewards -> (qsum rs == total (map total rewards))%Q.
Proof. induction 1 as [|r l rs rewards E _ IH]; [reflexivity|]. unfold qsum, total in *. cbn [fold_right map]. now rewrite IH, E. Qed.

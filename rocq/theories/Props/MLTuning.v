(** C131: the tuning of learning algorithms. *)
From Coq Require Import Bool Arith List String ZArith QArith Lia Sorting.Permutation.
From Verif Require Import Model.Prelude Model.Planning Model.MLTuning Spec.MLTuning Proofs.MLTuning.
Import ListNotations.
Open Scope nat_scope.
Open Scope list_scope.

Section Props.
Variables (fsin fcos : Q -> Q) (shuffle : list row -> list row) (shuffle_tests : list Q -> list Q).
Variable named : string -> result tables.
Variable St : Type.
Variables (create : learner -> St) (fit : St -> list row -> list Q -> result St)
  (predict : St -> list row -> result (list Q)) (mse : list Q -> list Q -> result Q).
Notation call := (ml_call fsin fcos shuffle shuffle_tests named St create fit predict mse).
Notation make := (make_dataset fsin fcos shuffle shuffle_tests named).
Notation loss_of := (loss fsin fcos shuffle shuffle_tests named St create fit predict mse).
Notation evaluation_of := (evaluation fsin fcos shuffle shuffle_tests named St create fit predict mse).
Notation calls_of := (calls fsin fcos shuffle shuffle_tests named St create fit predict mse).

(** C131: the folds of a cross-validation: in each of them the training and validation points are all the points, and each
    point is a validation point of exactly one of the 10 folds, which have 12 validation points among 120; labels are sums of
    the target function *)
Theorem C131_folds f x :
  (forall cv, Permutation (f_x (make_fold cross_val_num f x cv) ++ f_vx (make_fold cross_val_num f x cv)) x /\
     sums f (f_x (make_fold cross_val_num f x cv)) (f_y (make_fold cross_val_num f x cv)) /\
     sums f (f_vx (make_fold cross_val_num f x cv)) (f_vy (make_fold cross_val_num f x cv))) /\
  Permutation (List.concat (map (fun cv => f_vx (make_fold cross_val_num f x cv)) (seq 0 10))) x /\
  (List.length x = 120 -> forall cv, cv < 10 -> List.length (f_vx (make_fold cross_val_num f x cv)) = 12).
Proof.
  split; [|split].
  - intros cv. cbn [make_fold f_x f_y f_vx f_vy]. split; [|split; apply labels_sums].
    apply (keep_split (fun i => i mod cross_val_num =? cv)).
  - apply (keep_partition 10). lia.
  - intros L cv H. cbn [make_fold f_vx]. rewrite keep_length, L.
    do 10 (destruct cv as [|cv]; [reflexivity|]). lia.
Qed.

(** C131: for a known artificial dataset, in a dimension which divides 60000, the data is made: 120 points for training, of this
    dimension, whose coordinates are the multiples of 1 / (120 d), 60000 / d points for the test, and 10 folds *)
Theorem C131_data d ds f :
  0 < d -> Nat.divide d num_tests -> String.prefix "artificial" ds = true -> target fsin fcos ds = Some f ->
  (forall x, Permutation (shuffle x) x) -> (forall x, Permutation (shuffle_tests x) x) ->
  exists tb xt yt, make (Some d) ds = (Some tb, Ok tt) /\ d_test tb = Some (xt, yt) /\
    List.length (d_x tb) = 120 /\ Forall (fun r => List.length r = d) (d_x tb) /\
    Permutation (List.concat (d_x tb)) (map (fun i => (inject_Z (Z.of_nat i) / inject_Z (Z.of_nat (120 * d)))%Q) (seq 0 (120 * d))) /\
    List.length xt * d = num_tests /\ Forall (fun r => List.length r = d) xt /\
    Permutation (List.concat xt) (map (fun i => (inject_Z (Z.of_nat i) / inject_Z (Z.of_nat num_tests))%Q) (seq 0 num_tests)) /\
    sums f xt yt /\ d_folds tb = map (make_fold cross_val_num f (d_x tb)) (seq 0 10).
Proof.
  intros H D P T S1 S2.
  destruct (make_known fsin fcos shuffle shuffle_tests named d ds f H P T) as (x0 & C & F & L & M).
  assert (L2 : List.length (shuffle_tests (grid num_tests)) = num_tests) by (rewrite (Permutation_length (S2 _)); apply grid_length).
  destruct (reshape_ok d (shuffle_tests (grid num_tests)) H) as (xt & R & C2 & F2 & Lx).
  { rewrite L2. apply Nat.mod_divide; [lia|assumption]. }
  rewrite M. cbv zeta. rewrite R. eexists. eexists. eexists. split; [reflexivity|]. split; [reflexivity|]. cbn [d_x d_folds].
  split; [etransitivity; [apply Permutation_length, S1|exact L]|].
  split. { apply Forall_forall. intros r I. rewrite Forall_forall in F. apply F. now apply (Permutation_in _ (S1 x0)). }
  split.
  { transitivity (List.concat x0); [|rewrite C; reflexivity].
    generalize (S1 x0). clear. induction 1; cbn; [constructor|now apply Permutation_app_head| |etransitivity; eassumption].
    rewrite !app_assoc. apply Permutation_app_tail, Permutation_app_comm. }
  split. { unfold row in *. rewrite Lx, L2. destruct D as [k D]. rewrite D. rewrite Nat.div_mul by lia. reflexivity. }
  split; [assumption|]. split; [rewrite C2; apply S2|]. split; [apply labels_sums|reflexivity].
Qed.

(** C131: in a dimension which does not divide 60000, the first call raises ValueError once the training data is stored; the
    following losses are computed from this data, and the evaluations on the test set raise AttributeError *)
Theorem C131_dimension d ds f kw :
  0 < d -> ~ Nat.divide d num_tests -> String.prefix "artificial" ds = true -> target fsin fcos ds = Some f ->
  (forall x, Permutation (shuffle_tests x) x) -> accepted kw = true ->
  exists tb, call (Some d) ds None kw = (Some tb, Err ValueError) /\
    (forall kw' l, accepted kw' = true -> learner_of kw' = Ok l -> truthy (get kw' "noise_free") = true ->
       call (Some d) ds (Some tb) kw' = (Some tb, Err AttributeError)) /\
    (forall kw' l es, accepted kw' = true -> learner_of kw' = Ok l -> truthy (get kw' "noise_free") = false ->
       is_int (get kw' "depth") = true -> forgets create fit ->
       Forall2 (fold_error create fit predict mse l) (d_folds tb) es ->
       exists v, call (Some d) ds (Some tb) kw' = (Some tb, Ok v) /\ (v == qsum es / 10)%Q).
Proof.
  intros H D P T S2 A.
  destruct (make_known fsin fcos shuffle shuffle_tests named d ds f H P T) as (x0 & C & F & L & M).
  rewrite reshape_err in M.
  2:{ rewrite (Permutation_length (S2 _)), grid_length. intros E. apply D. apply Nat.mod_divide; [lia|assumption]. }
  cbv zeta in M. unfold ml_call at 1. rewrite A, M. cbn [negb bind]. eexists. split; [reflexivity|]. split.
  - intros kw' l A' Ll N. unfold ml_call. rewrite A'. cbn [negb bind]. rewrite Ll. cbn [bind]. now rewrite N.
  - intros kw' l es A' Ll N I Hf E. unfold ml_call. rewrite A'. cbn [negb bind]. rewrite Ll. cbn [bind]. rewrite N, I.
    destruct (cv_forget St create fit predict mse l Hf _ _ E (create l) 0%Q (fitted_new _ _ _)) as (v & -> & V). cbn [bind].
    eexists. split; [reflexivity|]. change (inject_Z (Z.of_nat cross_val_num)) with 10%Q. rewrite V. field.
Qed.

(** C131: the data is made once: whatever is called, what is stored does not change any more *)
Theorem C131_once i tb l : fst (calls_of i (Some tb) l) = Some tb.
Proof.
  induction l as [|[ev kw] l IH]; [reflexivity|]. cbn [calls].
  assert (E : fst ((if ev then evaluation_of else loss_of) i (Some tb) kw) = Some tb).
  { destruct ev; unfold evaluation, loss, ml_call; now destruct (accepted _). }
  destruct ((if ev then evaluation_of else loss_of) i (Some tb) kw) as [st r]. cbn [fst] in E. subst st.
  destruct (calls_of i (Some tb) l). exact IH.
Qed.

(** C131: an unknown artificial dataset raises KeyError, at each of the calls *)
Theorem C131_unknown d ds kw :
  0 < d -> String.prefix "artificial" ds = true ->
  ds <> "artificial"%string -> ds <> "artificialcos"%string -> ds <> "artificialsquare"%string ->
  accepted kw = true -> call (Some d) ds None kw = (None, Err KeyError).
Proof.
  intros H P N1 N2 N3 A. unfold ml_call. rewrite A. cbn [negb]. unfold make_dataset. rewrite P. cbn [negb].
  destruct (Nat.eqb_spec d 0) as [|_]; [lia|].
  destruct (reshape_ok d (grid (num_data * d)) H) as (x0 & R & _). { rewrite grid_length. apply Nat.mod_mul. lia. }
  rewrite R. unfold target. apply String.eqb_neq in N1, N2, N3. now rewrite N1, N2, N3.
Qed.

(** C131: the loss of accepted arguments is the mean of the errors of the folds, each with a learner created for it, when
    fitting forgets what was learnt before; a ValueError of the error counts 5e20 *)
Theorem C131_loss dim ds tb kw l es :
  accepted kw = true -> learner_of kw = Ok l -> truthy (get kw "noise_free") = false -> is_int (get kw "depth") = true ->
  forgets create fit -> Forall2 (fold_error create fit predict mse l) (d_folds tb) es ->
  exists v, call dim ds (Some tb) kw = (Some tb, Ok v) /\ (v == qsum es / 10)%Q.
Proof.
  intros A' Ll N I Hf E. unfold ml_call. rewrite A'. cbn [negb bind]. rewrite Ll. cbn [bind]. rewrite N, I.
  destruct (cv_forget St create fit predict mse l Hf _ _ E (create l) 0%Q (fitted_new _ _ _)) as (v & -> & V). cbn [bind].
  eexists. split; [reflexivity|]. change (inject_Z (Z.of_nat cross_val_num)) with 10%Q. rewrite V. field.
Qed.

(** C131: depths which are not integers are rejected by the cross-validation *)
Theorem C131_depth dim ds tb kw l :
  accepted kw = true -> learner_of kw = Ok l -> truthy (get kw "noise_free") = false -> is_int (get kw "depth") = false ->
  d_folds tb <> [] -> call dim ds (Some tb) kw = (Some tb, Err AssertionError).
Proof.
  intros A' Ll N I NE. unfold ml_call. rewrite A'. cbn [negb bind]. rewrite Ll. cbn [bind]. rewrite N, I.
  now destruct (d_folds tb).
Qed.

(** C131: the learner used for the loss of a candidate has the values of this candidate *)
Theorem C131_candidate regressor dim ds overfitter i kw :
  new regressor dim ds overfitter = Ok i -> candidate regressor (s_keys (i_set i)) kw \/ regressor = "decision_tree_depth"%string ->
  let d := update (s_params (i_set i)) kw in
  (regressor = "decision_tree"%string -> forall a b c, get kw "depth" = Some a -> get kw "criterion" = Some b ->
     get kw "min_samples_split" = Some c -> learner_of d = Ok (Tree a b c)) /\
  (regressor = "mlp"%string -> forall a b c e, get kw "alpha" = Some a -> get kw "activation" = Some b ->
     get kw "solver" = Some c -> get kw "learning_rate" = Some e -> learner_of d = Ok (Mlp a b c e)) /\
  (regressor = "keras_dense_nn"%string -> forall b c, get kw "activation" = Some b -> get kw "solver" = Some c ->
     learner_of d = Ok (Keras b c)) /\
  (regressor = "decision_tree_depth"%string -> forall a, kw = [("depth"%string, a)] ->
     learner_of d = Ok (Tree a (VStr "friedman_mse") (VFloat (1 # 100000)))) /\
  (regressor = "any"%string -> forall a b c e f g h, get kw "depth" = Some a -> get kw "criterion" = Some b ->
     get kw "min_samples_split" = Some c -> get kw "alpha" = Some e -> get kw "activation" = Some f ->
     get kw "solver" = Some g -> get kw "learning_rate" = Some h ->
     (get kw "regressor" = Some (VStr "mlp") -> learner_of d = Ok (Mlp e f g h)) /\
     (get kw "regressor" = Some (VStr "decision_tree") -> learner_of d = Ok (Tree a b c))).
Proof.
  intros Hn Hc d. unfold new in Hn. destruct (Bool.eqb _ _) in Hn; [|discriminate].
  assert (Hr : forall r, regressor = r -> In "regressor"%string (s_keys (i_set i)) -> r <> "any"%string -> r <> "decision_tree_depth"%string ->
    get kw "regressor" = Some (VStr r)).
  { intros r <- I N1 N2. destruct Hc as [[K V]|E]; [|easy]. destruct (get kw "regressor") as [v|] eqn:G.
    - now rewrite (V v eq_refl N1).
    - exfalso. now apply (proj2 (K "regressor"%string)) in I. }
  unfold d. clear d. refine (conj _ (conj _ (conj _ (conj _ _)))); intros ->.
  - intros a b c A B C. cbn in Hn. injection Hn as <-. cbn [i_set s_params s_keys] in *.
    specialize (Hr _ eq_refl ltac:(cbn; tauto) ltac:(discriminate) ltac:(discriminate)).
    unfold learner_of. rewrite !get_update, A, B, C, Hr. cbn.
    destruct (get kw "alpha"), (get kw "activation"), (get kw "solver"), (get kw "learning_rate"); reflexivity.
  - intros a b c e A B C E. cbn in Hn. injection Hn as <-. cbn [i_set s_params s_keys] in *.
    specialize (Hr _ eq_refl ltac:(cbn; tauto) ltac:(discriminate) ltac:(discriminate)).
    unfold learner_of. rewrite !get_update, A, B, C, E, Hr. cbn.
    destruct (get kw "depth"), (get kw "criterion"), (get kw "min_samples_split"); reflexivity.
  - intros b c B C. cbn in Hn. injection Hn as <-. cbn [i_set s_params s_keys] in *.
    specialize (Hr _ eq_refl ltac:(cbn; tauto) ltac:(discriminate) ltac:(discriminate)).
    unfold learner_of. rewrite !get_update, B, C, Hr. cbn.
    destruct (get kw "depth"), (get kw "criterion"), (get kw "min_samples_split"), (get kw "alpha"), (get kw "learning_rate"); reflexivity.
  - intros a ->. cbn in Hn. injection Hn as <-. reflexivity.
  - intros a b c e f g h A B C E F0 G0 H0. cbn in Hn. injection Hn as <-. cbn [i_set s_params].
    split; intros G; unfold learner_of; rewrite !get_update, A, B, C, E, F0, G0, H0, G; reflexivity.
Qed.

(** C131: for all regressors but decision trees, the recommendation is evaluated with the learner of its loss: on the test set,
    fitted on all the training data, or by the loss itself for overfitters *)
Lemma eval_get regressor dim ds overfitter i kw :
  new regressor dim ds overfitter = Ok i -> regressor <> "decision_tree"%string -> candidate regressor (s_keys (i_set i)) kw ->
  forall k, get (update kw (s_eval (i_set i))) k =
    if String.eqb k "noise_free" then Some (VBool (negb overfitter)) else get (update (s_params (i_set i)) kw) k.
Proof.
  unfold new. destruct (Bool.eqb _ _); [|discriminate]. intros Hn N (K & V) k.
  assert (G : forall k, ~ In k (s_keys (i_set i)) -> get kw k = None).
  { intros k' NI. destruct (get kw k') eqn:E; [|reflexivity]. exfalso. apply NI, K. congruence. }
  assert (HV : regressor <> "any"%string -> get kw "regressor" = None \/ get kw "regressor" = Some (VStr regressor)).
  { intros Na. destruct (get kw "regressor") as [v|]; [right; now rewrite (V v eq_refl Na)|now left]. }
  unfold setting_of in Hn.
  destruct (String.eqb_spec regressor "decision_tree_depth") as [->|_];
    [|destruct (String.eqb_spec regressor "any") as [->|Na];
      [|destruct (String.eqb_spec regressor "decision_tree") as [->|_]; [easy|];
        destruct (String.eqb_spec regressor "mlp") as [->|_];
          [|destruct (String.eqb_spec regressor "keras_dense_nn") as [->|_]; [|discriminate]]]];
    cbn in Hn; injection Hn as <-; cbn [i_set s_eval s_params s_keys] in *; rewrite !get_update; cbn [get update app];
    (destruct (String.eqb_spec k "noise_free") as [->|N1]; [reflexivity|]);
    repeat (match goal with |- context [String.eqb k ?s] =>
      destruct (String.eqb_spec k s) as [->|?];
      [first [rewrite (G s) by (cbn; intuition discriminate); reflexivity
             |destruct HV as [HV|HV]; [discriminate|rewrite HV; reflexivity..]]|] end);
    destruct (get kw k); reflexivity.
Qed.

Theorem C131_evaluation regressor dim ds i tb kw l xt yt :
  new regressor dim ds false = Ok i -> regressor <> "decision_tree"%string -> candidate regressor (s_keys (i_set i)) kw ->
  accepted (update (s_params (i_set i)) kw) = true -> learner_of (update (s_params (i_set i)) kw) = Ok l ->
  d_test tb = Some (xt, yt) ->
  evaluation_of i (Some tb) kw =
    (Some tb, bind (fit (create l) (d_x tb) (d_y tb)) (fun s => bind (predict s xt) (fun pr => mse yt pr))).
Proof.
  intros Hn N C A Ll T. pose proof (eval_get _ _ _ _ _ _ Hn N C) as G. unfold evaluation.
  set (d := update kw (s_eval (i_set i))) in *. set (e := update (s_params (i_set i)) kw) in *.
  assert (A' : accepted d = true).
  { apply accepted_iff. apply accepted_iff in A. destruct A as [A1 A2]. split; intros k H.
    - rewrite G. destruct (String.eqb k "noise_free"); [discriminate|]. now apply A1.
    - rewrite G in H. destruct (String.eqb_spec k "noise_free") as [E|_]; [rewrite E; cbn; tauto|]. now apply A2. }
  unfold ml_call. rewrite A'. cbn [negb bind].
  assert (L' : learner_of d = Ok l). { rewrite <- Ll. unfold learner_of. now rewrite !G. }
  rewrite L'. cbn [bind]. rewrite G. cbn [String.eqb Ascii.eqb Bool.eqb negb truthy]. cbn. now rewrite T.
Qed.

Theorem C131_overfitter regressor dim ds i st kw :
  new regressor dim ds true = Ok i -> regressor <> "decision_tree"%string -> candidate regressor (s_keys (i_set i)) kw ->
  evaluation_of i st kw = loss_of i st kw.
Proof.
  intros Hn N C. unfold evaluation, loss. apply call_ext. intros k. rewrite (eval_get _ _ _ _ _ _ Hn N C).
  destruct (String.eqb_spec k "noise_free") as [->|]; [|reflexivity]. rewrite get_update.
  assert (G : get kw "noise_free" = None).
  { destruct C as [K _]. destruct (get kw "noise_free") eqn:E; [|reflexivity]. exfalso.
    assert (I : In "noise_free"%string (s_keys (i_set i))) by (apply K; congruence). revert I. clear -Hn.
    unfold new in Hn. destruct (Bool.eqb _ _); [|discriminate]. unfold setting_of in Hn.
    repeat match type of Hn with context [if String.eqb ?a ?b then _ else _] => destruct (String.eqb a b) end;
      try discriminate; cbn in Hn; injection Hn as <-; cbn; intuition discriminate. }
  rewrite G. unfold new in Hn. destruct (Bool.eqb _ _); [|discriminate]. unfold setting_of in Hn.
  repeat match type of Hn with context [if String.eqb ?a ?b then _ else _] => destruct (String.eqb a b) end;
      try discriminate; cbn in Hn; injection Hn as <-; reflexivity.
Qed.

(** C131, refuted for decision trees: the criterion and the ratio of the recommendation are replaced, in the evaluation, by
    friedman_mse and 1e-5: recommendations with the same depth have the same evaluation *)
Theorem C131_tree_refuted dim ds overfitter i st kw a b c :
  new "decision_tree" dim ds overfitter = Ok i ->
  (forall k, get kw k <> None <-> In k (s_keys (i_set i))) ->
  get kw "depth" = Some a -> get kw "criterion" = Some b -> get kw "min_samples_split" = Some c ->
  learner_of (update kw (s_eval (i_set i))) = Ok (Tree a (VStr "friedman_mse") (VFloat (1 # 100000))) /\
  forall kw', (forall k, get kw' k <> None <-> In k (s_keys (i_set i))) -> get kw' "depth" = Some a ->
    evaluation_of i st kw' = evaluation_of i st kw.
Proof.
  unfold new. destruct (Bool.eqb _ _); [|discriminate]. intros Hn K A B C. cbn in Hn. injection Hn as <-.
  cbn [i_set s_eval s_keys] in *. split.
  - unfold learner_of. rewrite !get_update, A. cbn. reflexivity.
  - intros kw' K' A'. unfold evaluation. apply call_ext. intros k. cbn [i_set s_eval]. rewrite !get_update. cbn [get update app].
    repeat match goal with |- context [String.eqb k ?s] => destruct (String.eqb_spec k s) as [->|?]; [reflexivity|] end.
    destruct (String.eqb_spec k "depth") as [->|Nd]; [congruence|].
    specialize (K k). specialize (K' k).
    assert (NI : ~ In k ["depth"; "criterion"; "min_samples_split"; "regressor"]%string).
    { cbn. intuition congruence. }
    destruct (get kw k) eqn:E1. { exfalso. apply NI, K. discriminate. }
    destruct (get kw' k) eqn:E2; [|reflexivity]. exfalso. apply NI, K'. discriminate.
Qed.

(** C131: the number of artificial dimensions is given exactly for artificial datasets, and the regressor is a known one *)
Theorem C131_new regressor dim ds overfitter :
  (exists i, new regressor dim ds overfitter = Ok i) <->
  (contains "artificial" ds = true <-> dim <> None) /\
  In regressor ["decision_tree_depth"; "any"; "decision_tree"; "mlp"; "keras_dense_nn"]%string.
Proof.
  unfold new. split.
  - intros (i & H). destruct (Bool.eqb _ _) eqn:E; [|discriminate]. apply Bool.eqb_prop in E. split.
    + rewrite E. destruct dim; split; intros; congruence.
    + unfold setting_of in H. cbn [In].
      destruct (String.eqb_spec regressor "decision_tree_depth"); [subst; tauto|].
      destruct (String.eqb_spec regressor "any"); [subst; tauto|].
      destruct (String.eqb_spec regressor "decision_tree"); [subst; tauto|].
      destruct (String.eqb_spec regressor "mlp"); [subst; tauto|].
      destruct (String.eqb_spec regressor "keras_dense_nn"); [subst; tauto|]. discriminate.
  - intros [E I].
    assert (B : Bool.eqb (contains "artificial" ds) (match dim with Some _ => true | None => false end) = true).
    { apply Bool.eqb_true_iff. destruct dim, (contains "artificial" ds); try reflexivity.
      - exfalso. assert (false = true) by (apply E; discriminate). discriminate.
      - exfalso. now apply (proj1 E). }
    rewrite B. cbn [In] in I. destruct I as [<-|[<-|[<-|[<-|[<-|[]]]]]]; eexists; reflexivity.
Qed.
End Props.
Print Assumptions C131_folds.
Print Assumptions C131_data.
Print Assumptions C131_dimension.
Print Assumptions C131_once.
Print Assumptions C131_unknown.
Print Assumptions C131_loss.
Print Assumptions C131_depth.
Print Assumptions C131_candidate.
Print Assumptions C131_evaluation.
Print Assumptions C131_overfitter.
Print Assumptions C131_tree_refuted.
Print Assumptions C131_new.

(** C131, refuted: the labels of the training data are sums of sines for all the artificial datasets, so that the evaluation on
    the test set of artificialsquare is that of a learner fitted on other labels (here with the sine to the third order) *)
Theorem C131_labels_refuted :
  (forall fsin fcos shuffle shuffle_tests named d ds tb r,
     make_dataset fsin fcos shuffle shuffle_tests named (Some d) ds = (Some tb, r) -> String.prefix "artificial" ds = true ->
     sums fsin (d_x tb) (d_y tb)) /\
  forall named, exists fsin tb xt yt,
    (forall q, (fsin q == q - q * q * q / 6)%Q) /\
    make_dataset fsin fsin (fun x => x) (fun x => x) named (Some 1) "artificialsquare" = (Some tb, Ok tt) /\
    d_test tb = Some (xt, yt) /\ sums (fun q => q * q)%Q xt yt /\
    (exists q, nth_error (d_x tb) 60 = Some [q] /\ (q == 1 # 2)%Q) /\
    forall y, nth_error (d_y tb) 60 = Some y -> ~ (y == 1 # 4)%Q.
Proof.
  split.
  - intros fsin fcos sh st named d ds tb r M P. unfold make_dataset in M. rewrite P in M. cbn [negb] in M.
    destruct (d =? 0); [discriminate|]. destruct (reshape d _); [|discriminate].
    destruct (target fsin fcos ds); [|discriminate]. destruct (reshape d _); injection M as <- _; apply labels_sums.
  - intros named. set (g := fun q : Q => (q - q * q * q / 6)%Q).
    destruct (make_known g g (fun x => x) (fun x => x) named 1 "artificialsquare" (fun q => q * q)%Q) as (x0 & C & F & L & M); [lia|reflexivity..|].
    destruct (reshape_ok 1 (grid num_tests)) as (xt & R & _); [lia|apply Nat.mod_1_r|].
    rewrite R in M. cbv zeta in M. exists g. eexists. exists xt. eexists.
    split; [intros q; reflexivity|]. split; [exact M|]. split; [reflexivity|]. split; [apply labels_sums|].
    assert (E : x0 = map (fun q => [q]) (grid 120)).
    { change (grid (num_data * 1)) with (grid 120) in C. rewrite <- C. clear -F. induction F as [|r x0 H F IH]; [reflexivity|].
      destruct r as [|q [|? ?]]; try discriminate. cbn [List.concat app map]. now rewrite <- IH. }
    subst x0. split; [eexists; split; [vm_compute; reflexivity|reflexivity]|]. intros y Hy. assert (Y : nth_error (labels g (map (fun q => [q]) (grid 120))) 60 = Some y) by exact Hy.
    vm_compute in Y. injection Y as <-. vm_compute. discriminate.
Qed.
Print Assumptions C131_labels_refuted.

(** C131, refuted for learners which go on from where they are (keras networks): the same object is fitted on each of the
    folds, so that from the second fold on it has already learnt the validation points.  The error here is the number of
    validation points which were learnt before *)
Definition seen (s : list row) (r : row) : bool := existsb (fun r' => forallb (fun p => Qeq_bool (fst p) (snd p)) (combine r r')) s.
Definition run_memory (warm : bool) (folds : list fold) : result Q :=
  cross_validation (list row) (fun s x _ => Ok (if warm then s ++ x else x))
    (fun s vx => Ok (map (fun r => if seen s r then 1 else 0)%Q vx)) (fun _ pr => Ok (Qred (qsum pr))) true [] 0%Q folds.
Theorem C131_keras_refuted :
  let folds := map (make_fold 10 (fun q => q) (map (fun q => [q]) (grid 120))) (seq 0 10) in
  (exists v, run_memory false folds = Ok v /\ (v == 0)%Q) /\ (exists v, run_memory true folds = Ok v /\ (v == 108)%Q).
Proof. split; eexists; (split; [vm_compute; reflexivity|reflexivity]). Qed.
Print Assumptions C131_keras_refuted.

(** the hypotheses: a dimension which does not divide 60000, a candidate, a learner which forgets *)
Example C131_seven : ~ Nat.divide 7 num_tests /\ Nat.divide 12 num_tests.
Proof.
  unfold num_tests. split.
  - intros [k E]. apply (f_equal Z.of_nat) in E. rewrite Z2Nat.id in E by lia. lia.
  - exists (Z.to_nat 5000). change 12 with (Z.to_nat 12). now rewrite <- Z2Nat.inj_mul by lia.
Qed.
Example C131_example :
  exists i, new "mlp" (Some 2) "artificial" false = Ok i /\
  let kw := [("activation", VStr "relu"); ("solver", VStr "adam"); ("regressor", VStr "mlp"); ("learning_rate", VStr "constant");
             ("alpha", VFloat (1 # 100))]%string in
  candidate "mlp" (s_keys (i_set i)) kw /\ accepted (update (s_params (i_set i)) kw) = true /\
  learner_of (update (s_params (i_set i)) kw) = Ok (Mlp (VFloat (1 # 100)) (VStr "relu") (VStr "adam") (VStr "constant")) /\
  forgets (fun _ => @nil row) (fun _ x _ => Ok x).
Proof.
  eexists. split; [reflexivity|]. cbv zeta. split; [split|].
  - intros k. rewrite get_in. reflexivity.
  - intros v H _. now injection H as <-.
  - split; [reflexivity|]. split; [reflexivity|]. intros l s x y _. reflexivity.
Qed.

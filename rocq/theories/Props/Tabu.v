(** C40: the tabu list. *)
From Coq Require Import Arith Bool Lia List.
From Verif.Model Require Import Prelude Tabu.
Import ListNotations.

(** Specification: the values recorded so far, last first; only the last [n] count. *)
Definition recent (n : nat) (recorded : list nat) : list nat := firstn n recorded.
Record query : Type := mkquery { q_fails : nat; q_no_tabu : bool; q_inside : bool; q_cheap : bool; q_value : nat }.
Definition looks_up (n : nat) (q : query) : Prop := q_inside q = true /\ q_no_tabu q = false /\ 0 < n /\ q_fails q < 30.
Inductive answers (n : nat) (recorded : list nat) (q : query) : list nat -> nat -> bool -> Prop :=
| outside : q_inside q = false -> answers n recorded q recorded (q_fails q) false
| ignored : q_inside q = true -> ~ looks_up n q -> answers n recorded q recorded (q_fails q) (q_cheap q)
| refused : looks_up n q -> In (q_value q) (recent n recorded) -> answers n recorded q recorded (S (q_fails q)) false
| accepted : looks_up n q -> ~ In (q_value q) (recent n recorded) -> answers n recorded q (q_value q :: recorded) (q_fails q) (q_cheap q).
Definition ask (t : tabu) (q : query) : result (tabu * nat * bool) := check t (q_fails q) (q_no_tabu q) (q_inside q) (q_cheap q) (q_value q).
Fixpoint ask_all (t : tabu) (qs : list query) : result tabu :=
  match qs with [] => Ok t | q :: qs' => bind (ask t q) (fun r => ask_all (fst (fst r)) qs') end.
Inductive recorded_by (n : nat) : list query -> list nat -> list nat -> Prop :=
| rb_nil recorded : recorded_by n [] recorded recorded
| rb_cons q qs recorded recorded' recorded'' f b : answers n recorded q recorded' f b -> recorded_by n qs recorded' recorded'' ->
    recorded_by n (q :: qs) recorded recorded''.

(** The ring buffer *)
Definition inv (n : nat) (recorded : list nat) (t : tabu) : Prop :=
  tabu_length t = n /\ recent n recorded = rev (firstn (tabu_index t) (tabu_list t)) ++ rev (skipn (tabu_index t) (tabu_list t)) /\
  length (tabu_list t) <= n /\ (0 < n -> tabu_index t < n) /\ (length (tabu_list t) < n -> tabu_index t = length (tabu_list t)) /\
  NoDup (tabu_list t) /\ (forall v, In v (tabu_set t) <-> In v (tabu_list t)).
Lemma mem_In v l : mem v l = true <-> In v l.
Proof.
  unfold mem. rewrite existsb_exists. split.
  - intros (x & H & E). apply Nat.eqb_eq in E. now subst.
  - intros H. exists v. split; [assumption|apply Nat.eqb_refl].
Qed.
Lemma inv_recent n recorded t v : inv n recorded t -> (In v (tabu_set t) <-> In v (recent n recorded)).
Proof.
  intros (_ & E & _ & _ & _ & _ & H). rewrite H, E. rewrite in_app_iff, <- !in_rev. rewrite <- (firstn_skipn (tabu_index t) (tabu_list t)) at 1. now rewrite in_app_iff.
Qed.
Lemma firstn_S_cut (l : list nat) n v : firstn (S n) (v :: l) = v :: removelast (firstn (S n) l) \/ length l < S n.
Proof.
  destruct (le_lt_dec (S n) (length l)) as [H|H]; [left|now right]. cbn. f_equal. revert n H. induction l as [|x l IH]; intros n H; [cbn in H; lia|].
  cbn in H. destruct n; [now destruct l|]. specialize (IH n ltac:(lia)). change (firstn (S (S n)) (x :: l)) with (x :: firstn (S n) l). change (firstn (S n) (x :: l)) with (x :: firstn n l). rewrite IH.
  destruct l; [cbn in H; lia|]. reflexivity.
Qed.
Lemma record_inv n recorded t v : 0 < n -> inv n recorded t -> ~ In v (recent n recorded) -> exists t', tabu_record t v = Ok t' /\ inv n (v :: recorded) t'.
Proof.
  intros Hn Hi Hv. pose proof (inv_recent n recorded t v Hi) as Hr. destruct Hi as (Hl & E & Hlen & Hidx & Hfull & Hnd & Hset). specialize (Hidx Hn).
  assert (Hv' : ~ In v (tabu_list t)) by (rewrite <- Hset; tauto).
  unfold tabu_record. destruct (nth_error (tabu_list t) (tabu_index t)) as [old|] eqn:Eold.
  - assert (Hold : In old (tabu_list t)) by (eapply nth_error_In, Eold).
    assert (Hlt : tabu_index t < length (tabu_list t)) by (apply nth_error_Some; congruence).
    assert (Hn' : length (tabu_list t) = n) by lia.
    assert (Hm : mem old (v :: tabu_set t) = true) by (apply mem_In; right; now apply Hset). rewrite Hm. eexists. split; [reflexivity|].
    assert (Hsplit : tabu_list t = firstn (tabu_index t) (tabu_list t) ++ old :: skipn (S (tabu_index t)) (tabu_list t)).
    { rewrite <- (firstn_skipn (tabu_index t) (tabu_list t)) at 1. f_equal. clear - Eold. revert Eold. generalize (tabu_index t). induction (tabu_list t) as [|x l IH]; intros [|i] H; try discriminate; cbn in *; [congruence|]. now apply IH. }
    assert (Hsk : skipn (tabu_index t) (tabu_list t) = old :: skipn (S (tabu_index t)) (tabu_list t)).
    { rewrite <- (firstn_skipn (tabu_index t) (tabu_list t)) in Hsplit at 1. now apply app_inv_head in Hsplit. }
    set (i := tabu_index t) in *. set (l := tabu_list t) in *.
    assert (Hfi : length (firstn i l) = i) by (rewrite firstn_length; lia).
    assert (Hlen' : length (set_nth i v l) = n). { unfold set_nth. rewrite app_length, Hfi. cbn [length]. rewrite skipn_length. lia. }
    assert (Hnd' : NoDup (firstn i l ++ skipn (S i) l) /\ ~ In old (firstn i l ++ skipn (S i) l)) by (rewrite Hsplit in Hnd; now apply NoDup_remove in Hnd).
    unfold inv. cbn [tabu_length tabu_list tabu_index tabu_set]. rewrite Hl. split; [reflexivity|]. split; [|split; [lia|]; split; [intros _; apply Nat.mod_upper_bound; lia|]; split; [lia|]; split].
    + (* recent *)
      assert (Hrec : recent n (v :: recorded) = v :: removelast (recent n recorded)).
      { unfold recent in *. destruct n; [lia|]. destruct (firstn_S_cut recorded n v) as [H|H]; [exact H|]. exfalso.
        assert (length (firstn (S n) recorded) = length l) by (rewrite E, app_length, !rev_length, <- app_length, firstn_skipn; reflexivity). rewrite firstn_length in H0. lia. }
      rewrite Hrec, E, Hsk. cbn [rev]. rewrite app_assoc, removelast_last.
      destruct (Nat.eq_dec (i + 1) n) as [Hw|Hw].
      * rewrite Hw, Nat.mod_same by lia. cbn [firstn rev app]. change (skipn 0 (set_nth i v l)) with (set_nth i v l). unfold set_nth.
        rewrite (skipn_all2 l (n:=S i)) by lia. cbn. rewrite rev_app_distr. cbn. now rewrite app_nil_r.
      * rewrite Nat.mod_small by lia. unfold set_nth.
        assert (E1 : firstn (i + 1) (firstn i l ++ v :: skipn (S i) l) = firstn i l ++ [v]).
        { rewrite firstn_app, Hfi. replace (i + 1 - i) with 1 by lia. rewrite firstn_firstn, Nat.min_r by lia. reflexivity. }
        assert (E2 : skipn (i + 1) (firstn i l ++ v :: skipn (S i) l) = skipn (S i) l).
        { rewrite skipn_app, Hfi. replace (i + 1 - i) with 1 by lia. rewrite skipn_all2 by lia. reflexivity. }
        rewrite E1, E2, rev_app_distr. reflexivity.
    + unfold set_nth. apply NoDup_Add with (a := v) (l := firstn i l ++ skipn (S i) l); [apply Add_app|]. split; [tauto|]. intros H. apply Hv'. rewrite Hsplit. rewrite in_app_iff in *. cbn. tauto.
    + intros u. cbn [remove_one filter]. destruct (Nat.eqb v old) eqn:Evo; [apply Nat.eqb_eq in Evo; subst; tauto|]. cbn [negb]. unfold remove_one, set_nth.
      rewrite in_app_iff. cbn [In]. rewrite filter_In, Hset. rewrite negb_true_iff, Nat.eqb_neq. rewrite Hsplit at 1. rewrite in_app_iff. cbn [In].
      destruct Hnd' as (_ & Hno). rewrite in_app_iff in Hno. split.
      * intros [H|([H|[H|H]] & Hne)]; auto. congruence.
      * intros [H|[H|H]]; [|auto|]; (right; split; [tauto|]; intros ->; tauto).
  - apply nth_error_None in Eold. assert (Hi' : tabu_index t = length (tabu_list t)). { destruct (le_lt_dec n (length (tabu_list t))); [lia|auto]. }
    rewrite Hi', Nat.eqb_refl. eexists. split; [reflexivity|]. set (l := tabu_list t) in *. rewrite Hl.
    rewrite Hi' in E. rewrite firstn_all, skipn_all, app_nil_r in E.
    assert (Hrec : recorded = rev l). { unfold recent in E. rewrite <- E. symmetry. apply firstn_all2. assert (length (firstn n recorded) = length l) by (rewrite E; apply rev_length). rewrite firstn_length in H. lia. }
    unfold inv. cbn [tabu_length tabu_list tabu_index tabu_set]. split; [reflexivity|]. rewrite app_length. cbn [length]. split; [|split; [lia|]; split; [intros _; apply Nat.mod_upper_bound; lia|]; split; [intros H; rewrite Nat.mod_small by lia; reflexivity|]; split].
    + unfold recent. rewrite firstn_all2 by (cbn; rewrite Hrec, rev_length; lia). rewrite Hrec.
      destruct (Nat.eq_dec (length l + 1) n) as [Hw|Hw].
      * rewrite Hw, Nat.mod_same by lia. cbn. now rewrite rev_app_distr.
      * rewrite Nat.mod_small by lia. rewrite firstn_all2, skipn_all2 by (rewrite app_length; cbn; lia). cbn. rewrite app_nil_r, rev_app_distr. reflexivity.
    + apply NoDup_Add with (a := v) (l := l); [|split; assumption]. pose proof (Add_app v l []) as H. now rewrite app_nil_r in H.
    + intros u. rewrite in_app_iff. cbn [In]. rewrite Hset. fold l. tauto.
Qed.
Lemma ask_spec n recorded t q : inv n recorded t -> exists t' recorded' f b, ask t q = Ok (t', f, b) /\ answers n recorded q recorded' f b /\ inv n recorded' t'.
Proof.
  intros Hi. pose proof (inv_recent n recorded t (q_value q) Hi) as Hr. pose proof Hi as (Hl & _). unfold ask, check. destruct (q_inside q) eqn:Ein; cbn [negb].
  2:{ eexists t, recorded, _, _. repeat split; try assumption; try apply Hi. now apply outside. }
  destruct (negb (q_no_tabu q) && (0 <? tabu_length t) && (q_fails q <? 30)) eqn:Elook.
  - apply andb_true_iff in Elook as (Elook & E3). apply andb_true_iff in Elook as (E1 & E2). apply Nat.ltb_lt in E2, E3. apply negb_true_iff in E1.
    assert (Hlook : looks_up n q) by (unfold looks_up; rewrite <- Hl; auto). destruct (mem (q_value q) (tabu_set t)) eqn:Em.
    + apply mem_In in Em. eexists t, recorded, _, _. split; [reflexivity|]. split; [|exact Hi]. rewrite Nat.add_1_r. apply refused; tauto.
    + assert (Hno : ~ In (q_value q) (recent n recorded)). { rewrite <- Hr, <- mem_In. congruence. }
      destruct (record_inv n recorded t (q_value q)) as (t' & E & Hi'); [lia|exact Hi|exact Hno|]. rewrite E. eexists t', _, _, _. split; [reflexivity|]. split; [|exact Hi']. now apply accepted.
  - eexists t, recorded, _, _. split; [reflexivity|]. split; [|exact Hi]. apply ignored; [assumption|]. intros (_ & H1 & H2 & H3). rewrite H1, Hl in Elook. cbn [negb andb] in Elook.
    apply Nat.ltb_lt in H2, H3. rewrite H2, H3 in Elook. discriminate.
Qed.
Lemma new_inv n : inv n [] (tabu_new n).
Proof. unfold inv, recent. cbn. rewrite firstn_nil. repeat split; try lia; try tauto; try constructor. Qed.
Lemma ask_all_spec n qs : forall recorded t, inv n recorded t -> exists t' recorded', ask_all t qs = Ok t' /\ recorded_by n qs recorded recorded' /\ inv n recorded' t'.
Proof.
  induction qs as [|q qs IH]; intros recorded t Hi; [exists t, recorded; repeat split; try apply Hi; constructor|].
  destruct (ask_spec n recorded t q Hi) as (t1 & r1 & f & b & E & Ha & H1). destruct (IH r1 t1 H1) as (t2 & r2 & E2 & H2 & H3).
  exists t2, r2. cbn. rewrite E. cbn. split; [exact E2|]. split; [econstructor; eassumption|exact H3].
Qed.
(** From an empty list of constant length [n], any queries are answered without error, as specified: a value is refused
    exactly when it is among the last [n] recorded, unless the candidate failed 30 times. The reference holds
    exactly these values. *)
Theorem C40_tabu (n : nat) (before : list query) (q : query) :
  exists t recorded, ask_all (tabu_new n) before = Ok t /\ recorded_by n before [] recorded /\
    (forall v, In v (tabu_set t) <-> In v (recent n recorded)) /\
    exists t' recorded' f b, ask t q = Ok (t', f, b) /\ answers n recorded q recorded' f b /\ (forall v, In v (tabu_set t') <-> In v (recent n recorded')).
Proof.
  destruct (ask_all_spec n before [] (tabu_new n) (new_inv n)) as (t & recorded & E & Hr & Hi). exists t, recorded. split; [exact E|]. split; [exact Hr|].
  split; [intros v; now apply inv_recent|]. destruct (ask_spec n recorded t q Hi) as (t' & r' & f & b & E' & Ha & Hi'). exists t', r', f, b. split; [exact E'|]. split; [exact Ha|].
  intros v. now apply inv_recent.
Qed.
(** Memory stays bounded. *)
Theorem C40_bounded (n : nat) (qs : list query) (t : tabu) : ask_all (tabu_new n) qs = Ok t -> length (tabu_list t) <= n.
Proof. intros E. destruct (ask_all_spec n qs [] (tabu_new n) (new_inv n)) as (t' & r & E' & _ & Hi). rewrite E in E'. injection E' as <-. apply Hi. Qed.
(** The list as specified, run on an example: length 2, the values 1 2 1 3 1. *)
Definition plain (v : nat) : query := mkquery 0 false true true v.
Example C40_example : map (fun i => match ask_all (tabu_new 2) (map plain (firstn i [1; 2; 1; 3])) with Ok t => match ask t (plain (nth i [1; 2; 1; 3; 1] 0)) with Ok (_, _, b) => b | Err _ => false end | Err _ => false end) [0; 1; 2; 3; 4]
  = [true; true; false; true; true].
Proof. reflexivity. Qed.
(** Findings. A value violating the registered constraints enters the list, and pushes out older values. *)
Theorem C40_violating_recorded_refuted : exists t, ask_all (tabu_new 1) [plain 1; mkquery 0 false true false 2] = Ok t /\
  exists t' f, ask t (plain 1) = Ok (t', f, true).
Proof. eexists. split; [reflexivity|]. eexists _, _. reflexivity. Qed.
(** Asking twice about the same value: the answer changes. *)
Theorem C40_not_idempotent_refuted (n : nat) (before : list query) (t t' : tabu) (q : query) (f : nat) :
  ask_all (tabu_new n) before = Ok t -> 0 < n -> q_no_tabu q = false -> ask t q = Ok (t', f, true) -> q_fails q < 30 ->
  exists f', ask t' q = Ok (t', f', false).
Proof.
  intros E Hn Hq Ea Hf. destruct (ask_all_spec n before [] (tabu_new n) (new_inv n)) as (t0 & recorded & E0 & _ & Hi). rewrite E in E0. injection E0 as <-.
  destruct (ask_spec n recorded t q Hi) as (t1 & r1 & f1 & b1 & E1 & Ha & Hi1). rewrite Ea in E1. injection E1 as <- <- <-.
  assert (Hin : In (q_value q) (recent n r1) /\ q_inside q = true).
  { inversion Ha as [H|H Hno|H Hin|H Hno]; subst.
    - exfalso. apply Hno. unfold looks_up. intuition congruence.
    - destruct H as (H & _). split; [|congruence]. unfold recent. destruct n; [lia|]. now left. }
  destruct Hin as (Hin & Hins). apply (inv_recent n r1 t' (q_value q) Hi1) in Hin. apply mem_In in Hin. unfold ask, check. rewrite Hins, Hq. cbn [negb].
  assert (Hl : tabu_length t' = n) by apply Hi1. rewrite Hl. apply Nat.ltb_lt in Hn, Hf. rewrite Hn, Hf. cbn. rewrite Hin. eauto.
Qed.
(** After reducing the length, some values stay in the list for ever: with length 2, the values 1 and 2, then length 1, the
    value 2 is refused whatever happens next. *)
Theorem C40_shorter_refuted (qs : list query) (t t' : tabu) : ask_all (tabu_new 2) [plain 1; plain 2] = Ok t ->
  ask_all (specify_tabu_length t 1) qs = Ok t' -> exists t'' f, ask t' (plain 2) = Ok (t'', f, false).
Proof.
  intros E. cbn in E. injection E as <-. unfold specify_tabu_length. cbn.
  assert (H : forall s a t', NoDup (a :: [2]) -> (forall v, In v s <-> In v [a; 2]) -> ask_all (mktabu 1 s [a; 2] 0) qs = Ok t' -> exists s a, t' = mktabu 1 s [a; 2] 0 /\ (forall v, In v s <-> In v [a; 2])).
  { induction qs as [|q qs IH]; intros s a t1 Hnd Hs Eq; cbn [ask_all] in Eq; [injection Eq as <-; eauto|]. unfold ask, check in Eq.
    destruct (q_inside q); cbn [negb bind fst] in Eq; [|eauto]. destruct (negb (q_no_tabu q) && _ && _); cbn [bind fst] in Eq; [|eauto].
    destruct (mem (q_value q) (tabu_set _)) eqn:Em; cbn [bind fst] in Eq; [eauto|]. cbn [tabu_set] in Em. unfold tabu_record in Eq. cbn [tabu_list tabu_index nth_error tabu_set tabu_length] in Eq.
    assert (Hv : ~ In (q_value q) [a; 2]). { rewrite <- Hs, <- mem_In. congruence. }
    destruct (mem a (q_value q :: s)) eqn:Ea; cbn [bind fst] in Eq; [|discriminate]. apply (IH _ (q_value q)) in Eq; [exact Eq| |].
    - constructor; [intros [H|[]]; apply Hv; right; now left|]. constructor; [now intros []|constructor].
    - intros v. cbn [remove_one filter]. destruct (Nat.eqb (q_value q) a) eqn:E1; [apply Nat.eqb_eq in E1; exfalso; apply Hv; left; congruence|]. cbn [negb In]. unfold remove_one. rewrite filter_In, Hs, negb_true_iff, Nat.eqb_neq. cbn [In].
      inversion Hnd as [|? ? H1 H2]; subst. cbn in H1. split.
      + intros [H|([H|[H|[]]] & H3)]; [auto|congruence|auto].
      + intros [H|[H|[]]]; [auto|]. right. split; [tauto|]. intros ->. apply H1. left. congruence. }
  intros E. apply (H [2; 1] 1) in E as (s & a & -> & Hs).
  - unfold ask, check, plain. cbn [q_fails q_no_tabu q_inside q_cheap q_value negb andb tabu_length tabu_set Nat.ltb Nat.leb]. assert (Hm : mem 2 s = true) by (apply mem_In, Hs; cbn; tauto). rewrite Hm. eauto.
  - constructor; [intros [H1|[]]; discriminate|]. constructor; [now intros []|constructor].
  - intros v. cbn. tauto.
Qed.
Print Assumptions C40_tabu.

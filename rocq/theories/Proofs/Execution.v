From Coq Require Import Arith QArith Bool Lia Lqa Permutation Sorted List.
From Verif.Model Require Import Prelude MultiValue Execution.
From Verif.Proofs Require Import MultiValue.
Import ListNotations.
Open Scope Q_scope.

Lemma qmax_ub a b : a <= qmax a b /\ b <= qmax a b /\ (qmax a b = a \/ qmax a b = b).
Proof.
  unfold qmax. destruct (qlt a b) eqn:E; [apply qlt_iff in E; repeat split; [lra|lra|auto]|]. assert (~ a < b) by (rewrite <- qlt_iff; congruence). repeat split; [lra|lra|auto].
Qed.
Lemma nth_replace {A} (l : list A) j x : (j < length l)%nat -> forall i, nth_error (firstn j l ++ x :: skipn (S j) l) i = if Nat.eqb i j then Some x else nth_error l i.
Proof.
  revert j. induction l as [|a l IH]; intros [|j] H [|i]; cbn in *; try lia; try reflexivity. apply IH. lia.
Qed.
Lemma length_replace {A} (l : list A) j x : (j < length l)%nat -> length (firstn j l ++ x :: skipn (S j) l) = length l.
Proof. intros H. rewrite app_length. cbn [length]. rewrite firstn_length, skipn_length. lia. Qed.

Section Proofs.
Context {V : Type}.
Variable eval : nat -> result (V * option Q).
Local Notation exec := (exec (V := V)).
Definition delay (j : nat) : Q := match eval j with Ok (_, None) => 1 | Ok (_, Some t) => qmax 0 t | Err _ => 0 end.
Lemma delay_nonneg j : 0 <= delay j.
Proof. unfold delay. destruct (eval j) as [[v [t|]]|]; [apply qmax_ub|lra|lra]. Qed.
Definition tm (st : exec) (j : nat) : Q := match nth_error (jobs st) j with Some x => j_time x | None => 0 end.
Definition rel (st : exec) (j : nat) : Q := delay j + tm st j.
Definition lexrel (st : exec) (i j : nat) : Prop := rel st i < rel st j \/ (rel st i == rel st j /\ (i < j)%nat).
Definition settled (j : nat) (o : option (V * Q)) : Prop := match o with None => True | Some (v, d) => exists pt, eval j = Ok (v, pt) /\ d = delay j end.
Record upd (st st' : exec) : Prop := {
  u_batch : batch_mode st' = batch_mode st; u_queue : to_be_processed st' = to_be_processed st; u_heap : heap st' = heap st;
  u_order : order st' = order st; u_time : time st' = time st; u_len : length (jobs st') = length (jobs st);
  u_jobs : forall i x, nth_error (jobs st) i = Some x -> exists x', nth_error (jobs st') i = Some x' /\ j_time x' = j_time x /\ j_read x' = j_read x /\
    (j_value x' = j_value x \/ settled i (j_value x') /\ j_value x' <> None) }.
Lemma upd_refl st : upd st st.
Proof. split; try reflexivity. intros i x H. exists x. auto. Qed.
Lemma upd_tm st st' : upd st st' -> forall j, tm st' j = tm st j.
Proof.
  intros [_ _ _ _ _ Hl Hj] j. unfold tm. destruct (nth_error (jobs st) j) as [x|] eqn:E.
  - destruct (Hj j x E) as (x' & E' & Ht & _). now rewrite E'.
  - apply nth_error_None in E. assert (E' : nth_error (jobs st') j = None) by (apply nth_error_None; lia). now rewrite E'.
Qed.
Lemma process_upd st j st' r : process eval st j = (st', r) -> upd st st' /\
  (r = None -> exists x v, nth_error (jobs st') j = Some x /\ j_value x = Some v) /\
  (r <> None -> (nth_error (jobs st) j = None \/ exists e, eval j = Err e) /\ jobs st' = jobs st) /\
  ((forall x, nth_error (jobs st) j = Some x -> settled j (j_value x)) -> forall x, nth_error (jobs st') j = Some x -> settled j (j_value x)).
Proof.
  unfold process. destruct (nth_error (jobs st) j) as [x|] eqn:E.
  - destruct (j_value x) as [v|] eqn:Ev.
    + intros H. injection H as <- <-. split; [apply upd_refl|]. split; [|split]; [eauto|congruence|]. intros Hx x' Hx'. apply Hx. congruence.
    + assert (Hlt : (j < length (jobs st))%nat) by (apply nth_error_Some; congruence). destruct (eval j) as [[v pt]|e] eqn:Ee.
      * intros H. injection H as <- <-. set (d := match pt with None => 1 | Some t => qmax 0 t end).
        assert (Hs : settled j (Some (v, d))) by (exists pt; split; [exact Ee|]; unfold delay, d; rewrite Ee; now destruct pt).
        split; [|split; [|split]].
        -- split; unfold set_job; cbn [batch_mode jobs to_be_processed heap order time]; try reflexivity; [now apply length_replace|]. intros i y Hy. rewrite nth_replace by assumption. destruct (Nat.eqb_spec i j) as [->|Hne].
           ++ rewrite E in Hy. injection Hy as <-. eexists. split; [reflexivity|]. cbn. repeat split. right. split; [exact Hs|discriminate].
           ++ exists y. auto.
        -- intros _. unfold set_job; cbn [batch_mode jobs to_be_processed heap order time]. rewrite nth_replace by assumption. rewrite Nat.eqb_refl. eexists. eexists. split; reflexivity.
        -- congruence.
        -- intros _ x' Hx'. unfold set_job in Hx'. cbn [jobs] in Hx'. rewrite nth_replace, Nat.eqb_refl in Hx' by assumption. injection Hx' as <-. exact Hs.
      * intros H. injection H as <- <-. split; [|split; [|split]]; [|discriminate|cbn; eauto|].
        -- split; cbn; try reflexivity. intros i y Hy. exists y. auto.
        -- intros Hx x' Hx'. cbn in Hx'. apply Hx. congruence.
  - intros H. injection H as <- <-. split; [apply upd_refl|]. split; [discriminate|]. split; [auto|]. intros _ x' Hx'. congruence.
Qed.

Record Inv (st : exec) (reads : list nat) : Prop := {
  i_batch : batch_mode st = false;
  i_queue : to_be_processed st = seq (order st) (length (jobs st) - order st) /\ (order st <= length (jobs st))%nat;
  i_settled : forall j x, nth_error (jobs st) j = Some x -> settled j (j_value x);
  i_processed : forall j, (j < order st)%nat -> exists x v, nth_error (jobs st) j = Some x /\ j_value x = Some v;
  i_heap : Forall (fun e => fst e = (rel st (snd e), snd e)) (heap st);
  i_perm : Permutation (map snd (heap st) ++ reads) (seq 0 (order st));
  i_sorted : StronglySorted (lexrel st) (map snd (heap st));
  i_reads : StronglySorted (lexrel st) reads;
  i_cross : forall r h, In r reads -> In h (map snd (heap st)) -> lexrel st r h;
  i_read : forall j x, nth_error (jobs st) j = Some x -> (j_read x = true <-> In j reads);
  i_time : 0 <= time st /\ (forall r, In r reads -> rel st r <= time st) /\ (time st == 0 \/ exists r, In r reads /\ time st == rel st r);
  i_tm : forall j, (j < length (jobs st))%nat -> tm st j <= time st;
  i_late : forall j, (order st <= j < length (jobs st))%nat -> forall r, In r reads -> rel st r <= tm st j }.
Lemma sorted_ext (R R' : nat -> nat -> Prop) l : (forall a b, R a b -> R' a b) -> StronglySorted R l -> StronglySorted R' l.
Proof. intros H. induction 1 as [|a l H1 IH H2]; constructor; [exact IH|]. eapply Forall_impl; [|exact H2]. auto. Qed.
Lemma upd_inv st st' reads : upd st st' -> (forall j x, nth_error (jobs st') j = Some x -> settled j (j_value x)) -> Inv st reads -> Inv st' reads.
Proof.
  intros Hu Hset [H1 H2 H3 H4 H5 H6 H7 H8 H9 H10 H11 H12 H13]. pose proof (upd_tm st st' Hu) as Ht. pose proof Hu as [U1 U2 U3 U4 U5 U6 U7].
  assert (Hr : forall j, rel st' j = rel st j) by (intros j; unfold rel; now rewrite Ht).
  assert (Hl : forall a b, lexrel st a b -> lexrel st' a b) by (intros a b; unfold lexrel; now rewrite !Hr).
  split; rewrite ?U1, ?U2, ?U3, ?U4, ?U5, ?U6; auto.
  - intros j Hj. destruct (H4 j Hj) as (x & v & Hx & Hv). destruct (U7 j x Hx) as (x' & Hx' & _ & _ & [Hv'|(_ & Hv')]); [exists x', v; split; congruence|]. destruct (j_value x') as [v'|] eqn:Ev; [|congruence]. exists x', v'. auto.
  - eapply Forall_impl; [|exact H5]. intros e He. now rewrite Hr.
  - eapply sorted_ext; eauto.
  - eapply sorted_ext; eauto.
  - intros j x' Hx'. assert (Hlt : (j < length (jobs st))%nat) by (rewrite <- U6; apply nth_error_Some; congruence). destruct (nth_error (jobs st) j) as [x|] eqn:Ex; [|apply nth_error_None in Ex; lia].
    destruct (U7 j x Ex) as (x'' & Hx'' & _ & Hrd & _). rewrite Hx' in Hx''. injection Hx'' as <-. rewrite Hrd. now apply H10.
  - destruct H11 as (A & B & C). split; [exact A|]. split; [intros r Hin; rewrite Hr; auto|]. destruct C as [C|(r & C1 & C2)]; [now left|right]. exists r. now rewrite Hr.
  - intros j Hj. rewrite Ht. auto.
  - intros j Hj r Hin. rewrite Hr, Ht. auto.
Qed.
Lemma upd_settled st st' : upd st st' -> (forall j x, nth_error (jobs st) j = Some x -> settled j (j_value x)) -> forall j x, nth_error (jobs st') j = Some x -> settled j (j_value x).
Proof.
  intros Hu H j x' Hx'. pose proof Hu as [U1 U2 U3 U4 U5 U6 U7]. assert (Hlt : (j < length (jobs st))%nat) by (rewrite <- U6; apply nth_error_Some; congruence). destruct (nth_error (jobs st) j) as [x|] eqn:Ex; [|apply nth_error_None in Ex; lia].
  destruct (U7 j x Ex) as (x'' & Hx'' & _ & _ & Hv). rewrite Hx' in Hx''. injection Hx'' as <-. destruct Hv as [Hv|(Hv & _)]; [|exact Hv]. rewrite Hv. now apply (H j x).
Qed.
Lemma process_inv st j st' r reads : process eval st j = (st', r) -> Inv st reads -> Inv st' reads.
Proof. intros E HI. destruct (process_upd st j st' r E) as (Hu & _). eapply upd_inv; [exact Hu|eapply upd_settled; [exact Hu|apply HI]|exact HI]. Qed.
(** Pushing on the heap *)
Lemma entry_lt_iff (st : exec) i j : entry_lt (rel st i, i, i) (rel st j, j, j) = true <-> lexrel st i j.
Proof.
  unfold entry_lt, lexrel. rewrite orb_true_iff, andb_true_iff, qlt_iff, Qeq_bool_iff, Nat.ltb_lt. tauto.
Qed.
Lemma push_perm h a : Permutation (heappush h a) (a :: h).
Proof. induction h as [|b h IH]; cbn; [reflexivity|]. destruct (entry_lt a b); [reflexivity|]. rewrite IH. apply perm_swap. Qed.
Lemma lexrel_trans st a b c : lexrel st a b -> lexrel st b c -> lexrel st a c.
Proof. unfold lexrel. intros [H|(H & H')] [H2|(H2 & H2')]; [left; lra|left; lra|left; lra|right; split; [lra|lia]]. Qed.
Lemma lexrel_total st a b : a <> b -> lexrel st a b \/ lexrel st b a.
Proof. intros H. unfold lexrel. destruct (Q_dec (rel st a) (rel st b)) as [[H1|H1]|H1]; [tauto|tauto|]. destruct (Nat.lt_total a b) as [H2|[H2|H2]]; [left; right; auto|congruence|right; right; split; [now symmetry|exact H2]]. Qed.
Lemma push_sorted st h j : Forall (fun e => fst e = (rel st (snd e), snd e)) h -> ~ In j (map snd h) -> StronglySorted (lexrel st) (map snd h) ->
  StronglySorted (lexrel st) (map snd (heappush h (rel st j, j, j))).
Proof.
  induction h as [|b h IH]; intros Hf Hn Hs; cbn [heappush]; [cbn; repeat constructor|]. inversion Hf as [|? ? Hb Hf']; subst. cbn in Hs. inversion Hs as [|? ? Hs1 Hs2]; subst.
  destruct b as [[r o] jb]. cbn in Hb. injection Hb as -> ->. destruct (entry_lt (rel st j, j, j) (rel st jb, jb, jb)) eqn:E.
  - apply entry_lt_iff in E. cbn [map snd]. constructor; [exact Hs|]. constructor; [exact E|]. eapply Forall_impl; [|exact Hs2]. intros k Hk. eapply lexrel_trans; eauto.
  - assert (Hlt : lexrel st jb j). { destruct (lexrel_total st j jb) as [H|H]; [intros ->; apply Hn; now left|apply entry_lt_iff in H; congruence|exact H]. }
    cbn [map snd]. constructor; [apply IH; [exact Hf'|intros H; apply Hn; now right|exact Hs1]|]. apply Forall_forall. intros k Hk. apply in_map_iff in Hk as (e & <- & He). apply (Permutation_in _ (push_perm h _)) in He as [<-|He]; [exact Hlt|].
    rewrite Forall_forall in Hs2. apply Hs2. now apply in_map.
Qed.
Lemma loop_inv n : forall st st' r reads, (length (to_be_processed st) <= n)%nat -> submissions_loop eval n st = (st', r) -> Inv st reads ->
  Inv st' reads /\ length (jobs st') = length (jobs st) /\ time st' = time st /\ (forall j, tm st' j = tm st j) /\ (r = None -> order st' = length (jobs st') /\ to_be_processed st' = []) /\
  ((forall j, exists v, eval j = Ok v) -> r = None).
Proof.
  induction n as [|n IH]; intros st st' r reads Hn E HI.
  - cbn in E. injection E as <- <-. split; [exact HI|]. do 3 (split; [reflexivity|]). split; [intros _|reflexivity]. destruct HI as [_ (Hq & Hle) _ _ _ _ _ _ _ _ _ _ _]; rewrite Hq, seq_length in Hn. split; [lia|]. rewrite Hq. replace (length (jobs st) - order st)%nat with 0%nat by lia. reflexivity.
  - cbn [submissions_loop] in E. destruct (to_be_processed st) as [|j rest] eqn:Eq.
    + injection E as <- <-. split; [exact HI|]. do 3 (split; [reflexivity|]). split; [intros _|reflexivity]. split; [|exact Eq]. destruct HI as [_ (Hq & Hle) _ _ _ _ _ _ _ _ _ _ _]. rewrite Eq in Hq. assert (Hl : length (seq (order st) (length (jobs st) - order st)) = 0%nat) by now rewrite <- Hq. rewrite seq_length in Hl. lia.
    + destruct (process eval st j) as [st1 o] eqn:Ep. pose proof (process_inv _ _ _ _ _ Ep HI) as HI1. destruct (process_upd _ _ _ _ Ep) as (Hu & Hok & Hko & _). pose proof (upd_tm _ _ Hu) as Htm. pose proof Hu as [U1 U2 U3 U4 U5 U6 U7]. destruct o as [e|].
      * injection E as <- <-. split; [exact HI1|]. split; [exact U6|]. split; [exact U5|]. split; [exact Htm|]. split; [discriminate|]. intros Htot. exfalso. destruct (Hko ltac:(discriminate)) as ([H0|(e' & H0)] & _).
        -- destruct HI as [_ (Hq & Hle) _ _ _ _ _ _ _ _ _ _ _]. assert (Hin : In j (seq (order st) (length (jobs st) - order st))) by (rewrite <- Hq, Eq; now left). apply in_seq in Hin. apply nth_error_None in H0. lia.
        -- destruct (Htot j) as (v & Hv). congruence.
      * destruct (Hok eq_refl) as (x & v & Hx & Hv). destruct v as [v d]. unfold release_time in E. rewrite Hx, Hv in E. rewrite (i_batch _ _ HI1) in E.
        pose proof HI1 as [H1 (Hq & Hle) H3 H4 H5 H6 H7 H8 H9 H10 H11 H12 H13]. rewrite U2, Eq in Hq.
        assert (Hlt : (order st1 < length (jobs st1))%nat). { destruct (le_lt_dec (length (jobs st1)) (order st1)) as [H|H]; [|exact H]. replace (length (jobs st1) - order st1)%nat with 0%nat in Hq by lia. discriminate. }
        destruct (length (jobs st1) - order st1)%nat as [|k] eqn:Ek; [lia|]. cbn [seq] in Hq. injection Hq as -> Hrest.
        assert (Hd : d + j_time x = rel st1 (order st1)). { specialize (H3 _ _ Hx). rewrite Hv in H3. destruct H3 as (pt & _ & ->). unfold rel, tm. now rewrite Hx. }
        rewrite Hd in E. set (st2 := mkexec false _ rest _ _ _ _) in E.
        assert (Hnot : ~ In (order st1) (map snd (heap st1)) /\ ~ In (order st1) reads).
        { assert (Hno : ~ In (order st1) (map snd (heap st1) ++ reads)) by (rewrite H6, in_seq; lia). rewrite in_app_iff in Hno. tauto. }
        assert (HI2 : Inv st2 reads).
        { split; cbn [batch_mode to_be_processed jobs order heap time st2].
          - reflexivity.
          - split; [|lia]. rewrite Hrest. f_equal. lia.
          - exact H3.
          - intros i Hi. destruct (Nat.eq_dec i (order st1)) as [->|Hne]; [exists x, (v, d); auto|]. apply H4. lia.
          - apply Forall_forall. intros e He. apply (Permutation_in _ (push_perm (heap st1) _)) in He as [<-|He]; [reflexivity|]. rewrite Forall_forall in H5. now apply H5.
          - rewrite seq_S. cbn [Nat.add]. rewrite (Permutation_map snd (push_perm (heap st1) _)). cbn [map snd app]. rewrite H6. apply Permutation_cons_append.
          - exact (push_sorted st1 _ _ H5 (proj1 Hnot) H7).
          - exact H8.
          - intros r0 h Hr0 Hh. apply in_map_iff in Hh as (e & <- & He). apply (Permutation_in _ (push_perm (heap st1) _)) in He as [<-|He]; [|apply H9; [exact Hr0|now apply in_map]]. cbn [snd].
            assert (Hr : rel st1 r0 <= tm st1 (order st1)) by (apply H13; [lia|exact Hr0]). pose proof (delay_nonneg (order st1)) as Hdn.
            assert (Hlo : (r0 < order st1)%nat). { assert (Hin : In r0 (seq 0 (order st1))) by (rewrite <- H6; apply in_or_app; now right). apply in_seq in Hin. lia. }
            change (lexrel st1 r0 (order st1)). unfold lexrel. assert (Hre : rel st1 (order st1) == delay (order st1) + tm st1 (order st1)) by reflexivity.
            destruct (Qlt_le_dec (rel st1 r0) (rel st1 (order st1))) as [Hl|Hl]; [now left|right]. split; [lra|exact Hlo].
          - exact H10.
          - exact H11.
          - exact H12.
          - intros i Hi. apply H13. lia. }
        destruct (IH st2 st' r reads) as (A & B & C & D & F & G); [cbn in Hn |- *; lia|exact E|exact HI2|]. split; [exact A|]. split; [rewrite B; exact U6|]. split; [rewrite C; exact U5|]. split; [intros i; rewrite D; apply (Htm i)|]. auto.
Qed.

Lemma inv_new : Inv (new_exec false) [].
Proof.
  split; cbn.
  - reflexivity.
  - split; [reflexivity|lia].
  - intros [|j] x H; discriminate.
  - lia.
  - constructor.
  - constructor.
  - constructor.
  - constructor.
  - intros r h [].
  - intros [|j] x H; discriminate.
  - split; [lra|]. split; [intros r []|left; reflexivity].
  - lia.
  - lia.
Qed.
Lemma submit_inv st st' j reads : submit st = (st', j) -> Inv st reads -> Inv st' reads /\ j = length (jobs st) /\ length (jobs st') = S (length (jobs st)) /\ time st' = time st /\
  (forall i, (i < length (jobs st))%nat -> tm st' i = tm st i).
Proof.
  intros E [H1 (Hq & Hle) H3 H4 H5 H6 H7 H8 H9 H10 H11 H12 H13]. unfold submit in E. injection E as <- <-. set (st' := mkexec _ _ _ _ _ _ _).
  assert (Hold : forall i, (i < length (jobs st))%nat -> nth_error (jobs st') i = nth_error (jobs st) i) by (intros i Hi; cbn; now rewrite nth_error_app1).
  assert (Htm : forall i, (i < length (jobs st))%nat -> tm st' i = tm st i) by (intros i Hi; unfold tm; now rewrite Hold).
  assert (Hnew : nth_error (jobs st') (length (jobs st)) = Some (mkjob (time st) None false)) by (cbn; now rewrite nth_error_app2, Nat.sub_diag).
  assert (Hlen : length (jobs st') = S (length (jobs st))) by (cbn; rewrite app_length; cbn; lia).
  assert (Hrel : forall i, (i < length (jobs st))%nat -> rel st' i = rel st i) by (intros i Hi; unfold rel; now rewrite Htm).
  assert (Hin : forall i, In i (map snd (heap st) ++ reads) -> (i < length (jobs st))%nat) by (intros i Hi; rewrite H6 in Hi; apply in_seq in Hi; lia).
  assert (Hh : forall i, In i (map snd (heap st)) -> (i < length (jobs st))%nat) by (intros i Hi; apply Hin, in_or_app; now left).
  assert (Hr : forall i, In i reads -> (i < length (jobs st))%nat) by (intros i Hi; apply Hin, in_or_app; now right).
  assert (Hlex : forall a b, (a < length (jobs st))%nat -> (b < length (jobs st))%nat -> lexrel st a b -> lexrel st' a b) by (intros a b Ha Hb; unfold lexrel; now rewrite !Hrel).
  assert (Hsort : forall l, (forall i, In i l -> (i < length (jobs st))%nat) -> StronglySorted (lexrel st) l -> StronglySorted (lexrel st') l).
  { intros l Hl. induction 1 as [|a l Hs IH Ha]; constructor; [apply IH; intros i Hi; apply Hl; now right|]. apply Forall_forall. intros b Hb. rewrite Forall_forall in Ha. apply Hlex; [apply Hl; now left|apply Hl; now right|auto]. }
  split; [|auto]. split.
  - exact H1.
  - rewrite Hlen. cbn [to_be_processed order st']. split; [|lia]. rewrite Hq. replace (S (length (jobs st)) - order st)%nat with (S (length (jobs st) - order st)) by lia. rewrite seq_S. do 2 f_equal. lia.
  - intros i x Hx. destruct (Nat.eq_dec i (length (jobs st))) as [->|Hne]; [rewrite Hnew in Hx; injection Hx as <-; exact I|]. assert (i < length (jobs st'))%nat by (apply nth_error_Some; congruence). rewrite Hold in Hx by lia. eapply H3, Hx.
  - intros i Hi. change (order st') with (order st) in Hi. destruct (H4 i Hi) as (x & v & Hx & Hv). exists x, v. split; [|exact Hv]. rewrite Hold; [exact Hx|lia].
  - apply Forall_forall. intros e He. rewrite Forall_forall in H5. rewrite Hrel; [now apply H5|]. apply Hh. now apply in_map.
  - exact H6.
  - now apply Hsort.
  - now apply Hsort.
  - intros r h Hir Hih. apply Hlex; auto.
  - intros i x Hx. destruct (Nat.eq_dec i (length (jobs st))) as [->|Hne].
    + rewrite Hnew in Hx. injection Hx as <-. cbn. split; [discriminate|]. intros Hi. apply Hr in Hi. lia.
    + assert (i < length (jobs st'))%nat by (apply nth_error_Some; congruence). rewrite Hold in Hx by lia. now apply H10.
  - destruct H11 as (A & B & C). cbn [time st']. split; [exact A|]. split; [intros r Hi; rewrite Hrel; auto|]. destruct C as [C|(r & C1 & C2)]; [now left|right]. exists r. rewrite Hrel; auto.
  - intros i Hi. destruct (Nat.eq_dec i (length (jobs st))) as [->|Hne]; [unfold tm; rewrite Hnew; cbn; lra|]. rewrite Htm by lia. cbn [time st']. apply H12. lia.
  - intros i Hi r Hir. rewrite Hrel by auto. destruct (Nat.eq_dec i (length (jobs st))) as [->|Hne]; [unfold tm; rewrite Hnew; cbn; now apply H11|]. rewrite Htm by lia. apply H13; [|exact Hir]. cbn [order st'] in Hi. lia.
Qed.
Lemma process_submissions_inv st st' r reads : process_submissions eval st = (st', r) -> Inv st reads ->
  Inv st' reads /\ length (jobs st') = length (jobs st) /\ time st' = time st /\ (forall j, tm st' j = tm st j) /\ (r = None -> order st' = length (jobs st') /\ to_be_processed st' = []) /\
  ((forall j, exists v, eval j = Ok v) -> r = None).
Proof. intros E HI. eapply loop_inv; [|exact E|exact HI]. reflexivity. Qed.
Lemma done_inv st j st' r reads : done eval st j = (st', r) -> Inv st reads ->
  Inv st' reads /\ length (jobs st') = length (jobs st) /\ time st' = time st /\ (forall i, tm st' i = tm st i) /\
  ((forall i, exists v, eval i = Ok v) -> (j < length (jobs st))%nat -> exists b, r = Ok b) /\
  forall b, r = Ok b -> (j < length (jobs st'))%nat /\ order st' = length (jobs st') /\ to_be_processed st' = [] /\
    (b = true <-> In j reads \/ exists e h, heap st' = e :: h /\ snd e = j).
Proof.
  intros E HI. unfold done in E. destruct (process_submissions eval st) as [st1 o] eqn:Ep. destruct (process_submissions_inv _ _ _ _ Ep HI) as (HI1 & Hl & Ht & Htm & Ho & Htot). destruct o as [e|].
  - injection E as <- <-. repeat (split; [assumption|]). split; [|discriminate]. intros Hall. specialize (Htot Hall). discriminate.
  - destruct (Ho eq_refl) as (Hord & Hq). destruct (nth_error (jobs st1) j) as [x|] eqn:Ex.
    + assert (Hj : (j < length (jobs st1))%nat) by (apply nth_error_Some; congruence). rewrite (i_batch _ _ HI1) in E. cbn [orb] in E. destruct (j_read x) eqn:Erd.
      * injection E as <- <-. repeat (split; [assumption|]). split; [eauto|]. intros b Hb. injection Hb as <-. repeat (split; [assumption|]). split; [|reflexivity]. intros _. left. now apply (i_read _ _ HI1 j x Ex).
      * assert (Hnr : ~ In j reads) by (intros Hin; apply (i_read _ _ HI1 j x Ex) in Hin; congruence). assert (Hin : In j (map snd (heap st1))).
        { assert (H : In j (map snd (heap st1) ++ reads)) by (rewrite (i_perm _ _ HI1); apply in_seq; lia). apply in_app_or in H. tauto. }
        destruct (heap st1) as [|[[r0 o0] j0] h] eqn:Eh; [destruct Hin|]. injection E as <- <-. repeat (split; [assumption|]). split; [eauto|]. intros b Hb. injection Hb as <-. repeat (split; [assumption|]).
        destruct (Nat.eqb_spec j j0) as [->|Hne]; split; try discriminate; try reflexivity.
        -- intros _. right. exists (r0, o0, j0), h. split; [exact Eh|reflexivity].
        -- intros [H|(e & h' & He & Hs)]; [contradiction|]. rewrite Eh in He. injection He as <- <-. cbn in Hs. congruence.
    + injection E as <- <-. repeat (split; [assumption|]). split; [|discriminate]. intros _ Hj. apply nth_error_None in Ex. lia.
Qed.
Lemma set_read_upd st j x : nth_error (jobs st) j = Some x -> forall i, tm (set_job st j (mkjob (j_time x) (j_value x) true)) i = tm st i.
Proof.
  intros Hx i. assert (Hj : (j < length (jobs st))%nat) by (apply nth_error_Some; congruence). unfold tm, set_job. cbn [jobs]. rewrite nth_replace by exact Hj. destruct (Nat.eqb_spec i j) as [->|]; [now rewrite Hx|reflexivity].
Qed.
Lemma read_inv st j st' r reads : read eval st j = (st', r) -> Inv st reads ->
  length (jobs st') = length (jobs st) /\ (forall i, tm st' i = tm st i) /\
  match r with
  | Ok v => Inv st' (reads ++ [j]) /\ ~ In j reads /\ (exists pt, eval j = Ok (v, pt)) /\ time st' = qmax (time st) (rel st' j)
  | Err _ => Inv st' reads /\ time st' = time st
  end /\
  ((forall i, exists v, eval i = Ok v) -> forall st1, done eval st j = (st1, Ok true) -> ~ In j reads -> exists v, r = Ok v).
Proof.
  intros E HI. unfold read in E. destruct (process eval st j) as [st1 o] eqn:Ep. pose proof (process_inv _ _ _ _ _ Ep HI) as HI1. destruct (process_upd _ _ _ _ Ep) as (Hu & Hok & Hko & _). pose proof (upd_tm _ _ Hu) as Htm1. pose proof Hu as [U1 U2 U3 U4 U5 U6 U7].
  destruct o as [e|].
  { injection E as <- <-. split; [exact U6|]. split; [exact Htm1|]. split; [split; assumption|]. intros Htot st2 Hd Hnr. exfalso. destruct (done_inv _ _ _ _ _ Hd HI) as (_ & Hl & _ & _ & _ & Hb). destruct (Hb true eq_refl) as (Hj & _).
    destruct (Hko ltac:(discriminate)) as ([H0|(e' & H0)] & _); [apply nth_error_None in H0; lia|]. destruct (Htot j) as (v & Hv). congruence. }
  destruct (done eval st1 j) as [st2 rd] eqn:Ed. destruct (done_inv _ _ _ _ _ Ed HI1) as (HI2 & Hl2 & Ht2 & Htm2 & Htot2 & Hb).
  assert (Hsame : (forall i, exists v, eval i = Ok v) -> forall s, done eval st j = (s, Ok true) -> ~ In j reads -> rd = Ok true).
  { intros Htot s Hd Hnr. destruct (done_inv _ _ _ _ _ Hd HI) as (HIs & Hls & _ & Htms & _ & Hbs). destruct (Hbs true eq_refl) as (Hj & Ho & Hq & Hiff). destruct (proj1 Hiff eq_refl) as [Hin|(e & h & Hh & He)]; [contradiction|].
    destruct Htot2 as (b & Eb); [exact Htot|lia|]. rewrite Eb. f_equal. destruct (Hb b Eb) as (Hj2 & Ho2 & Hq2 & Hiff2). apply Hiff2. right.
    assert (Hin2 : In j (map snd (heap st2))). { assert (H : In j (map snd (heap st2) ++ reads)) by (rewrite (i_perm _ _ HI2); apply in_seq; lia). apply in_app_or in H. tauto. }
    destruct (heap st2) as [|e2 h2] eqn:Eh2; [destruct Hin2|]. exists e2, h2. split; [reflexivity|]. destruct (Nat.eq_dec (snd e2) j) as [He2|He2]; [exact He2|exfalso].
    assert (Hlt : lexrel st2 (snd e2) j). { pose proof (i_sorted _ _ HI2) as Hs. rewrite Eh2 in Hs. cbn in Hs, Hin2. inversion Hs as [|? ? _ Hf]; subst. destruct Hin2 as [H|H]; [congruence|]. rewrite Forall_forall in Hf. now apply Hf. }
    assert (Hgt : lexrel s j (snd e2)).
    { assert (Hk : In (snd e2) (map snd (heap s))). { assert (Hnr2 : ~ In (snd e2) reads /\ (snd e2 < length (jobs s))%nat).
        { assert (Hnd : NoDup (map snd (heap st2) ++ reads)) by (rewrite (i_perm _ _ HI2); apply seq_NoDup). rewrite Eh2 in Hnd. cbn in Hnd. inversion Hnd as [|? ? Hn _]; subst. rewrite in_app_iff in Hn. split; [tauto|].
          assert (H : In (snd e2) (seq 0 (order st2))) by (rewrite <- (i_perm _ _ HI2), Eh2; now left). apply in_seq in H. lia. }
        assert (H : In (snd e2) (map snd (heap s) ++ reads)) by (rewrite (i_perm _ _ HIs); apply in_seq; lia). apply in_app_or in H. tauto. }
      pose proof (i_sorted _ _ HIs) as Hs. rewrite Hh in Hs, Hk. cbn in Hs, Hk. inversion Hs as [|? ? _ Hf]; subst. destruct Hk as [H|H]; [congruence|]. rewrite Forall_forall in Hf. now apply Hf. }
    unfold lexrel, rel in Hlt, Hgt. rewrite !Htm2, !Htm1 in Hlt. rewrite !Htms in Hgt. destruct Hlt as [A|(A & B)], Hgt as [C|(C & D)]; try lra. lia. }
  destruct rd as [[|]|e].
  2: { injection E as <- <-. split; [congruence|]. split; [intros i; now rewrite Htm2|]. split; [split; [assumption|congruence]|]. intros Htot s Hd Hnr. specialize (Hsame Htot s Hd Hnr). discriminate. }
  2: { injection E as <- <-. split; [congruence|]. split; [intros i; now rewrite Htm2|]. split; [split; [assumption|congruence]|]. intros Htot s Hd Hnr. specialize (Hsame Htot s Hd Hnr). discriminate. }
  destruct (Hb true eq_refl) as (Hj & Hord & Hq & Hiff). destruct (nth_error (jobs st2) j) as [x|] eqn:Ex; [|apply nth_error_None in Ex; lia].
  set (st3 := set_job st2 j (mkjob (j_time x) (j_value x) true)) in E. assert (Htm3 : forall i, tm st3 i = tm st2 i) by now apply set_read_upd.
  assert (Hl3 : length (jobs st3) = length (jobs st2)) by (unfold st3, set_job; cbn [jobs]; now apply length_replace).
  assert (Hn3 : forall i, nth_error (jobs st3) i = if Nat.eqb i j then Some (mkjob (j_time x) (j_value x) true) else nth_error (jobs st2) i) by (intros i; unfold st3, set_job; cbn [jobs]; now apply nth_replace).
  assert (Hrel3 : forall i, rel st3 i = rel st2 i) by (intros i; unfold rel; now rewrite Htm3).
  assert (Hp3 : process_submissions eval st3 = (st3, None)) by (unfold process_submissions; change (to_be_processed st3) with (to_be_processed st2); rewrite Hq; reflexivity).
  unfold notify_read in E. rewrite Hp3 in E. change (batch_mode st3) with (batch_mode st2) in E. rewrite (i_batch _ _ HI2) in E. change (heap st3) with (heap st2) in E.
  destruct (i_processed _ _ HI2 j ltac:(lia)) as (x' & vd & Ex' & Ev). rewrite Ex in Ex'. injection Ex' as <-. destruct vd as [v d].
  assert (Hset : exists pt, eval j = Ok (v, pt) /\ d = delay j) by (pose proof (i_settled _ _ HI2 j x Ex) as H; rewrite Ev in H; exact H).
  assert (Hrl : release_time st3 j = Ok (rel st2 j)). { unfold release_time. rewrite Hn3, Nat.eqb_refl. cbn [j_value j_time]. rewrite Ev. destruct Hset as (pt & _ & ->). unfold rel, tm. now rewrite Ex. }
  pose proof HI2 as [H1 (Hq2 & Hle) H3 H4 H5 H6 H7 H8 H9 H10 H11 H12 H13].
  assert (Hreread : In j reads -> Inv st3 reads).
  { intros Hin. assert (Erd : j_read x = true) by now apply (H10 j x Ex).
    apply (upd_inv st2 st3 reads); [|intros i y Hy; rewrite Hn3 in Hy; destruct (Nat.eqb_spec i j) as [->|]; [injection Hy as <-; apply (H3 j x Ex)|eapply H3, Hy]|exact HI2].
    split; try reflexivity; [exact Hl3|]. intros i y Hy. rewrite Hn3. destruct (Nat.eqb_spec i j) as [->|]; [|exists y; auto]. rewrite Ex in Hy. injection Hy as <-. eexists. split; [reflexivity|]. cbn. repeat split; auto. }
  destruct (proj1 Hiff eq_refl) as [Hin|(e & h & Hh & He)].
  - specialize (Hreread Hin). assert (Hne : match heap st2 with [] => True | e0 :: _ => snd e0 <> j end).
    { destruct (heap st2) as [|e0 h0] eqn:Eh; [exact I|]. intros E0. assert (Hnd : NoDup (map snd (e0 :: h0) ++ reads)) by (rewrite H6; apply seq_NoDup). cbn in Hnd. inversion Hnd as [|? ? Hn _]; subst. apply Hn. apply in_or_app. now right. }
    destruct (heap st2) as [|[[r0 o0] j0] h0] eqn:Eh.
    + injection E as <- <-. split; [congruence|]. split; [intros i; now rewrite Htm3, Htm2|]. split; [split; [exact Hreread|]|contradiction]. change (time st3) with (time st2). congruence.
    + cbn in Hne. destruct (Nat.eqb_spec j j0) as [->|_]; [congruence|]. cbn [negb] in E. injection E as <- <-. split; [congruence|]. split; [intros i; now rewrite Htm3, Htm2|]. split; [split; [exact Hreread|]|contradiction]. change (time st3) with (time st2). congruence.
  - rewrite Hh in E. destruct e as [[r0 o0] j0]. cbn in He. subst j0. rewrite Nat.eqb_refl in E. cbn [negb] in E. rewrite Hrl, Ev in E. injection E as <- <-. rewrite Hh in H5, H6, H7, H9. cbn [map snd] in H6, H7, H9.
    assert (Hnd : NoDup (j :: map snd h ++ reads)) by (change (j :: map snd h ++ reads) with ((j :: map snd h) ++ reads); rewrite H6; apply seq_NoDup). inversion Hnd as [|? ? Hn _]; subst. rewrite in_app_iff in Hn.
    inversion H7 as [|? ? Hs1 Hs2]; subst. inversion H5 as [|? ? Hf1 Hf2]; subst. set (st4 := set_time _ _ _).
    assert (Htm4 : forall i, tm st4 i = tm st2 i) by (intros i; exact (Htm3 i)). assert (Hrel4 : forall i, rel st4 i = rel st2 i) by (intros i; exact (Hrel3 i)).
    assert (Hlex4 : forall a b, lexrel st2 a b -> lexrel st4 a b) by (intros a b; unfold lexrel; now rewrite !Hrel4).
    split; [cbn [jobs st4 set_time]; congruence|]. split; [intros i; now rewrite Htm4, Htm2|]. split; [|eauto].
    split; [|split; [tauto|split; [destruct Hset as (pt & Hpt & _); eauto|]]].
    2: { rewrite Hrel4. cbn [time st4 set_time]. change (time st3) with (time st2). now rewrite Ht2, U5. }
    pose proof (qmax_ub (time st2) (rel st2 j)) as (Q1 & Q2 & Q3). split; cbn [batch_mode to_be_processed jobs order heap time st4 set_time]; change (time st3) with (time st2); change (order st3) with (order st2).
    + exact H1.
    + rewrite Hl3. split; assumption.
    + intros i y Hy. rewrite Hn3 in Hy. destruct (Nat.eqb_spec i j) as [->|]; [injection Hy as <-; exact (H3 j x Ex)|eapply H3, Hy].
    + intros i Hi. rewrite Hn3. destruct (Nat.eqb_spec i j) as [->|]; [eexists; eexists; split; [reflexivity|exact Ev]|now apply H4].
    + eapply Forall_impl; [|exact Hf2]. intros e0 He0. now rewrite Hrel4.
    + rewrite <- H6, app_assoc. symmetry. change ((j :: map snd h) ++ reads) with (j :: (map snd h ++ reads)). apply Permutation_cons_append.
    + eapply sorted_ext; eauto.
    + assert (Hall : forall r, In r reads -> lexrel st4 r j) by (intros r Hr; apply Hlex4, H9; [exact Hr|now left]). apply (sorted_ext _ (lexrel st4)) in H8; [|exact Hlex4]. clear - H8 Hall. induction H8 as [|a l Hs IH Ha]; cbn; [repeat constructor|].
      constructor; [apply IH; intros r Hr; apply Hall; now right|]. apply Forall_app. split; [exact Ha|]. constructor; [apply Hall; now left|constructor].
    + intros r0' h0 Hr Hh0. apply in_app_or in Hr as [Hr|[<-|[]]]; [apply Hlex4, H9; [exact Hr|now right]|]. rewrite Forall_forall in Hs2. apply Hlex4, Hs2, Hh0.
    + intros i y Hy. rewrite Hn3 in Hy. rewrite in_app_iff. destruct (Nat.eqb_spec i j) as [->|Hne]; [injection Hy as <-; cbn; tauto|]. rewrite (H10 i y Hy). cbn. split; [tauto|]. intros [H|[H|[]]]; [exact H|congruence].
    + destruct H11 as (A & B & C). split; [lra|]. split.
      * intros r0' Hr. rewrite Hrel4. apply in_app_or in Hr as [Hr|[<-|[]]]; [|exact Q2]. apply B in Hr. lra.
      * destruct Q3 as [Q3|Q3]; rewrite Q3; [|right; exists j; split; [apply in_or_app; right; now left|now rewrite Hrel4]]. destruct C as [C|(r0' & C1 & C2)]; [now left|right]. exists r0'. split; [apply in_or_app; now left|]. now rewrite Hrel4.
    + intros i Hi. rewrite Htm4. rewrite Hl3 in Hi. specialize (H12 i Hi). lra.
    + intros i Hi. rewrite Hl3 in Hi. lia.
Qed.

(** Functions are evaluated once each, when no evaluation raises. *)
Definition EInv (st : exec) : Prop := NoDup (evaluated st) /\ forall j, In j (evaluated st) <-> exists x v, nth_error (jobs st) j = Some x /\ j_value x = Some v.
Hypothesis total : forall j, exists v, eval j = Ok v.
Lemma process_einv st j st' r : process eval st j = (st', r) -> EInv st -> EInv st'.
Proof.
  unfold process. intros E (H1 & H2). destruct (nth_error (jobs st) j) as [x|] eqn:Ex; [|injection E as <- <-; now split]. destruct (j_value x) as [v|] eqn:Ev; [injection E as <- <-; now split|].
  destruct (total j) as ([v pt] & Hv). rewrite Hv in E. injection E as <- <-. unfold set_job. split; cbn [evaluated jobs].
  - assert (Hnin : ~ In j (evaluated st)) by (intros Hin; apply H2 in Hin as (x' & v' & Hx' & Hv'); congruence). eapply Permutation_NoDup; [apply Permutation_cons_append|]. now constructor.
  - assert (Hj : (j < length (jobs st))%nat) by (apply nth_error_Some; congruence). intros i. rewrite in_app_iff, nth_replace by exact Hj. destruct (Nat.eqb_spec i j) as [->|Hne].
    + split; [|intros _; right; now left]. intros _. eexists. eexists. split; reflexivity.
    + rewrite H2. split; [intros [H|[H|[]]]; [exact H|congruence]|tauto].
Qed.
Lemma loop_einv n : forall st st' r, submissions_loop eval n st = (st', r) -> EInv st -> EInv st'.
Proof.
  induction n as [|n IH]; intros st st' r E H; cbn [submissions_loop] in E; [injection E as <- <-; exact H|]. destruct (to_be_processed st) as [|j rest]; [injection E as <- <-; exact H|].
  destruct (process eval st j) as [st1 o] eqn:Ep. apply process_einv in Ep; [|exact H]. destruct o; [injection E as <- <-; exact Ep|]. destruct (release_time st1 j); [|injection E as <- <-; exact Ep]. eapply IH; [exact E|]. exact Ep.
Qed.
Lemma done_einv st j st' r : done eval st j = (st', r) -> EInv st -> EInv st'.
Proof.
  unfold done, process_submissions. intros E H. destruct (submissions_loop eval _ st) as [st1 o] eqn:Ep. apply loop_einv in Ep; [|exact H]. destruct o; [injection E as <- <-; exact Ep|]. destruct (nth_error (jobs st1) j) as [x|]; [|injection E as <- <-; exact Ep].
  destruct (batch_mode st1 || j_read x); [injection E as <- <-; exact Ep|]. destruct (heap st1) as [|[[? ?] ?] ?]; injection E as <- <-; exact Ep.
Qed.
Lemma notify_einv st j st' r : notify_read eval st j = (st', r) -> EInv st -> EInv st'.
Proof.
  unfold notify_read, process_submissions. intros E H. destruct (submissions_loop eval _ st) as [st1 o] eqn:Ep. apply loop_einv in Ep; [|exact H]. destruct o; [injection E as <- <-; exact Ep|].
  destruct (batch_mode st1); [|destruct (heap st1) as [|[[? ?] j'] h]; [injection E as <- <-; exact Ep|]; destruct (negb (Nat.eqb j j')); [injection E as <- <-; exact Ep|]]; (destruct (release_time st1 j); injection E as <- <-; exact Ep).
Qed.
Lemma read_einv st j st' r : read eval st j = (st', r) -> EInv st -> EInv st'.
Proof.
  unfold read. intros E H. destruct (process eval st j) as [st1 o] eqn:Ep. apply process_einv in Ep; [|exact H]. destruct o; [injection E as <- <-; exact Ep|]. destruct (done eval st1 j) as [st2 rd] eqn:Ed. apply done_einv in Ed; [|exact Ep].
  destruct rd as [[|]|]; [|injection E as <- <-; exact Ed|injection E as <- <-; exact Ed]. destruct (nth_error (jobs st2) j) as [x|] eqn:Ex; [|injection E as <- <-; exact Ed].
  destruct (notify_read eval (set_job st2 j (mkjob (j_time x) (j_value x) true)) j) as [st3 o] eqn:En. apply notify_einv in En.
  - destruct o; [injection E as <- <-; exact En|]. destruct (j_value x) as [[? ?]|]; injection E as <- <-; exact En.
  - destruct Ed as (H1 & H2). unfold set_job. split; cbn [evaluated jobs]; [exact H1|]. assert (Hj : (j < length (jobs st2))%nat) by (apply nth_error_Some; congruence).
    intros i. rewrite nth_replace by exact Hj. destruct (Nat.eqb_spec i j) as [->|]; [|apply H2]. rewrite H2. split; intros (y & v & Hy & Hv).
    + rewrite Ex in Hy. injection Hy as <-. eexists. exists v. split; [reflexivity|exact Hv].
    + injection Hy as <-. exists x, v. split; [exact Ex|exact Hv].
Qed.
Lemma history_einv l : forall st st' outs, history eval st l = (st', outs) -> EInv st -> EInv st'.
Proof.
  induction l as [|o l IH]; intros st st' outs E H; cbn [history] in E; [injection E as <- <-; exact H|]. destruct (step eval st o) as [st1 x] eqn:Es. destruct (history eval st1 l) as [st2 xs] eqn:Eh. injection E as <- <-. eapply IH; [exact Eh|].
  destruct o; cbn [step] in Es.
  - unfold submit in Es. injection Es as <- <-. destruct H as (H1 & H2). split; [exact H1|]. intros j. cbn [evaluated jobs]. rewrite H2. split; intros (y & v & Hy & Hv).
    + exists y, v. split; [|exact Hv]. rewrite nth_error_app1; [exact Hy|]. apply nth_error_Some. congruence.
    + destruct (Nat.lt_ge_cases j (length (jobs st))) as [Hlt|Hge]; [rewrite nth_error_app1 in Hy by exact Hlt; eauto|]. rewrite nth_error_app2 in Hy by exact Hge. destruct (j - length (jobs st))%nat as [|[|k]]; cbn in Hy; try discriminate. injection Hy as <-. discriminate.
  - destruct (done eval st j) as [st3 r] eqn:Ed. injection Es as <- <-. eapply done_einv; eauto.
  - destruct (read eval st j) as [st3 r] eqn:Ed. injection Es as <- <-. eapply read_einv; eauto.
Qed.
(** Batch mode. *)
Record BInv (st : exec) : Prop := {
  b_batch : batch_mode st = true;
  b_queue : Forall (fun j => (j < length (jobs st))%nat) (to_be_processed st);
  b_settled : forall j x, nth_error (jobs st) j = Some x -> settled j (j_value x) }.
Lemma upd_binv st st' : upd st st' -> BInv st -> BInv st'.
Proof. intros Hu [H1 H2 H3]. pose proof Hu as [U1 U2 U3 U4 U5 U6 U7]. split; [congruence|now rewrite U2, U6|eapply upd_settled; eauto]. Qed.
Lemma loop_binv n : forall st st' r, submissions_loop eval n st = (st', r) -> BInv st -> (length (to_be_processed st) <= n)%nat -> r = None /\ BInv st' /\ to_be_processed st' = [] /\ time st' = time st /\ length (jobs st') = length (jobs st) /\ (forall j, tm st' j = tm st j).
Proof.
  induction n as [|n IH]; intros st st' r E H Hn; cbn [submissions_loop] in E.
  - injection E as <- <-. repeat (split; [assumption || reflexivity|]). split; [destruct (to_be_processed st); [reflexivity|cbn in Hn; lia]|auto].
  - destruct (to_be_processed st) as [|j rest] eqn:Eq; [injection E as <- <-; auto 8|]. destruct (process eval st j) as [st1 o] eqn:Ep. destruct (process_upd _ _ _ _ Ep) as (Hu & Hok & Hko & _). pose proof (upd_binv _ _ Hu H) as H1. pose proof (upd_tm _ _ Hu) as Htm. pose proof Hu as [U1 U2 U3 U4 U5 U6 U7].
    assert (Ho : o = None). { destruct o as [e|]; [|reflexivity]. destruct (Hko ltac:(discriminate)) as ([H0|(e' & H0)] & _); [|destruct (total j); congruence]. pose proof (b_queue _ H) as Hq. rewrite Eq in Hq. inversion Hq; subst. apply nth_error_None in H0. lia. }
    subst o. destruct (Hok eq_refl) as (x & [v d] & Hx & Hv). unfold release_time in E. rewrite Hx, Hv, (b_batch _ H1) in E. destruct (IH _ _ _ E) as (A & B & C & D & F & G).
    + destruct H1 as [P1 P2 P3]. split; cbn; [reflexivity| |exact P3]. rewrite U2, Eq in P2. now inversion P2.
    + cbn in *. lia.
    + split; [exact A|]. split; [exact B|]. split; [exact C|]. split; [rewrite D; exact U5|]. split; [rewrite F; exact U6|]. intros i. rewrite G. apply (Htm i).
Qed.
Lemma done_binv st j st' r : done eval st j = (st', r) -> BInv st -> (j < length (jobs st))%nat -> r = Ok true /\ BInv st' /\ to_be_processed st' = [] /\ time st' = time st /\ length (jobs st') = length (jobs st) /\ (forall i, tm st' i = tm st i).
Proof.
  unfold done, process_submissions. intros E H Hj. destruct (submissions_loop eval _ st) as [st1 o] eqn:Ep. destruct (loop_binv _ _ _ _ Ep H (le_n _)) as (-> & A & B & C & D & F).
  destruct (nth_error (jobs st1) j) as [x|] eqn:Ex; [|apply nth_error_None in Ex; lia]. rewrite (b_batch _ A) in E. cbn in E. injection E as <- <-. auto 8.
Qed.
Lemma read_binv st j st' r : read eval st j = (st', r) -> BInv st -> (j < length (jobs st))%nat -> BInv st' /\ (exists v pt, r = Ok v /\ eval j = Ok (v, pt)) /\ time st' = qmax (time st) (rel st' j) /\ length (jobs st') = length (jobs st) /\ (forall i, tm st' i = tm st i).
Proof.
  unfold read. intros E H Hj. destruct (process eval st j) as [st1 o] eqn:Ep. destruct (process_upd _ _ _ _ Ep) as (Hu & Hok & Hko & _). pose proof (upd_binv _ _ Hu H) as H1. pose proof (upd_tm _ _ Hu) as Htm. pose proof Hu as [U1 U2 U3 U4 U5 U6 U7].
  assert (Ho : o = None). { destruct o as [e|]; [|reflexivity]. destruct (Hko ltac:(discriminate)) as ([H0|(e' & H0)] & _); [apply nth_error_None in H0; lia|destruct (total j); congruence]. }
  subst o. destruct (Hok eq_refl) as (x1 & vd & Hx1 & Hv1). destruct (done eval st1 j) as [st2 rd] eqn:Ed.
  assert (Hd : exists y v, nth_error (jobs st2) j = Some y /\ j_value y = Some v).
  { unfold done, process_submissions in Ed. destruct (submissions_loop eval (length (to_be_processed st1)) st1) as [s o] eqn:El.
    assert (Hkeep : forall n s0 s1 o1, submissions_loop eval n s0 = (s1, o1) -> (exists y v, nth_error (jobs s0) j = Some y /\ j_value y = Some v) -> exists y v, nth_error (jobs s1) j = Some y /\ j_value y = Some v).
    { clear. induction n as [|n IH]; intros s0 s1 o1 E H; cbn [submissions_loop] in E; [injection E as <- <-; exact H|]. destruct (to_be_processed s0) as [|k rest]; [injection E as <- <-; exact H|]. destruct (process eval s0 k) as [s2 o] eqn:Ep.
      destruct (process_upd _ _ _ _ Ep) as ([_ _ _ _ _ _ U7] & _). assert (H2 : exists y v, nth_error (jobs s2) j = Some y /\ j_value y = Some v).
      { destruct H as (y & v & Hy & Hv). destruct (U7 j y Hy) as (y' & Hy' & _ & _ & [Hv'|(_ & Hv')]); [exists y', v; split; congruence|]. destruct (j_value y') as [v'|] eqn:Ev'; [|congruence]. exists y', v'. auto. }
      destruct o; [injection E as <- <-; exact H2|]. destruct (release_time s2 k); [|injection E as <- <-; exact H2]. eapply IH; [exact E|exact H2]. }
    apply Hkeep in El; [|eauto]. destruct o; [injection Ed as <- <-; exact El|]. destruct (nth_error (jobs s) j) as [y|] eqn:Ey; [|injection Ed as <- <-; destruct El as (? & ? & ? & _); congruence].
    destruct (batch_mode s || j_read y); [injection Ed as <- <-; rewrite Ey; exact El|]. destruct (heap s) as [|[[? ?] ?] ?]; injection Ed as <- <-; rewrite Ey; exact El. }
  destruct (done_binv _ _ _ _ Ed H1 ltac:(lia)) as (-> & A & B & C & D & F). destruct Hd as (x & [v d] & Hx & Hv). rewrite Hx in E.
  set (st3 := set_job st2 j (mkjob (j_time x) (j_value x) true)) in E.
  assert (Hj2 : (j < length (jobs st2))%nat) by lia.
  assert (Hn3 : forall i, nth_error (jobs st3) i = if Nat.eqb i j then Some (mkjob (j_time x) (j_value x) true) else nth_error (jobs st2) i) by (intros i; unfold st3, set_job; cbn [jobs]; now apply nth_replace).
  assert (Hl3 : length (jobs st3) = length (jobs st2)) by (unfold st3, set_job; cbn [jobs]; now apply length_replace).
  assert (Htm3 : forall i, tm st3 i = tm st2 i) by now apply set_read_upd.
  assert (Hp3 : process_submissions eval st3 = (st3, None)) by (unfold process_submissions; change (to_be_processed st3) with (to_be_processed st2); rewrite B; reflexivity).
  pose proof (b_settled _ A j x Hx) as Hs. rewrite Hv in Hs. destruct Hs as (pt & Hpt & ->).
  assert (Hrl : release_time st3 j = Ok (rel st2 j)). { unfold release_time. rewrite Hn3, Nat.eqb_refl. cbn [j_value j_time]. rewrite Hv. unfold rel, tm. now rewrite Hx. }
  unfold notify_read in E. rewrite Hp3 in E. change (batch_mode st3) with (batch_mode st2) in E. rewrite (b_batch _ A), Hrl, Hv in E. injection E as <- <-. cbn [set_time time jobs].
  assert (Htm4 : forall i, tm (set_time st3 (heap st3) (qmax (time st3) (rel st2 j))) i = tm st i). { intros i. change (tm st3 i = tm st i). now rewrite Htm3, F, Htm. }
  split; [|split; [eauto|split; [|split; [congruence|exact Htm4]]]].
  - destruct A as [P1 P2 P3]. split; cbn [set_time batch_mode to_be_processed jobs]; [exact P1|change (to_be_processed st3) with (to_be_processed st2); now rewrite Hl3|].
    intros i y Hy. rewrite Hn3 in Hy. destruct (Nat.eqb_spec i j) as [->|]; [injection Hy as <-; exact (P3 j x Hx)|eapply P3, Hy].
  - assert (Hr4 : rel (set_time st3 (heap st3) (qmax (time st3) (rel st2 j))) j = rel st2 j) by (unfold rel at 1; rewrite Htm4; unfold rel; now rewrite F, Htm).
    exact (f_equal2 qmax (eq_trans C U5) (eq_sym Hr4)).
Qed.
End Proofs.

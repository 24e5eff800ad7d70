From Coq Require Import Arith ZArith Bool Lia Permutation List.
From Verif.Model Require Import Prelude Benchmark.
From Verif.Spec Require Import Benchmark.
Import ListNotations.

Lemma collect_ok {A} (l : list (result A)) : forall r, collect l = Ok r <-> Forall2 (fun x a => x = Ok a) l r.
Proof.
  induction l as [|x l IH]; intros r; cbn.
  - split; [intros E; injection E as <-; constructor|intros H; now inversion H].
  - destruct x as [a|e]; cbn; [|split; [discriminate|intros H; inversion H; discriminate]]. destruct (collect l) as [r'|e]; cbn.
    + split; [intros E; injection E as <-; constructor; [reflexivity|now apply IH]|]. intros H. inversion H as [|? b ? r0 Hb Hr]; subst. apply IH in Hr. congruence.
    + split; [discriminate|]. intros H. inversion H as [|? b ? r0 Hb Hr]; subst. apply IH in Hr. discriminate.
Qed.

Open Scope nat_scope.
(** A predicate shared out among several ones. *)
Lemma flat_filter_perm {A I} (sel : I -> A -> bool) (ps : list I) (q : A -> bool) (l : list A) :
  (forall x, In x l -> length (filter (fun p => sel p x) ps) = if q x then 1 else 0) ->
  Permutation (flat_map (fun p => filter (sel p) l) ps) (filter q l).
Proof.
  induction l as [|x l IH]; intros H; cbn [filter].
  - clear H. induction ps as [|p ps IHp]; cbn; [constructor|assumption].
  - assert (Hx : Permutation (flat_map (fun p => if sel p x then x :: filter (sel p) l else filter (sel p) l) ps)
                  (repeat x (length (filter (fun p => sel p x) ps)) ++ flat_map (fun p => filter (sel p) l) ps)).
    { clear. induction ps as [|p ps IHp]; [constructor|]. cbn [flat_map filter]. destruct (sel p x); cbn [app length repeat].
      - constructor. rewrite IHp, !app_assoc. apply Permutation_app_tail, Permutation_app_comm.
      - rewrite IHp, !app_assoc. apply Permutation_app_tail, Permutation_app_comm. }
    rewrite Hx. rewrite (H x (or_introl eq_refl)). rewrite IH by (intros y Hy; apply H; now right). destruct (q x); reflexivity.
Qed.
Lemma count_eq n : forall a c, length (filter (fun k => Nat.eqb k c) (seq a n)) = if andb (Nat.leb a c) (Nat.ltb c (a + n)) then 1 else 0.
Proof.
  induction n as [|n IH]; intros a c; cbn [seq filter].
  - destruct (Nat.leb_spec a c), (Nat.ltb_spec c (a + 0)); cbn; lia.
  - destruct (Nat.eqb_spec a c) as [<-|Hne]; cbn [length]; rewrite IH.
    + destruct (Nat.leb_spec (S a) a), (Nat.leb_spec a a), (Nat.ltb_spec a (a + S n)); cbn; try lia. 
    + destruct (Nat.leb_spec (S a) c), (Nat.leb_spec a c), (Nat.ltb_spec c (S a + n)), (Nat.ltb_spec c (a + S n)); cbn; lia.
Qed.
Open Scope Z_scope.
Definition valid_moduler (m : moduler) : Prop := 0 < modulo m /\ 0 <= index m < modulo m.
Lemma split_spec m number : valid_moduler m -> (0 < number)%nat -> exists ms, moduler_split m number = Ok ms /\ Forall valid_moduler ms /\
  Forall (fun m' => total_length m' = total_length m) ms /\
  forall i, length (filter (fun m' => accepts m' i) ms) = if accepts m i then 1%nat else 0%nat.
Proof.
  intros (Hm & Hi) Hn. set (sub := fun k => mkmoduler (modulo m * Z.of_nat number) (index m + Z.of_nat k * modulo m) (total_length m)).
  exists (map sub (seq 0 number)). split; [|split; [|split]].
  - unfold moduler_split. apply collect_ok. assert (H : forall k, In k (seq 0 number) -> (k < number)%nat) by (intros k Hk; apply in_seq in Hk; lia). induction (seq 0 number) as [|k l IH]; cbn; constructor.
    + specialize (H k (or_introl eq_refl)). unfold new_moduler. destruct (Z.ltb_spec 0 (modulo m * Z.of_nat number)); [|nia]. destruct (Z.ltb_spec (index m + Z.of_nat k * modulo m) (modulo m * Z.of_nat number)); [reflexivity|nia].
    + apply IH. intros k' Hk'. apply H. now right.
  - apply Forall_forall. intros m' Hm'. apply in_map_iff in Hm' as (k & <- & Hk). apply in_seq in Hk. unfold valid_moduler, sub. cbn. nia.
  - apply Forall_forall. intros m' Hm'. apply in_map_iff in Hm' as (k & <- & Hk). reflexivity.
  - intros i. assert (Hq : 0 <= (i / modulo m) mod Z.of_nat number < Z.of_nat number) by (apply Z.mod_pos_bound; lia).
    assert (Hacc : forall k, accepts (sub k) i = (accepts m i && Nat.eqb k (Z.to_nat ((i / modulo m) mod Z.of_nat number)))%bool).
    { intros k. unfold accepts, sub. cbn [modulo index]. rewrite Z.rem_mul_r by lia. pose proof (Z.mod_pos_bound i (modulo m) Hm) as Hr.
      destruct (Z.eqb_spec (i mod modulo m) (index m)) as [E|E]; cbn [andb].
      - rewrite E. destruct (Nat.eqb_spec k (Z.to_nat ((i / modulo m) mod Z.of_nat number))) as [Ek|Ek].
        + apply Z.eqb_eq. rewrite Ek, Z2Nat.id by lia. ring.
        + apply Z.eqb_neq. intros F. apply Ek. apply Nat2Z.inj. rewrite Z2Nat.id by lia. nia.
      - apply Z.eqb_neq. intros F. apply E. set (u := (i / modulo m) mod Z.of_nat number) in *. assert (Ek : (Z.of_nat k - u) * modulo m = i mod modulo m - index m) by lia.
        assert (Z.of_nat k - u = 0) by nia. nia. }
    assert (Hlen : forall l, length (filter (fun m' => accepts m' i) (map sub l)) = length (filter (fun k => accepts (sub k) i) l)).
    { induction l as [|k l IH]; [reflexivity|]. cbn [map filter]. destruct (accepts (sub k) i); cbn [length]; now rewrite IH. }
    rewrite Hlen. rewrite (filter_ext _ _ Hacc). destruct (accepts m i); cbn [andb].
    + rewrite count_eq. replace ((0 <=? Z.to_nat ((i / modulo m) mod Z.of_nat number))%nat) with true by reflexivity. cbn [andb]. destruct (Nat.ltb_spec (Z.to_nat ((i / modulo m) mod Z.of_nat number)) (0 + number)); [reflexivity|lia].
    + induction (seq 0 number); auto.
Qed.
(** The number of accepted indices. *)
Lemma count_accepted m : valid_moduler m -> forall n, Z.of_nat (length (filter (fun i => accepts m (Z.of_nat i)) (seq 0 n))) =
  Z.of_nat n / modulo m + (if index m <? Z.of_nat n mod modulo m then 1 else 0).
Proof.
  intros (Hm & Hi). induction n as [|n IH].
  - change (Z.of_nat 0) with 0. rewrite Z.mod_0_l, Z.div_0_l by lia. cbn [seq filter length]. destruct (Z.ltb_spec (index m) 0); lia.
  - rewrite seq_S, filter_app, app_length, Nat2Z.inj_add, IH. cbn [Nat.add filter]. replace (Z.of_nat (S n)) with (Z.of_nat n + 1) by lia. set (N := Z.of_nat n). unfold accepts.
    pose proof (Z.div_mod N (modulo m) ltac:(lia)) as D. pose proof (Z.mod_pos_bound N (modulo m) Hm) as B. set (q := N / modulo m) in *. set (r := N mod modulo m) in *.
    destruct (Z.eq_dec (r + 1) (modulo m)) as [E|E].
    + assert (Hq : (N + 1) / modulo m = q + 1) by (symmetry; apply Z.div_unique with 0; nia). assert (Hr : (N + 1) mod modulo m = 0) by (symmetry; apply Z.mod_unique with (q + 1); nia). rewrite Hq, Hr.
      destruct (Z.eqb_spec r (index m)), (Z.ltb_spec (index m) r), (Z.ltb_spec (index m) 0); cbn; lia.
    + assert (Hq : (N + 1) / modulo m = q) by (symmetry; apply Z.div_unique with (r + 1); nia). assert (Hr : (N + 1) mod modulo m = r + 1) by (symmetry; apply Z.mod_unique with q; nia). rewrite Hq, Hr.
      destruct (Z.eqb_spec r (index m)), (Z.ltb_spec (index m) r), (Z.ltb_spec (index m) (r + 1)); cbn; lia.
Qed.
Open Scope nat_scope.

Section Divide.
Context {X : Type} (maker : option Z -> list X).
Definition valid_chunk (c : chunk) : Prop := valid_moduler (get_moduler maker c) /\ match cap_index c with None => True | Some n => 0 < n end.
Definition full_total (c : chunk) : Prop := total_length (get_moduler maker c) = Some (Z.of_nat (length (islice (cap_index c) (maker None)) * repetitions c)).
Definition same_plan (c c' : chunk) : Prop := repetitions c' = repetitions c /\ seed c' = seed c /\ cap_index c' = cap_index c.
Lemma same_plan_plan c c' : same_plan c c' -> plan maker c' = plan maker c.
Proof. intros (H1 & H2 & H3). unfold plan, seeds. now rewrite H1, H2, H3. Qed.
Lemma chunk_split_spec c number : valid_chunk c -> 0 < number -> exists cs, chunk_split maker c number = Ok cs /\
  Forall (fun c' => valid_chunk c' /\ same_plan c c' /\ (full_total c -> full_total c')) cs /\
  Permutation (flat_map (chunk_iter maker) cs) (chunk_iter maker c).
Proof.
  intros (Hm & Hcap) Hn. destruct (split_spec _ number Hm Hn) as (ms & E & Hv & Ht & Hc). unfold chunk_split. rewrite E. cbn [bind]. eexists. split; [reflexivity|].
  assert (Hcap' : match cap_index c with None => None | Some n => Some (Nat.max 1 n) end = cap_index c) by (destruct (cap_index c); [f_equal; lia|reflexivity]). rewrite Hcap'. split.
  - apply Forall_forall. intros c' Hc'. apply in_map_iff in Hc' as (m & <- & Hin). rewrite Forall_forall in Hv, Ht. split; [|split].
    + split; [now apply Hv|exact Hcap].
    + now split.
    + intros Hf. unfold full_total. cbn [get_moduler ch_moduler cap_index repetitions]. rewrite Ht by assumption. exact Hf.
  - assert (Hflat : flat_map (chunk_iter maker) (map (fun m => mkchunk (repetitions c) (seed c) (cap_index c) (Some m)) ms) =
              flat_map (fun m => filter (fun kx => accepts m (Z.of_nat (fst kx))) (enumerated (plan maker c))) ms).
    { clear. induction ms as [|m ms IH]; [reflexivity|]. cbn [map flat_map]. rewrite IH. reflexivity. }
    rewrite Hflat. apply (flat_filter_perm (fun m kx => accepts m (Z.of_nat (fst kx)))). intros kx _. apply Hc.
Qed.
Scheme division_rec' := Induction for division Sort Prop with divisions_rec' := Induction for divisions Sort Prop.
Lemma division_spec c parts : division maker c parts -> valid_chunk c ->
  Forall (fun c' => valid_chunk c' /\ same_plan c c' /\ (full_total c -> full_total c')) parts /\ Permutation (flat_map (chunk_iter maker) parts) (chunk_iter maker c).
Proof.
  revert c parts. 
  apply (division_rec' X maker
    (fun c parts _ => valid_chunk c -> Forall (fun c' => valid_chunk c' /\ same_plan c c' /\ (full_total c -> full_total c')) parts /\ Permutation (flat_map (chunk_iter maker) parts) (chunk_iter maker c))
    (fun cs parts _ => forall c, Forall (fun c' => valid_chunk c' /\ same_plan c c' /\ (full_total c -> full_total c')) cs ->
       Forall (fun c' => valid_chunk c' /\ same_plan c c' /\ (full_total c -> full_total c')) parts /\ Permutation (flat_map (chunk_iter maker) parts) (flat_map (chunk_iter maker) cs))).
  - intros c Hv. split; [|cbn; now rewrite app_nil_r]. constructor; [|constructor]. split; [exact Hv|]. split; [now split|auto].
  - intros c number cs parts Hn E _ IH Hv. destruct (chunk_split_spec c number Hv Hn) as (cs' & E' & Hcs & Hp). rewrite E in E'. injection E' as <-. destruct (IH c Hcs) as (H1 & H2). split; [exact H1|]. now rewrite H2.
  - intros c _. split; constructor.
  - intros c cs parts parts' _ IH1 _ IH2 c0 H. inversion H as [|? ? (Hv & (P1 & P2 & P3) & Hf) Hcs]; subst. destruct (IH1 Hv) as (H1 & H2). destruct (IH2 c0 Hcs) as (H3 & H4). split.
    + apply Forall_app. split; [|exact H3]. eapply Forall_impl; [|exact H1]. intros c' (Q1 & (R1 & R2 & R3) & Q3). split; [exact Q1|]. split; [|auto]. split; [congruence|]. split; congruence.
    + cbn [flat_map]. rewrite flat_map_app. now apply Permutation_app.
Qed.
Lemma filter_enumerated (f : nat -> bool) (l : list X) : forall a, length (filter (fun kx => f (fst kx)) (combine (seq a (length l)) l)) = length (filter f (seq a (length l))).
Proof. induction l as [|x l IH]; intros a; [reflexivity|]. cbn [length seq combine filter fst]. destruct (f a); cbn [length]; now rewrite IH. Qed.
Lemma chunk_len_spec c : valid_chunk c -> full_total c -> (forall s, In s (seeds c) -> length (islice (cap_index c) (maker s)) = length (islice (cap_index c) (maker None))) ->
  chunk_len maker c = Ok (Z.of_nat (length (chunk_iter maker c))).
Proof.
  intros (Hm & _) Hf Hlen. unfold chunk_len, moduler_len. rewrite Hf. f_equal. unfold chunk_iter, enumerated. rewrite (filter_enumerated (fun i => accepts (get_moduler maker c) (Z.of_nat i))).
  rewrite count_accepted by exact Hm.
  assert (Hp : length (plan maker c) = length (islice (cap_index c) (maker None)) * repetitions c).
  { unfold plan. assert (Hs : length (seeds c) = repetitions c) by (unfold seeds; destruct (seed c); [rewrite map_length, seq_length|rewrite repeat_length]; reflexivity). rewrite <- Hs. clear Hs. induction (seeds c) as [|s l IH]; [cbn; lia|].
    cbn [flat_map length]. rewrite app_length, IH, (Hlen s) by (try (now left); intros; apply Hlen; now right). lia. }
  now rewrite Hp.
Qed.
End Divide.
Lemma combine_fst_firstn {A B} (l : list A) : forall (l' : list B), map fst (combine l l') = firstn (length l') l.
Proof. induction l as [|a l IH]; intros [|b l']; cbn; [reflexivity..|]. now rewrite IH. Qed.
Lemma NoDup_filter_fst {A B} (f : A * B -> bool) l : NoDup (map fst l) -> NoDup (map fst (filter f l)).
Proof.
  induction l as [|x l IH]; cbn; intros H; [constructor|]. inversion H as [|? ? Hn Hd]; subst. destruct (f x); [|auto]. cbn. constructor; [|auto]. intros Hin. apply Hn. apply in_map_iff in Hin as (y & <- & Hy). apply in_map. now apply filter_In in Hy.
Qed.
Lemma iter_nodup {X} (maker : option Z -> list X) c : NoDup (map fst (chunk_iter maker c)).
Proof.
  unfold chunk_iter. apply NoDup_filter_fst. unfold enumerated. rewrite combine_fst_firstn, <- (seq_length (length (plan maker c)) 0) at 1. rewrite firstn_all. apply seq_NoDup.
Qed.

(** Invariant of the computations. *)
Section Compute.
Context {X S D : Type}.
Variables (fresh : X -> S) (run : nat -> S -> S * option exn) (process : nat -> S -> option exn) (describe : S -> D) (same : X -> X -> bool).
Hypothesis same_refl : forall x, same x x = true.
Variable sel : list (nat * X).
Hypothesis sel_nodup : NoDup (map fst sel).
Local Notation ev := (event (S := S)).
Definition continues (t1 : list ev) (e : ev) : Prop :=
  exists x, In (e_index e, x) sel /\ e_before e = match last_event (e_index e) t1 with Some e' => e_after e' | None => fresh x end.
Record Inv (p : progress (X := X) (S := S) (D := D)) : Prop := {
  I_len : length (summaries p) <= length sel;
  I_index : map e_index (completed (trace p)) = firstn (length (summaries p)) (map fst sel);
  I_summaries : summaries p = map (fun e => describe (e_after e)) (completed (trace p));
  I_continues : forall t1 e t2, trace p = t1 ++ e :: t2 -> continues t1 e;
  I_once : forall t1 e t2, trace p = t1 ++ e :: t2 -> e_processed e = true -> ~ In (e_index e) (map e_index t2);
  I_processed : forall e, In e (trace p) -> e_processed e = true -> e_error e = None;
  I_where : forall e, In e (trace p) -> In (e_index e) (firstn (Datatypes.S (length (summaries p))) (map fst sel));
  I_current : match current p with
              | None => forall e, In e (trace p) -> In (e_index e) (firstn (length (summaries p)) (map fst sel))
              | Some (x, s) => exists i e, nth_error sel (length (summaries p)) = Some (i, x) /\ last_event i (trace p) = Some e /\ e_after e = s
              end }.
Lemma Inv_start : Inv (mkprogress [] None []).
Proof.
  split; cbn [summaries trace current].
  - apply Nat.le_0_l.
  - reflexivity.
  - reflexivity.
  - intros [|a0 t1] e t2 E; discriminate.
  - intros [|a0 t1] e t2 E; discriminate.
  - intros e [].
  - intros e [].
  - intros e [].
Qed.
Lemma last_event_app i t (e : ev) : last_event i (t ++ [e]) = if Nat.eqb (e_index e) i then Some e else last_event i t.
Proof. unfold last_event. rewrite rev_app_distr. reflexivity. Qed.
Lemma last_event_none i (t : list ev) : ~ In i (map e_index t) -> last_event i t = None.
Proof.
  intros H. unfold last_event. destruct (find _ (rev t)) as [e|] eqn:E; [|reflexivity]. apply find_some in E as (Hin & He). apply Nat.eqb_eq in He. exfalso. apply H. rewrite <- He. apply in_map. now apply in_rev.
Qed.
Lemma snoc_split {A} (t t1 t2 : list A) (e e' : A) : t ++ [e'] = t1 ++ e :: t2 -> (t2 = [] /\ t1 = t /\ e = e') \/ (exists t2', t2 = t2' ++ [e'] /\ t = t1 ++ e :: t2').
Proof.
  destruct t2 as [|a t2 _] using rev_ind; intros E.
  - left. apply app_inj_tail in E as (-> & ->). auto.
  - right. exists t2. split; [|]; rewrite app_comm_cons, app_assoc in E; apply app_inj_tail in E as (E1 & E2); congruence.
Qed.
Lemma firstn_snoc {A} (l : list A) k a : nth_error l k = Some a -> firstn (Datatypes.S k) l = firstn k l ++ [a].
Proof. revert k. induction l as [|x l IH]; intros [|k] E; cbn in *; try discriminate; [congruence|]. now rewrite IH. Qed.
Lemma nodup_nth_not_in {A} (l : list A) k a : NoDup l -> nth_error l k = Some a -> ~ In a (firstn k l).
Proof.
  revert k. induction l as [|x l IH]; intros [|k] Hd E; cbn in *; try discriminate; [tauto|]. inversion Hd as [|? ? Hn Hd']; subst. intros [->|Hin]; [apply Hn; eapply nth_error_In, E|eapply IH; eauto].
Qed.
(** The exception is the one that interrupted the last run, or that of the process function after it. *)
Definition interrupted (p : progress (X := X) (S := S) (D := D)) (e : exn) : Prop :=
  exists t e0, trace p = t ++ [e0] /\ e_processed e0 = false /\ (e_error e0 = Some e \/ (e_error e0 = None /\ process (length t) (e_after e0) = Some e)).
Lemma one_spec p i x p' r : Inv p -> nth_error sel (length (summaries p)) = Some (i, x) ->
  one_experiment fresh run process describe same p i x = (p', r) ->
  Inv p' /\ (r = None -> length (summaries p') = Datatypes.S (length (summaries p))) /\
  (forall e, r = Some e -> interrupted p' e).
Proof.
  intros HI Hnth E. pose proof HI as [H1 H2 H3 H4 H5 H6 H7 H8]. unfold one_experiment in E.
  assert (Hfst : nth_error (map fst sel) (length (summaries p)) = Some i) by (now rewrite nth_error_map, Hnth).
  set (k := length (summaries p)) in *. pose proof (firstn_snoc _ _ _ Hfst) as Hsn. pose proof (nodup_nth_not_in _ _ _ sel_nodup Hfst) as Hni.
  assert (Hcur : exists x0 s0, (match current p with None => (x, fresh x) | Some (x', s') => if negb (same x x') then (x, fresh x) else (x', s') end) = (x0, s0) /\
            x0 = x /\ s0 = match last_event i (trace p) with Some e' => e_after e' | None => fresh x end).
  { destruct (current p) as [[x' s']|].
    - destruct H8 as (i' & e' & Hn' & Hl & Ha). rewrite Hnth in Hn'. injection Hn' as <- <-. rewrite same_refl. cbn [negb]. exists x, s'. rewrite Hl. auto.
    - exists x, (fresh x). rewrite last_event_none; [auto|]. intros Hin. apply in_map_iff in Hin as (e & Ee & He). apply Hni. rewrite <- Ee. now apply H8. }
  destruct Hcur as (x0 & s0 & Ec & -> & Hs0). rewrite Ec in E. destruct (run (length (trace p)) s0) as [s1 o] eqn:Er.
  assert (Hklt : k < length sel) by (apply nth_error_Some; congruence).
  assert (Hcont : forall b o' t1 e t2, trace p ++ [mkevent i s0 s1 o' b] = t1 ++ e :: t2 -> continues t1 e).
  { intros b o' t1 e t2 Et. apply snoc_split in Et as [(-> & -> & ->)|(t2' & -> & Et)]; [|eapply H4; exact Et]. exists x. cbn [e_index e_before]. split; [eapply nth_error_In, Hnth|exact Hs0]. }
  assert (Honce : forall b o' t1 e t2, trace p ++ [mkevent i s0 s1 o' b] = t1 ++ e :: t2 -> e_processed e = true -> ~ In (e_index e) (map e_index t2)).
  { intros b o' t1 e t2 Et Hp. apply snoc_split in Et as [(-> & -> & ->)|(t2' & -> & Et)]; [cbn; tauto|]. rewrite map_app, in_app_iff. intros [Hin|[Hin|[]]]; [eapply H5; eauto|]. cbn in Hin.
    assert (Hc : In (e_index e) (map e_index (completed (trace p)))) by (apply in_map, filter_In; split; [rewrite Et; apply in_elt|exact Hp]). rewrite H2 in Hc. apply Hni. congruence. }
  assert (Hrerun : forall o', Inv (mkprogress (summaries p) (Some (x, s1)) (trace p ++ [mkevent i s0 s1 o' false]))).
  { intros o'. split; cbn [summaries trace current]; fold k.
    - exact H1.
    - unfold completed. rewrite filter_app. cbn [filter e_processed]. rewrite app_nil_r. exact H2.
    - unfold completed. rewrite filter_app. cbn [filter e_processed]. rewrite app_nil_r. exact H3.
    - apply Hcont.
    - apply Honce.
    - intros e He. apply in_app_or in He as [He|[<-|[]]]; [now apply H6|discriminate].
    - intros e He. apply in_app_or in He as [He|[<-|[]]]; [now apply H7|]. rewrite Hsn. apply in_or_app. right. now left.
    - exists i, (mkevent i s0 s1 o' false). split; [exact Hnth|]. rewrite last_event_app. cbn [e_index]. rewrite Nat.eqb_refl. auto. }
  destruct o as [e|].
  - injection E as <- <-. split; [apply Hrerun|]. split; [discriminate|]. intros e' He'. injection He' as <-. exists (trace p), (mkevent i s0 s1 (Some e) false). cbn. auto.
  - destruct (process (length (trace p)) s1) as [e|] eqn:Epr.
    + injection E as <- <-. split; [apply Hrerun|]. split; [discriminate|]. intros e' He'. injection He' as <-. exists (trace p), (mkevent i s0 s1 None false). cbn. auto.
    + injection E as <- <-. split; [|split; [|discriminate]].
      * split; cbn [summaries trace current]; rewrite ?app_length; cbn [length]; fold k; replace (k + 1) with (Datatypes.S k) by lia.
        -- lia.
        -- unfold completed. rewrite filter_app, map_app. cbn [filter e_processed map e_index]. unfold completed in H2. now rewrite H2, Hsn.
        -- unfold completed. rewrite filter_app, map_app. cbn [filter e_processed map e_after]. unfold completed in H3. now rewrite <- H3.
        -- apply Hcont.
        -- apply Honce.
        -- intros e He. apply in_app_or in He as [He|[<-|[]]]; [now apply H6|reflexivity].
        -- assert (Hsub : forall j, In j (firstn (Datatypes.S k) (map fst sel)) -> In j (firstn (Datatypes.S (Datatypes.S k)) (map fst sel))).
           { intros j Hj. replace (firstn (Datatypes.S k) (map fst sel)) with (firstn (Datatypes.S k) (firstn (Datatypes.S (Datatypes.S k)) (map fst sel))) in Hj by (rewrite firstn_firstn; f_equal; lia). rewrite <- (firstn_skipn (Datatypes.S k) (firstn (Datatypes.S (Datatypes.S k)) (map fst sel))). apply in_or_app. now left. }
           intros e He. apply Hsub. apply in_app_or in He as [He|[<-|[]]]; [now apply H7|]. rewrite Hsn. apply in_or_app. right. now left.
        -- intros e He. apply in_app_or in He as [He|[<-|[]]]; [now apply H7|]. rewrite Hsn. apply in_or_app. right. now left.
      * intros _. cbn [summaries]. rewrite app_length. cbn. lia.
Qed.
Lemma loop_spec l : forall done p p' r, sel = done ++ l -> Inv p -> length done <= length (summaries p) ->
  compute_loop fresh run process describe same (length done) p l = (p', r) ->
  Inv p' /\ match r with Ok ds => ds = summaries p' /\ length (summaries p') = length sel | Err e => interrupted p' e end.
Proof.
  induction l as [|[i x] l IH]; intros done p p' r Hsel HI Hle E; cbn [compute_loop] in E.
  - injection E as <- <-. split; [exact HI|]. split; [reflexivity|]. destruct HI as [H1 _ _ _ _ _ _ _]. rewrite Hsel, app_nil_r in *. lia.
  - assert (Hlen : Datatypes.S (length done) = length (done ++ [(i, x)])) by (rewrite app_length; cbn; lia). assert (Hsel' : sel = (done ++ [(i, x)]) ++ l) by (rewrite <- app_assoc; exact Hsel).
    destruct (Nat.ltb_spec (length done) (length (summaries p))) as [Hlt|Hge].
    + rewrite Hlen in E. eapply IH; [exact Hsel'|exact HI|rewrite <- Hlen; lia|exact E].
    + assert (Heq : length (summaries p) = length done) by lia. assert (Hnth : nth_error sel (length (summaries p)) = Some (i, x)) by (rewrite Heq, Hsel, nth_error_app2, Nat.sub_diag by lia; reflexivity).
      destruct (one_experiment fresh run process describe same p i x) as [p1 o] eqn:E1. destruct (one_spec p i x p1 o HI Hnth E1) as (HI1 & Hnone & Herr). destruct o as [e|].
      * injection E as <- <-. split; [exact HI1|now apply Herr].
      * specialize (Hnone eq_refl). rewrite Hlen in E. eapply IH; [exact Hsel'|exact HI1|rewrite <- Hlen; lia|exact E].
Qed.
End Compute.

(** C118: the tables of results. *)
From Coq Require Import Arith ZArith Bool Lia String Permutation List.
From Verif.Model Require Import Prelude Configured ResultTables.
From Verif.Spec Require Import ResultTables.
From Verif.Proofs Require Import Configured ResultTables.
Import ListNotations.
Open Scope list_scope.
Open Scope nat_scope.

Section Props.
Context {V : Type} (nan : V) (veqb vleb : V -> V -> bool).
Hypothesis veqb_eq : forall a b, veqb a b = true <-> a = b.

(** Selecting keeps exactly the rows which satisfy all the criteria, in their order, and all the columns;
    a criterion on a column which does not exist is an error. *)
Theorem C118_select (t : table V) (kw : list (string * criterion V)) : well_formed t ->
  ((forall n, In n (map fst kw) -> In n (cols t)) ->
   exists t' p, select veqb t kw = Ok t' /\ cols t' = cols t /\ rows t' = filter p (rows t) /\
     forall r, In r (rows t) ->
       (p r = true <-> forall n c, In (n, c) kw -> exists v, content nan t r n v /\ satisfies c v)) /\
  (forall n, In n (map fst kw) -> ~ In n (cols t) -> select veqb t kw = Err KeyError).
Proof.
  intros [Hn Hl]. rewrite Forall_forall in Hl. split.
  - intros Hk. exists (mktable (cols t) (filter (passes veqb (cols t) kw) (rows t))), (passes veqb (cols t) kw).
    split; [apply select_ok; exact Hk|]. split; [reflexivity|]. split; [reflexivity|].
    intros r Hr. apply passes_iff; auto.
  - intros n. apply select_err.
Qed.

(** Selecting and dropping gives the same rows without the columns of the criteria. *)
Theorem C118_drop (t t' : table V) (kw : list (string * criterion V)) : well_formed t -> select veqb t kw = Ok t' ->
  exists t'', select_and_drop nan veqb t kw = Ok t'' /\ well_formed t'' /\
    (forall n, In n (cols t'') <-> In n (cols t) /\ ~ In n (map fst kw)) /\
    Forall2 (fun r r'' => forall n v, In n (cols t'') -> (content nan t'' r'' n v <-> content nan t r n v)) (rows t') (rows t'').
Proof.
  intros [Hn Hl] Hs. rewrite Forall_forall in Hl.
  assert (Hk : forall n, In n (map fst kw) -> In n (cols t)).
  { intros n Hi. destruct (in_dec string_dec n (cols t)) as [H|H]; [exact H|].
    rewrite (select_err veqb kw t n Hi H) in Hs. discriminate. }
  unfold select_and_drop. rewrite Hs. rewrite (select_ok veqb kw t Hk) in Hs. inversion Hs. subst t'. clear Hs. cbn [bind].
  eexists. split; [reflexivity|]. cbn [cols rows].
  assert (Hn2 := NoDup_filter (fun c => negb (has (map fst kw) c)) Hn). repeat split.
  - exact Hn2.
  - cbn [project rows cols]. rewrite Forall_forall. intros r Hr. apply in_map_iff in Hr as [r0 [<- _]]. apply map_length.
  - cbn [project cols] in H. apply filter_In in H. tauto.
  - cbn [project cols] in H. apply filter_In in H as [_ H]. apply negb_true_iff, has_false in H. exact H.
  - intros [H1 H2]. cbn [project cols]. apply filter_In. split; [exact H1|]. apply negb_true_iff, has_false. exact H2.
  - cbn [project rows cols]. apply Forall2_self. intros r Hr n v Hi. apply filter_In in Hr as [Hr _].
    rewrite <- (project_content nan t _ r n v Hn Hn2 (Hl r Hr) Hi).
    rewrite content_value; [|exact Hn2|apply map_length]. rewrite content_value; [reflexivity|exact Hn2|apply map_length].
Qed.

(** The values of several columns are those of the rows; a missing value or an unknown column is an error. *)
Theorem C118_unique (t : table V) (names : list string) : well_formed t -> NoDup names ->
  match unique nan veqb t names with
  | Ok l => (forall n, In n names -> In n (cols t)) /\
            (forall tuple, In tuple l <-> exists r, In r (rows t) /\ Forall2 (fun n v => content nan t r n v) names tuple) /\
            (forall r n, In r (rows t) -> In n names -> ~ content nan t r n nan)
  | Err e => e = AssertionError /\
             ((exists n, In n names /\ ~ In n (cols t)) \/ exists r n, In r (rows t) /\ In n names /\ content nan t r n nan)
  end.
Proof.
  intros [Hn Hl] Hd. rewrite Forall_forall in Hl. unfold unique.
  destruct (forallb (has (cols t)) names) eqn:E.
  - rewrite forallb_forall in E. cbn [project rows].
    set (f := fun r => map (fun n => match cell (cols t) r n with Some v => v | None => nan end) names).
    assert (Hf : forall r tuple, In r (rows t) -> (Forall2 (fun n v => content nan t r n v) names tuple <-> tuple = f r)).
    { intros r tuple Hr. unfold f. clear Hd E f. revert tuple. induction names as [|n ns IH]; intros tuple; split.
      - intros H. inversion H. reflexivity.
      - intros ->. constructor.
      - intros H. inversion H as [|? v ? l H1 H2]; subst. cbn. apply content_value in H1; auto. apply IH in H2. subst. reflexivity.
      - intros ->. cbn. constructor; [apply content_value; auto|]. apply IH. reflexivity. }
    destruct (existsb (existsb (veqb nan)) (map f (rows t))) eqn:E2.
    + split; [reflexivity|]. right. apply existsb_exists in E2 as [x [H1 H2]]. apply in_map_iff in H1 as [r [<- Hr]].
      apply existsb_exists in H2 as [v [H2 H3]]. apply veqb_eq in H3. subst v. unfold f in H2. apply in_map_iff in H2 as [n [H2 H3]].
      exists r, n. split; [exact Hr|]. split; [exact H3|]. apply content_value; auto.
    + split; [|split].
      * intros n Hi. apply has_iff. auto.
      * intros tuple. rewrite in_map_iff. split.
        -- intros [r [H1 H2]]. exists r. split; [exact H2|]. apply Hf; auto.
        -- intros [r [H1 H2]]. exists r. apply Hf in H2; auto.
      * intros r n Hr Hi Hc. apply content_value in Hc; auto.
        assert (existsb (existsb (veqb nan)) (map f (rows t)) = true); [|congruence].
        apply existsb_exists. exists (f r). split; [apply in_map; exact Hr|]. apply existsb_exists. exists nan.
        split; [|apply veqb_eq; reflexivity]. unfold f. apply in_map_iff. exists n. split; [symmetry; exact Hc|exact Hi].
  - split; [reflexivity|]. left.
    assert (H : exists n, In n names /\ has (cols t) n = false).
    { clear Hd. induction names as [|n ns IH]; [discriminate|]. cbn in E. destruct (has (cols t) n) eqn:E2.
      - destruct (IH E) as [m [H1 H2]]. exists m. cbn. auto.
      - exists n. cbn. auto. }
    destruct H as [n [H1 H2]]. exists n. split; [exact H1|]. apply has_false. exact H2.
Qed.

(** The values of one column are those of the rows, missing ones included. *)
Theorem C118_column (t : table V) (name : string) : well_formed t ->
  match column_values nan t name with
  | Ok l => In name (cols t) /\ forall v, In v l <-> exists r, In r (rows t) /\ content nan t r name v
  | Err e => e = KeyError /\ ~ In name (cols t)
  end.
Proof.
  intros [Hn Hl]. rewrite Forall_forall in Hl. unfold column_values. destruct (has (cols t) name) eqn:E.
  - split; [apply has_iff; exact E|]. intros v. rewrite in_map_iff. split.
    + intros [r [H1 H2]]. exists r. split; [exact H2|]. apply content_value; auto.
    + intros [r [H1 H2]]. exists r. apply content_value in H2; auto.
  - split; [reflexivity|apply has_false; exact E].
Qed.

(** Two tables are equivalent when they have the same columns and, up to an order, rows of the same contents. *)
Theorem C118_equivalent (t other : table V) : total_order vleb -> well_formed t -> well_formed other ->
  (assert_equivalent nan veqb vleb t other = Ok tt <->
   (forall n, In n (cols t) <-> In n (cols other)) /\
   exists l, Permutation (rows other) l /\
     Forall2 (fun r r' => forall n v, content nan t r n v <-> content nan other r' n v) (rows t) l).
Proof.
  intros Ho [Hn Hl] [Hn' Hl']. rewrite Forall_forall in Hl, Hl'. unfold assert_equivalent.
  assert (Hc : forallb (has (cols t)) (cols other) && forallb (has (cols other)) (cols t) = true <->
               (forall n, In n (cols t) <-> In n (cols other))).
  { rewrite andb_true_iff, !forallb_forall. split.
    - intros [H1 H2] n. split; intros H; apply has_iff; auto.
    - intros H. split; intros n Hi; apply has_iff; apply H; exact Hi. }
  destruct (forallb (has (cols t)) (cols other) && forallb (has (cols other)) (cols t)) eqn:E; cbn [negb].
  2:{ split; [discriminate|]. intros [H _]. apply Hc in H. discriminate. }
  assert (Hs := proj1 Hc eq_refl). clear Hc.
  set (g := fun r => map (value nan (cols other) r) (cols t)).
  change (rows (project nan other (cols t))) with (map g (rows other)).
  assert (Hg : forall r r', In r (rows t) -> In r' (rows other) ->
    ((forall n v, content nan t r n v <-> content nan other r' n v) <-> r = g r')).
  { intros r r' Hr Hr'. split.
    - intros H. apply (row_eq nan (cols t)); [exact Hn|auto|unfold g; apply map_length|].
      intros n Hi. unfold g. rewrite value_map by exact Hn. rewrite (proj2 (has_iff _ _) Hi).
      apply (content_value nan other r' n); [exact Hn'|auto|]. apply H. apply content_value; auto.
    - intros -> n v. rewrite content_value; [|exact Hn|auto]. rewrite content_value; [|exact Hn'|auto].
      unfold g. rewrite value_map by exact Hn. destruct (has (cols t) n) eqn:E2; [reflexivity|].
      apply has_false in E2. rewrite Hs in E2. unfold value. rewrite cell_none; [reflexivity|exact Hn'|exact E2]. }
  assert (Hp : Permutation (rows t) (map g (rows other)) <-> exists l, Permutation (rows other) l /\
     Forall2 (fun r r' => forall n v, content nan t r n v <-> content nan other r' n v) (rows t) l).
  { split.
    - intros H. symmetry in H. apply Permutation_sym in H. destruct (Permutation_map_inv g (rows other) H) as [l [H1 H2]].
      exists l. split; [exact H2|]. assert (Hin : forall x, In x l -> In x (rows other)) by (intros x Hx; eapply Permutation_in; [symmetry; exact H2|exact Hx]).
      assert (Hg' : forall r', In r' l -> In (g r') (rows t)) by (intros r' Hr'; rewrite H1; apply in_map; exact Hr').
      rewrite H1. clear H1 H2 H. induction l as [|x l IH]; cbn; constructor.
      + apply Hg; [apply Hg'; left; reflexivity|apply Hin; left; reflexivity|reflexivity].
      + apply IH; intros; [apply Hin|apply Hg']; right; assumption.
    - intros [l [H1 H2]]. rewrite (Permutation_map g H1).
      assert (Hin : forall x, In x l -> In x (rows other)) by (intros x Hx; eapply Permutation_in; [symmetry; exact H1|exact Hx]).
      cut (forall rs, Forall2 (fun r r' => forall n v, content nan t r n v <-> content nan other r' n v) rs l ->
        (forall x, In x rs -> In x (rows t)) -> Permutation rs (map g l)); [intros C; apply C; auto|]. clear H1 H2.
      induction l as [|x l IH]; intros rs H2 Hrt; inversion H2 as [|r ? rs' ? H3 H4]; subst; cbn; [constructor|].
      replace r with (g x).
      + constructor. apply IH; [intros; apply Hin; right; assumption|exact H4|intros; apply Hrt; right; assumption].
      + symmetry. apply Hg; [apply Hrt; left; reflexivity|apply Hin; left; reflexivity|exact H3]. }
  destruct (List.length (rows other) =? List.length (rows t)) eqn:E2; cbn [negb].
  - apply Nat.eqb_eq in E2. pose proof (tsort_equal veqb vleb veqb_eq Ho (rows t) (map g (rows other))) as Ht.
    rewrite map_length in Ht. specialize (Ht (eq_sym E2)).
    destruct (all_equal veqb _ _) eqn:E3.
    + split; [|reflexivity]. intros _. split; [exact Hs|]. apply Hp, Ht. reflexivity.
    + split; [discriminate|]. intros [_ H]. apply Hp, Ht in H. discriminate.
  - apply Nat.eqb_neq in E2. split; [discriminate|]. intros [_ H]. apply Hp in H. apply Permutation_length in H.
    rewrite map_length in H. lia.
Qed.

(** Appending to a file keeps the rows of the file and adds the new ones, and does not touch the other files. *)
Theorem C118_append (writable : string -> bool) (fs : files V) (path : string) (df : table V) :
  well_formed df -> (forall t, sget path fs = Some t -> well_formed t) -> writable path = true ->
  exists fs' t', save_or_append nan writable fs path df = Ok fs' /\ sget path fs' = Some t' /\ well_formed t' /\
    (forall t ts, sget path fs = Some t -> gathers nan t ts -> gathers nan t' (ts ++ [df])) /\
    (sget path fs = None -> t' = df) /\
    (forall p, p <> path -> sget p fs' = sget p fs).
Proof.
  intros Hd Hf Hw. unfold save_or_append. rewrite Hw. eexists _, _. split; [reflexivity|].
  rewrite sget_sset, String.eqb_refl. split; [reflexivity|].
  assert (Ho : forall (x : table V) p, p <> path -> sget p (sset path x fs) = sget p fs).
  { intros x p Hp. rewrite sget_sset. apply String.eqb_neq in Hp. rewrite Hp. reflexivity. }
  destruct (sget path fs) as [t|] eqn:E.
  - specialize (Hf t eq_refl). split; [apply concat_wf; assumption|]. split; [|split; [discriminate|apply Ho]].
    intros t0 ts H0 Hg. inversion H0. subst t0. apply gathers_concat; assumption.
  - split; [exact Hd|]. split; [discriminate|]. split; [reflexivity|apply Ho].
Qed.

(** Repeating an experiment gathers, in one file and after what it had, the results for a seed incremented at each repetition. *)
Theorem C118_repeated (writable : string -> bool) (experiment : string) (compute : option Z -> table V)
    (fs : files V) (output : option string) (seed : option Z) (n : nat) (path : string) :
  destination writable experiment output path -> writable path = true ->
  (forall s, well_formed (compute s)) -> (forall t, sget path fs = Some t -> well_formed t) -> 0 < n ->
  exists fs' t', repeated_launch nan writable experiment compute fs output seed n = Ok (fs', path) /\
    sget path fs' = Some t' /\
    gathers nan t' ((match sget path fs with Some t => [t] | None => [] end) ++
                    map (fun k => compute (match seed with Some s => Some (s + Z.of_nat k)%Z | None => None end)) (seq 0 n)) /\
    (forall p, p <> path -> sget p fs' = sget p fs).
Proof.
  intros Hd Hw Hc Hf Hpos.
  assert (Hl : forall fs df, launch nan writable experiment fs output df =
                 bind (save_or_append nan writable fs path df) (fun fs' => Ok (fs', path))).
  { intros fs0 df. unfold launch, save_or_append. inversion Hd as [o H|H|o H]; subst.
    - rewrite Hw. reflexivity.
    - fold (default_path experiment). fold (default_path experiment) in Hw. rewrite Hw. reflexivity.
    - rewrite H. fold (default_path experiment). fold (default_path experiment) in Hw. rewrite Hw. reflexivity. }
  unfold repeated_launch.
  assert (G : forall n fs t ts k p0, sget path fs = Some t -> well_formed t -> gathers nan t ts ->
    exists fs' t', repeated nan writable experiment compute fs p0 output seed k n = Ok (fs', if n =? 0 then p0 else path) /\
      sget path fs' = Some t' /\
      gathers nan t' (ts ++ map (fun k => compute (match seed with Some s => Some (s + Z.of_nat k)%Z | None => None end)) (seq k n)) /\
      (forall p, p <> path -> sget p fs' = sget p fs)).
  { clear n Hpos Hf fs. induction n as [|n IH]; intros fs t ts k p0 Ht Hwt Hg.
    - exists fs, t. cbn. rewrite app_nil_r. auto.
    - cbn [repeated]. rewrite Hl. set (df := compute _).
      destruct (C118_append writable fs path df) as [fs1 [t1 [H1 [H2 [H3 [H4 [_ H5]]]]]]]; [apply Hc|intros t0 H0; congruence|exact Hw|].
      rewrite H1. cbn [bind fst snd].
      destruct (IH fs1 t1 (ts ++ [df]) (S k) path H2 H3 (H4 t ts Ht Hg)) as [fs2 [t2 [I1 [I2 [I3 I4]]]]].
      exists fs2, t2. rewrite I1. split; [destruct n; reflexivity|]. split; [exact I2|]. split.
      + rewrite <- app_assoc in I3. cbn [seq map]. exact I3.
      + intros p Hp. rewrite I4, H5; auto. }
  destruct (sget path fs) as [t|] eqn:E.
  - destruct (G n fs t [t] 0 "default.csv"%string E (Hf t eq_refl) (gathers_self nan t)) as [fs' [t' [H1 H2]]].
    exists fs', t'. destruct n; [lia|]. cbn [Nat.eqb] in H1. auto.
  - destruct n as [|n]; [lia|]. cbn [repeated]. rewrite Hl. set (df := compute _).
    destruct (C118_append writable fs path df) as [fs1 [t1 [H1 [H2 [H3 [_ [H4 H5]]]]]]]; [apply Hc|intros t0 H0; congruence|exact Hw|].
    rewrite H1. cbn [bind fst snd]. specialize (H4 E). subst t1.
    destruct (G n fs1 df [df] 1 path H2 H3 (gathers_self nan df)) as [fs2 [t2 [I1 [I2 [I3 I4]]]]].
    exists fs2, t2. rewrite I1. split; [destruct n; reflexivity|]. split; [exact I2|]. split; [exact I3|].
    intros p Hp. rewrite I4, H5; auto.
Qed.

(** Results are lost only when neither file can be written. *)
Theorem C118_lost (writable : string -> bool) (experiment : string) (fs : files V) (output : option string) (df : table V) (e : exn) :
  launch nan writable experiment fs output df = Err e ->
  writable (experiment ++ ".csv")%string = false /\ (forall o, output = Some o -> writable o = false).
Proof.
  unfold launch, save_or_append. fold (default_path experiment). destruct output as [o|].
  - destruct (writable o) eqn:E; [discriminate|]. destruct (writable (default_path experiment)) eqn:E2; [discriminate|].
    intros _. split; [reflexivity|]. intros o' H. congruence.
  - destruct (writable (default_path experiment)) eqn:E; [discriminate|]. intros _. split; [reflexivity|discriminate].
Qed.
End Props.
Print Assumptions C118_select.
Print Assumptions C118_drop.
Print Assumptions C118_unique.
Print Assumptions C118_column.
Print Assumptions C118_equivalent.
Print Assumptions C118_append.
Print Assumptions C118_repeated.
Print Assumptions C118_lost.

(** Numbers; 0 is the missing value. *)
Definition t1 : table Z := mktable ["loss"; "seed"]%string [[5; 1]; [3; 2]; [5; 3]]%Z.
Definition t2 : table Z := mktable ["seed"; "time"]%string [[4; 9]]%Z.
Example t1_wf : well_formed t1.
Proof. split; [repeat constructor; cbn; intuition discriminate|repeat constructor]. Qed.
Example order_ok : total_order Z.leb.
Proof. repeat split; intros; rewrite ?Z.leb_le in *; lia. Qed.
Example select_ex : select Z.eqb t1 [("loss", Equal 5%Z); ("seed", Such (fun s => Z.ltb 1 s))]%string = Ok (mktable ["loss"; "seed"]%string [[5; 3]]%Z).
Proof. reflexivity. Qed.
Example drop_ex : select_and_drop 0%Z Z.eqb t1 [("loss", Among [5; 7]%Z)]%string = Ok (mktable ["seed"]%string [[1]; [3]]%Z).
Proof. reflexivity. Qed.
Example append_ex : concat_tables 0%Z t1 t2 =
  mktable ["loss"; "seed"; "time"]%string [[5; 1; 0]; [3; 2; 0]; [5; 3; 0]; [0; 4; 9]]%Z.
Proof. reflexivity. Qed.
Example equivalent_ex : assert_equivalent 0%Z Z.eqb Z.leb t1 (mktable ["seed"; "loss"]%string [[3; 5]; [1; 5]; [2; 3]]%Z) = Ok tt /\
  assert_equivalent 0%Z Z.eqb Z.leb t1 (mktable ["seed"; "loss"]%string [[3; 5]; [1; 5]; [2; 5]]%Z) = Err AssertionError.
Proof. split; reflexivity. Qed.
Example repeated_ex :
  repeated_launch 0%Z (fun p => String.eqb p "xp.csv") "xp" (fun s => mktable ["seed"]%string [[match s with Some z => z | None => 0 end]]%Z)
    [("xp.csv", t2)]%string (Some "/ro/a.csv"%string) (Some 12%Z) 2
  = Ok ([("xp.csv", mktable ["seed"; "time"] [[4; 9]; [12; 0]; [13; 0]]%Z)]%string, "xp.csv"%string).
Proof. reflexivity. Qed.

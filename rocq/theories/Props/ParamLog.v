(** C123: what logging callbacks leave behind. *)
From Coq Require Import Arith List String Ascii ZArith Lia Permutation.
From Verif Require Import Model.Prelude Model.Configured Model.ParamLog Spec.ParamLog Proofs.Configured Proofs.ParamLog.
Import ListNotations.
Open Scope nat_scope.
Open Scope list_scope.

(** a log file holds what it held before, followed by one record for each call whose data json can write, in the order
    of the calls, whichever loggers (opened for appending) made the calls; a logger created with append=False
    discards everything written before it *)
Theorem C123_lines : forall evs, exists out, lines_of evs out /\
  (~ In (Create false) evs -> forall f, load (run evs f) = load f ++ out) /\
  (~ In (Create false) evs -> forall before f, load (run (before ++ Create false :: evs) f) = out).
Proof.
  intros evs. destruct (lines_exist evs) as [out H]. exists out. split; [easy|]. split.
  - intros N f. now apply run_lines.
  - intros N before f. rewrite run_app.
    change (run (Create false :: evs) (run before f)) with (run evs (create false (run before f))).
    rewrite (run_lines evs N out H). unfold create. now destruct (run before f).
Qed.
Print Assumptions C123_lines.

(** every parameter is logged under its name, and its sigma, unless two parameters share a key with different values *)
Theorem C123_params : forall session order t k v, shows t k v -> (forall v', shows t k v' -> v' = v) ->
  holds (record_of session order t) k v.
Proof.
  intros session order t k v H U. unfold holds. rewrite record_eq. apply updates_here.
  - now apply shows_iff.
  - intros v' I. apply U. now apply shows_iff.
Qed.
Print Assumptions C123_params.

(** the fields about the run are logged unless a parameter takes their key, and nothing else is logged *)
Theorem C123_fields : forall session order t k v, NoDup (map fst (ti_config t)) ->
  (field session t k v -> (forall v', ~ shows t k v') -> holds (record_of session order t) k v) /\
  (holds (record_of session order t) k v -> field session t k v \/ shows t k v).
Proof.
  intros session order t k v N. unfold holds. rewrite record_eq. split.
  - intros F H. rewrite updates_other; [now apply fields_hold|]. intros I. apply in_map_iff in I as ([k' v'] & E & I).
    cbn in E. subst k'. apply (H v'). now apply shows_iff.
  - intros H. apply updates_inv in H as [H|[_ H]]; [right; now apply shows_iff|left; now apply fields_only].
Qed.
Print Assumptions C123_fields.

(** a run with two objectives of a candidate with an array under the name x and its sigma *)
Definition sample_tell (x : jv) : tellinfo :=
  TellInfo 1 2 3 4 0 100 101 2 [99%Z] 7 [5%Z; 6%Z] 1 [("scale"%string, 8%Z)] None
    (fun order => if 1 <=? order then [("x"%string, x, Some (JAtom 1)); ("x#sigma"%string, JAtom 1, Some (JAtom 9))]
                  else [("x"%string, x, Some (JAtom 1))]).
Example C123_record_case :
  let rec := record_of 50 1 (sample_tell (JList [JAtom 10; JAtom 11])) in
  holds rec "#losses#1" (JAtom 6) /\ holds rec "x" (JList [JAtom 10; JAtom 11]) /\ holds rec "x#sigma" (JAtom 1) /\
  holds rec "#parents_uids" (JList [JAtom 99]) /\ holds rec "#optimizer#scale" (JAtom 8) /\
  load (run [Told 50 1 (sample_tell (JAtom 3)); Create false; Told 50 1 (sample_tell JBad);
             Told 50 1 (sample_tell (JList [JAtom 10; JAtom 11]))] None) = [rec].
Proof. vm_compute. repeat split. Qed.
(** the hypotheses of C123_params and C123_fields on this case *)
Example C123_params_case : let t := sample_tell (JList [JAtom 10; JAtom 11]) in
  (shows t "x#sigma" (JAtom 1) /\ forall v', shows t "x#sigma" v' -> v' = JAtom 1) /\
  (field 50 t "#loss" (JAtom 7) /\ forall v', ~ shows t "#loss" v') /\ NoDup (map fst (ti_config t)).
Proof.
  intros t. split; [split|split; [split|]].
  - apply shows_iff. cbn. tauto.
  - intros v' H. apply shows_iff in H. cbn in H. repeat (destruct H as [[= <-]|H]; [reflexivity|] || destruct H as [H|H]; try discriminate H); easy.
  - constructor.
  - intros v' H. apply shows_iff in H. cbn in H. repeat (destruct H as [H|H]; [discriminate H|]). easy.
  - cbn. repeat constructor. easy.
Qed.

(** the constructor documents "order: order of the internal/model parameters to extract", but a logger of order 2 does
    not log the parameters of order 2 *)
Theorem C123_order_refuted : ~ forall session order t name value sigma,
  In (name, value, sigma) (ti_flat t order) -> name <> ""%string ->
  exists v, holds (record_of session order t) name v.
Proof.
  intros H.
  set (t := TellInfo 1 2 3 4 0 100 101 1 [] 7 [] 1 [] None
    (fun order => ("x"%string, JAtom 1, None) :: (if 1 <=? order then [("x#sigma"%string, JAtom 2, None)] else []) ++
                  (if 2 <=? order then [("x#sigma#sigma"%string, JAtom 3, None)] else []))).
  destruct (H 0%Z 2 t "x#sigma#sigma"%string (JAtom 3) None) as [v E].
  - cbn. tauto.
  - discriminate.
  - vm_compute in E. discriminate E.
Qed.
Print Assumptions C123_order_refuted.

(** a call whose data cannot be written as json leaves no record: not every call is logged *)
Theorem C123_every_call_refuted : ~ forall evs,
  (forall e, In e evs -> exists s o t, e = Told s o t) -> List.length (load (run evs None)) = List.length evs.
Proof.
  intros H. specialize (H [Told 0 1 (sample_tell JBad)]). vm_compute in H.
  discriminate H. intros e [<-|[]]. eauto.
Qed.
Print Assumptions C123_every_call_refuted.

(** load_flattened gives one dict for each record: elements of lists under their own key, the first [max] of each list in
    reading order, other values under their key unless an element takes it, and nothing else; distinct
    elements never share a key *)
Theorem C123_flattened : forall order max evs rs, (forall l, Permutation l (order l)) ->
  load_flattened order max (run evs None) = Ok rs ->
  Forall2 (flattened max) (load (run evs None)) rs.
Proof.
  intros order max evs rs P H. apply flat_records_two in H.
  assert (N := run_nodup evs None (Forall_nil _)).
  induction H as [|rec r data rs E H IH]; [constructor|]. inversion N as [|? ? N1 N2]; subst. constructor; [|auto].
  destruct (flat_record_ok order max rec r P N1 E) as (_ & A & B & C). unfold flattened, kept, holds. split; [|split].
  - intros key p a (l & K & Ee & R). now apply (A key (JList l)).
  - intros k v K NL D. apply B; [easy| |].
    + destruct v; try easy. now destruct (NL l).
    + intros key l p a K' L Ee R. destruct l as [|l|]; try easy. apply (D key p a). now exists l.
  - intros k u K. destruct (C k u K) as [[L K']|(key & v & p & a & K' & L & Ee & R & -> & ->)].
    + left. split; [easy|]. intros l ->. easy.
    + right. destruct v as [|l|]; try easy. exists key, p, a. split; [now exists l|easy].
Qed.
Print Assumptions C123_flattened.

(** it works when the lists come from arrays *)
Theorem C123_flat_total : forall order max f, (forall l, Permutation l (order l)) ->
  (forall rec k l, In rec (load f) -> In (k, JList l) rec -> exists s, rectangular s (JList l)) ->
  exists rs, load_flattened order max f = Ok rs.
Proof.
  intros order max f P H. unfold load_flattened. induction (load f) as [|rec data IH]; [now exists []|].
  destruct IH as [rs E]; [intros rec' k l I; apply H; now right|].
  destruct (flat_record_total order max rec P) as [r Er].
  - intros k v I L. destruct v as [|l|]; try easy. destruct (H rec k l (or_introl eq_refl) I) as [s R].
    now rewrite (rect_shape _ _ R).
  - exists (r :: rs). cbn. now rewrite Er, E.
Qed.
Print Assumptions C123_flat_total.

(** the key of an element determines the list and the element *)
Theorem C123_elements_apart : forall max rec key p a key' p' a' s,
  kept max rec key p a -> kept max rec key' p' a' -> (forall l, holds rec key (JList l) -> rectangular s (JList l)) ->
  elt_key key p = elt_key key' p' -> key = key' /\ p = p' /\ a = a'.
Proof.
  intros max rec key p a key' p' a' s (l & K & E & _) (l' & K' & E' & _) R H. apply elt_key_inj in H as [-> H].
  unfold holds in *. assert (l' = l) by congruence. subst l'. specialize (R l K). apply rect_shape in R.
  apply join_inj in H; [|now rewrite (shape_paths _ _ _ _ R E), (shape_paths _ _ _ _ R E')]. subst. split; [easy|].
  split; [easy|congruence].
Qed.
Print Assumptions C123_elements_apart.

(** a 2x2 array, of which 3 elements are kept *)
Example C123_flat_case :
  let f := run [Told 50 1 (sample_tell (JList [JList [JAtom 10; JAtom 11]; JList [JAtom 12; JAtom 13]]))] None in
  exists r, load_flattened (fun l => l) 3 f = Ok [r] /\ holds r "x#1_0" (JAtom 12) /\ holds r "#parents_uids#0" (JAtom 99) /\
    sget "x#1_1" r = None /\ sget "x" r = None /\ holds r "#loss" (JAtom 7).
Proof. eexists. split; [vm_compute; reflexivity|]. vm_compute. repeat split. Qed.
Example C123_rect_case : rectangular [2; 2] (JList [JList [JAtom 10; JAtom 11]; JList [JAtom 12; JAtom 13]]).
Proof.
  apply (rect_list [2] [_; _]). intros x [<-|[<-|[]]]; apply (rect_list [] [_; _]); intros y [<-|[<-|[]]]; constructor.
Qed.

(** a value can be hidden by the element of a list: a parameter named x#0 next to an array x *)
Theorem C123_hidden_refuted : ~ forall max evs rs, load_flattened (fun l => l) max (run evs None) = Ok rs ->
  forall rec r k v, In (rec, r) (combine (load (run evs None)) rs) -> holds rec k v -> (forall l, v <> JList l) -> holds r k v.
Proof.
  intros H.
  set (t := TellInfo 1 2 3 4 0 100 101 1 [] 7 [] 1 [] None
    (fun _ => [("x"%string, JList [JAtom 20; JAtom 21], None); ("x#0"%string, JAtom 5, None)])).
  set (evs := [Told 0 1 t]).
  destruct (load_flattened (fun l => l) 24 (run evs None)) as [rs|e] eqn:E; [|vm_compute in E; discriminate E].
  specialize (H 24 evs rs E). vm_compute in E. injection E as <-.
  set (rec := record_of 0 1 t) in *.
  specialize (H rec _ "x#0"%string (JAtom 5) (or_introl eq_refl)).
  assert (X : holds rec "x#0"%string (JAtom 5)) by (vm_compute; reflexivity). specialize (H X).
  assert (Y : forall l, JAtom 5 <> JList l) by discriminate. specialize (H Y). vm_compute in H. discriminate H.
Qed.
Print Assumptions C123_hidden_refuted.

(** the progress bar shows the number of calls since the beginning, also when the optimizer (with its callbacks) has been
    dumped and loaded again in between *)
Theorem C123_progress : forall evs, let p := pg_run (evs ++ [PCall]) in pg_bar p = Some (calls evs + 1).
Proof.
  assert (G : forall evs, pg_current (pg_run evs) = calls evs /\
    (pg_bar (pg_run evs) = None \/ pg_bar (pg_run evs) = Some (calls evs))).
  { induction evs as [|e evs [IH1 IH2]] using rev_ind; [now split; [|left]|].
    unfold pg_run in *. rewrite fold_left_app. cbn [fold_left]. unfold calls in *. rewrite filter_app, app_length.
    destruct e; cbn [pg_step filter List.length pg_call pg_reload pg_current pg_bar].
    - split; [now rewrite IH1|]. right. destruct IH2 as [->| ->]; [now rewrite IH1|reflexivity].
    - rewrite Nat.add_0_r. split; [easy|now left]. }
  intros evs p. unfold p, pg_run. rewrite fold_left_app. cbn [fold_left pg_step pg_call pg_bar].
  destruct (G evs) as [G1 G2]. unfold pg_run in *. destruct G2 as [->| ->]; [now rewrite G1|reflexivity].
Qed.
Print Assumptions C123_progress.
Example C123_progress_case : pg_bar (pg_run [PCall; PCall; PReload; PReload; PCall]) = Some 3.
Proof. reflexivity. Qed.

(** the optimizer dumped on "tell" is the one before the tell in progress: of n tells the file holds all but the last;
    dumped on "ask", the file holds every tell made before the last ask *)
Theorem C123_dump : forall before after,
  (forall x, (forall y, ~ In (DTell y) after) ->
     exists o, snd (d_run OnTell (before ++ DTell x :: after)) = Some o /\ d_told o = tells before) /\
  (~ In DAsk after -> exists o, snd (d_run OnAsk (before ++ DAsk :: after)) = Some o /\ d_told o = tells before).
Proof.
  assert (T : forall h evs, d_told (fst (d_run h evs)) = tells evs).
  { intros h evs. induction evs as [|e evs IH] using rev_ind; [easy|]. unfold d_run in *. rewrite fold_left_app. cbn [fold_left].
    destruct (fold_left (d_step h) evs _) as [o f]. cbn in IH. unfold tells in *. rewrite flat_map_app. rewrite <- IH.
    destruct e; cbn; now rewrite ?app_nil_r. }
  intros before after. split.
  - intros x N. unfold d_run. rewrite fold_left_app. cbn [fold_left]. specialize (T OnTell before). unfold d_run in T.
    destruct (fold_left (d_step OnTell) before _) as [o f]. cbn [fst] in T. exists o. split; [|easy].
    cbn [d_step]. generalize (d_do o (DTell x)). clear T.
    induction after as [|e after IH]; intros o'; [easy|]. cbn [fold_left d_step]. destruct e as [|y].
    + apply IH. intros z I. apply (N z). now right.
    + exfalso. apply (N y). now left.
  - intros N. unfold d_run. rewrite fold_left_app. cbn [fold_left]. specialize (T OnAsk before). unfold d_run in T.
    destruct (fold_left (d_step OnAsk) before _) as [o f]. cbn [fst] in T. exists o. split; [|easy].
    cbn [d_step]. generalize (d_do o DAsk). clear T.
    induction after as [|e after IH]; intros o'; [easy|]. cbn [fold_left d_step]. destruct e as [|y].
    + exfalso. apply N. now left.
    + apply IH. intros I. apply N. now right.
Qed.
Print Assumptions C123_dump.

(** so that a run restarted from the dump made on "tell" has lost the last evaluation *)
Theorem C123_dump_refuted : ~ forall evs o, snd (d_run OnTell evs) = Some o -> d_told o = tells evs.
Proof. intros H. specialize (H [DAsk; DTell 5] _ eq_refl). discriminate H. Qed.
Print Assumptions C123_dump_refuted.

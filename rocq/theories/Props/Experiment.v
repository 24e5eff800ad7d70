(** C85 copies of the functions of benchmarks, and multi-objective ones; C86 runs of experiments *)
From Coq Require Import Arith ZArith QArith Bool List Lia.
From Verif.Model Require Import Prelude Experiment.
From Verif.Spec Require Import Experiment.
From Verif.Proofs Require Import Prelude Experiment.
Import ListNotations.
Open Scope nat_scope.

(** ** C85 *)
(** A copy is equivalent to the original: same class, same descriptors, same name of parametrization; and it has the same
    flags, constraint checkers and upper bounds. *)
Theorem C85_copy construct f g : records construct -> NoDup (dkeys (f_desc f)) -> copy construct f = Ok g ->
  equivalent_to g f = true /\ f_class g = f_class f /\ f_init g = f_init f /\ same_items (f_desc g) (f_desc f) /\
  p_name (f_param g) = p_name (f_param f) /\ p_flags (f_param g) = p_flags (f_param f) /\ p_checkers (f_param g) = p_checkers (f_param f) /\
  f_upper g = f_upper f.
Proof.
  intros R W H. pose proof (copy_spec construct f R W) as S. rewrite H in S. destruct S as (A & _ & Fl & Ch & Up & out & _ & _ & In & _).
  split; [now apply equivalent_alike|]. destruct A as (A1 & A2 & A3). auto 10.
Qed.
Print Assumptions C85_copy.
(** Exactly when a copy can be made: when a function newly made with the same arguments has no descriptor with another value,
    and no descriptor was added under a reserved name. *)
Theorem C85_copy_iff construct f : records construct -> NoDup (dkeys (f_desc f)) ->
  ((exists g, copy construct f = Ok g) <-> exists out, construct (f_class f) (f_init f) = Ok out /\ consistent out f).
Proof.
  intros R W. pose proof (copy_spec construct f R W) as S. destruct (copy construct f) as [g|e].
  - destruct S as (_ & _ & _ & _ & _ & out & E & C & _). split; [intros _; eauto|intros _; eauto].
  - split; [intros (g & H); discriminate|]. intros (out & E & C). destruct S as [S|(_ & o & S & N)]; [congruence|].
    rewrite E in S. injection S as <-. contradiction.
Qed.
Print Assumptions C85_copy_iff.
(** What it raises otherwise: the error of the constructor, or the error of copies *)
Theorem C85_copy_error construct f e : records construct -> NoDup (dkeys (f_desc f)) -> copy construct f = Err e ->
  construct (f_class f) (f_init f) = Err e \/ e = CopyError.
Proof.
  intros R W H. pose proof (copy_spec construct f R W) as S. rewrite H in S. destruct S as [S|(S & _)]; auto.
Qed.
Print Assumptions C85_copy_error.
(** A function which can be copied can be copied, and its copies too, whatever the number of times; all are equivalent to it. *)
Theorem C85_copies construct f : records construct -> NoDup (dkeys (f_desc f)) -> (exists g, copy construct f = Ok g) ->
  forall n, (exists g, copied construct f n g) /\ (forall g, copied construct f n g ->
    equivalent_to g f = true /\ p_flags (f_param g) = p_flags (f_param f) /\ p_checkers (f_param g) = p_checkers (f_param f) /\ f_upper g = f_upper f).
Proof.
  intros R W Hc. pose proof (proj1 (C85_copy_iff construct f R W) Hc) as (out & E & C).
  assert (I : forall n g, copied construct f n g -> NoDup (dkeys (f_desc g)) /\ f_init g = f_init f /\ alike g f /\
            p_flags (f_param g) = p_flags (f_param f) /\ p_checkers (f_param g) = p_checkers (f_param f) /\ f_upper g = f_upper f).
  { induction n as [|n IH]; intros g H.
    - inversion H; subst. unfold alike, same_items. auto 10.
    - inversion H as [|? h ? H1 H2]; subst. destruct (IH _ H1) as (N & In & (A1 & A2 & A3) & Fl & Ch & Up).
      pose proof (copy_spec construct h R N) as S. rewrite H2 in S. destruct S as ((B1 & B2 & B3) & Wg & Fl' & Ch' & Up' & o & _ & _ & In' & _).
      unfold alike, same_items in *. split; [exact Wg|]. split; [congruence|]. split; [split; [congruence|]; split; [|congruence]; intros k; now rewrite B2|].
      repeat split; congruence. }
  intros n. split.
  - induction n as [|n (g & IH)]; [exists f; constructor|]. destruct (I _ _ IH) as (N & In & (A1 & A2 & A3) & _).
    destruct (proj2 (C85_copy_iff construct g R N)) as (h & Hh); [|exists h; econstructor; eauto].
    exists out. rewrite A1, In. split; [exact E|]. intros k. specialize (C k). unfold same_items in A2. now rewrite A2.
  - intros g H. destruct (I _ _ H) as (_ & _ & A & Fl & Ch & Up). split; [now apply equivalent_alike|auto].
Qed.
Print Assumptions C85_copies.
(** What [add_descriptors] adds to a new function, under new names which are not reserved, its copies have too. *)
Theorem C85_added construct c i f d : records construct -> construct c i = Ok f ->
  (forall k, In k (dkeys d) -> ~ In k (dkeys (f_desc f)) /\ k <> k_parametrization /\ k <> k_dimension) ->
  dget k_parametrization (f_desc f) = None -> dget k_dimension (f_desc f) = None ->
  exists g, copy construct (add_descriptors f d) = Ok g /\ equivalent_to g (add_descriptors f d) = true.
Proof.
  intros R E Hd P0 P1. destruct (R _ _ _ E) as (Ec & Ei & Eu). set (f' := add_descriptors f d).
  assert (W : NoDup (dkeys (f_desc f'))) by (unfold f', add_descriptors; cbn; now apply update_nodup).
  assert (D : forall k, dget k (f_desc f') = match dget k (rev d) with Some v => Some v | None => dget k (f_desc f) end) by (intros k; unfold f', add_descriptors; cbn; apply dget_update).
  assert (Hin : forall k v, dget k (rev d) = Some v -> In k (dkeys d)).
  { intros k v H. apply dget_some_in, in_rev in H. apply (in_map fst) in H. exact H. }
  destruct (proj2 (C85_copy_iff construct f' R W)) as (g & Hg).
  - exists f. unfold f' at 1 2. cbn. rewrite Ec, Ei. split; [exact E|]. intros k. rewrite D. destruct (dget k (f_desc f)) as [v|] eqn:Ek.
    + destruct (dget k (rev d)) as [u|] eqn:Eu'; [|reflexivity]. apply Hin in Eu'. apply Hd in Eu' as (N & _). apply dget_none in N. congruence.
    + intros Hk. destruct (dget k (rev d)) as [u|] eqn:Eu'; [|reflexivity]. apply Hin in Eu'. apply Hd in Eu' as (_ & N1 & N2). tauto.
  - exists g. split; [exact Hg|]. now apply (C85_copy construct f' g R W Hg).
Qed.
Print Assumptions C85_added.
(** But a new value for a descriptor which the constructor sets makes [copy] raise, ... *)
Theorem C85_changed_raises construct c i f k v u : records construct -> construct c i = Ok f -> dget k (f_desc f) = Some u -> u <> v ->
  copy construct (add_descriptors f [(k, v)]) = Err CopyError.
Proof.
  intros R E Hk Hv. destruct (R _ _ _ E) as (Ec & Ei & Eu). set (f' := add_descriptors f [(k, v)]).
  assert (W : NoDup (dkeys (f_desc f'))) by (unfold f', add_descriptors; cbn [f_desc with_desc]; now apply update_nodup).
  pose proof (copy_spec construct f' R W) as S. destruct (copy construct f') as [g|e].
  - destruct S as (_ & _ & _ & _ & _ & out & S & C & _). unfold f' in S at 1 2. cbn [f_class f_init add_descriptors with_desc] in S. rewrite Ec, Ei, E in S. injection S as <-.
    specialize (C k). rewrite Hk in C. unfold f' in C. unfold add_descriptors in C. cbn [f_desc with_desc] in C. rewrite dget_update in C. cbn in C.
    rewrite Nat.eqb_refl in C. injection C as ->. contradiction.
  - destruct S as [S|(S & _)]; [|now subst]. unfold f' in S at 1 2. cbn [f_class f_init add_descriptors with_desc] in S. rewrite Ec, Ei, E in S. discriminate.
Qed.
Print Assumptions C85_changed_raises.
(** ... as does a descriptor with a reserved name (even with the value which [descriptors] shows). *)
Theorem C85_reserved_raises construct c i f v : records construct -> construct c i = Ok f -> dget k_dimension (f_desc f) = None ->
  copy construct (add_descriptors f [(k_dimension, v)]) = Err CopyError.
Proof.
  intros R E Hk. destruct (R _ _ _ E) as (Ec & Ei & Eu). set (f' := add_descriptors f [(k_dimension, v)]).
  assert (W : NoDup (dkeys (f_desc f'))) by (unfold f', add_descriptors; cbn [f_desc with_desc]; now apply update_nodup).
  pose proof (copy_spec construct f' R W) as S. destruct (copy construct f') as [g|e].
  - destruct S as (_ & _ & _ & _ & _ & out & S & C & _). unfold f' in S at 1 2. cbn [f_class f_init add_descriptors with_desc] in S. rewrite Ec, Ei, E in S. injection S as <-.
    specialize (C k_dimension). rewrite Hk in C. unfold f', add_descriptors in C. cbn [f_desc with_desc] in C. rewrite dget_update in C. cbn in C.
    specialize (C (or_intror eq_refl)). discriminate.
  - destruct S as [S|(S & _)]; [|now subst]. unfold f' in S at 1 2. cbn [f_class f_init add_descriptors with_desc] in S. rewrite Ec, Ei, E in S. discriminate.
Qed.
Print Assumptions C85_reserved_raises.
(** The parametrization of the copy: the constructor's when it has the same name, else the function's own. *)
Theorem C85_parametrization construct f g out : records construct -> NoDup (dkeys (f_desc f)) -> copy construct f = Ok g ->
  construct (f_class f) (f_init f) = Ok out ->
  p_dim (f_param g) = if p_name (f_param out) =? p_name (f_param f) then p_dim (f_param out) else p_dim (f_param f).
Proof.
  intros R W H E. pose proof (copy_spec construct f R W) as S. rewrite H in S. destruct S as (_ & _ & _ & _ & _ & o & E' & _ & _ & D).
  rewrite E in E'. injection E' as <-. exact D.
Qed.
Print Assumptions C85_parametrization.
(** A constructor for examples: descriptors are the arguments and the class; the dimension is argument 3, the name is 7 *)
Definition made (c : nat) (i : ndict) : result efunction :=
  Ok {| f_class := c; f_init := i; f_desc := dset 2 c (update [] i);
        f_param := {| p_name := 7; p_dim := match dget 3 i with Some n => n | None => 1 end; p_checkers := []; p_flags := [false; false] |};
        f_upper := None |}.
Lemma made_records : records made.
Proof.
  intros c i f H. injection H as <-. cbn. split; [reflexivity|]. split; [reflexivity|]. apply dset_keys_nodup, update_nodup. constructor.
Qed.
(** So a parametrization set by the user under the name it had is silently lost: the copy, said equivalent, has another dimension. *)
Theorem C85_same_name_refuted : exists construct f g, records construct /\ NoDup (dkeys (f_desc f)) /\ copy construct f = Ok g /\ equivalent_to g f = true /\
  p_dim (f_param g) <> p_dim (f_param f).
Proof.
  pose (f0 := match made 5 [(3, 4)] with Ok f => f | Err _ => {| f_class := 0; f_init := []; f_desc := []; f_param := {| p_name := 0; p_dim := 0; p_checkers := []; p_flags := [] |}; f_upper := None |} end).
  exists made, (with_param f0 {| p_name := 7; p_dim := 9; p_checkers := []; p_flags := [true; false] |}). eexists.
  split; [exact made_records|]. split; [repeat constructor; cbn; intuition discriminate|]. split; [vm_compute; reflexivity|]. split; [vm_compute; reflexivity|]. vm_compute. discriminate.
Qed.
Print Assumptions C85_same_name_refuted.
(** Equivalence of functions is an equivalence relation. *)
Theorem C85_equivalence f g h : equivalent_to f f = true /\ (equivalent_to f g = true -> equivalent_to g f = true) /\
  (equivalent_to f g = true -> equivalent_to g h = true -> equivalent_to f h = true).
Proof.
  rewrite !equivalent_alike. unfold alike, same_items. split; [auto|]. split.
  - intros (A & B & C). split; [congruence|]. split; [intros k; now rewrite B|congruence].
  - intros (A & B & C) (A' & B' & C'). split; [congruence|]. split; [intros k; now rewrite B|congruence].
Qed.
Print Assumptions C85_equivalence.
(** As is equality of experiments. *)
Theorem C85_experiments a b c : xp_eqb a a = true /\ (xp_eqb a b = true -> xp_eqb b a = true) /\ (xp_eqb a b = true -> xp_eqb b c = true -> xp_eqb a c = true).
Proof.
  assert (S : forall x y, xp_eqb x y = true <-> fst (fst x) = fst (fst y) /\ alike (snd (fst x)) (snd (fst y)) /\ snd x = snd y).
  { intros ((s & f) & (((o & bu) & w) & m)) ((s' & f') & (((o' & bu') & w') & m')). unfold xp_eqb, settings_eqb. cbn [fst snd].
    rewrite !andb_true_iff, equivalent_alike, !Nat.eqb_eq, eqb_true_iff.
    assert (E : match s with Some u => match s' with Some v => Z.eqb v u | None => false end | None => match s' with Some _ => false | None => true end end = true <-> s = s').
    { destruct s as [u|], s' as [v|]; split; intros H; try discriminate; try reflexivity.
      - apply Z.eqb_eq in H. now subst.
      - injection H as ->. apply Z.eqb_refl. }
    rewrite E. split; [intros ((-> & A) & ((-> & ->) & ->) & ->); auto|]. intros (-> & A & H). injection H as -> -> -> ->. auto 10. }
  rewrite !S. split; [|split].
  - unfold alike, same_items. auto 10.
  - intros (-> & A & ->). split; [reflexivity|]. split; [|reflexivity]. rewrite <- equivalent_alike in *. exact (proj1 (proj2 (C85_equivalence (snd (fst a)) (snd (fst b)) (snd (fst a)))) A).
  - intros (-> & A & ->) (-> & B & ->). split; [reflexivity|]. split; [|reflexivity]. rewrite <- equivalent_alike in *. eapply C85_equivalence; eassumption.
Qed.
Print Assumptions C85_experiments.
(** The losses of a multi-objective experiment: one per function, in order, at the same arguments; an error of a function is raised,
    the first one if there are several. *)
Theorem C85_multi {A} (fs : list (A -> result Q)) (a : A) :
  (forall ls, multi_func fs a = Ok ls <-> Forall2 (fun f l => f a = Ok l) fs ls) /\
  (forall e, multi_func fs a = Err e <-> exists fs1 f fs2, fs = fs1 ++ f :: fs2 /\ f a = Err e /\ Forall (fun f => exists l, f a = Ok l) fs1).
Proof.
  induction fs as [|f fs (IH1 & IH2)]; cbn [multi_func].
  - split.
    + intros ls. split; [intros H; injection H as <-; constructor|]. intros H. inversion H. reflexivity.
    + intros e. split; [discriminate|]. intros (fs1 & f & fs2 & H & _). destruct fs1; discriminate.
  - split.
    + intros ls. split.
      * destruct (f a) as [l|e] eqn:E; [|discriminate]. cbn. destruct (multi_func fs a) as [r|e]; [|discriminate]. cbn. intros H. injection H as <-.
        constructor; [exact E|]. now apply IH1.
      * intros H. inversion H as [|? l ? ls' H1 H2]; subst. rewrite H1. cbn. apply IH1 in H2. now rewrite H2.
    + intros e. split.
      * destruct (f a) as [l|e'] eqn:E; cbn.
        -- destruct (multi_func fs a) as [r|e''] eqn:Em; [discriminate|]. cbn. intros H. injection H as <-. destruct (proj1 (IH2 e'') eq_refl) as (fs1 & g & fs2 & -> & G & F).
           exists (f :: fs1), g, fs2. split; [reflexivity|]. split; [exact G|]. constructor; [eauto|exact F].
        -- intros H. injection H as <-. exists [], f, fs. auto.
      * intros (fs1 & g & fs2 & H & G & F). destruct fs1 as [|f' fs1]; injection H as -> ->.
        -- now rewrite G.
        -- inversion F as [|? ? (l & Hl) F']; subst. rewrite Hl. cbn. assert (M : multi_func (fs1 ++ g :: fs2) a = Err e) by (apply IH2; eauto 6). now rewrite M.
Qed.
Print Assumptions C85_multi.
(** What [MultiExperiment] accepts: at least one function, all distinct objects, without upper bounds of their own, and with the same
    name of parametrization. *)
Theorem C85_multi_check xps : multi_check xps = Ok tt <->
  xps <> [] /\ NoDup (map fst xps) /\ (forall x, In x xps -> f_upper (snd x) = None) /\
  (forall x y, In x xps -> In y xps -> p_name (f_param (snd x)) = p_name (f_param (snd y))).
Proof.
  destruct xps as [|x0 rest]; [cbn; split; [discriminate|intros (H & _); contradiction]|].
  unfold multi_check. set (l := x0 :: rest).
  assert (N : (length (nodup Nat.eq_dec (map fst l)) =? length l) = true <-> NoDup (map fst l)).
  { rewrite Nat.eqb_eq. split; intros H.
    - apply (NoDup_incl_NoDup (NoDup_nodup Nat.eq_dec (map fst l))); [rewrite map_length; lia|]. intros k Hk. now apply nodup_In in Hk.
    - rewrite nodup_fixed_point by exact H. apply map_length. }
  assert (B : existsb (fun x : nat * efunction => match f_upper (snd x) with Some _ => true | None => false end) l = false <-> forall x, In x l -> f_upper (snd x) = None).
  { split.
    - intros H x Hx. destruct (f_upper (snd x)) as [u|] eqn:E; [|reflexivity]. assert (T : existsb (fun x : nat * efunction => match f_upper (snd x) with Some _ => true | None => false end) l = true) by (apply existsb_exists; exists x; rewrite E; auto). congruence.
    - intros H. destruct (existsb _ l) eqn:E; [|reflexivity]. apply existsb_exists in E as (x & I & Hx). now rewrite (H _ I) in Hx. }
  assert (P : forallb (fun x : nat * efunction => p_name (f_param (snd x0)) =? p_name (f_param (snd x))) rest = true <-> forall x y, In x l -> In y l -> p_name (f_param (snd x)) = p_name (f_param (snd y))).
  { rewrite forallb_forall. split.
    - intros H x y Hx Hy. assert (Z : forall z, In z l -> p_name (f_param (snd z)) = p_name (f_param (snd x0))).
      { intros z [<-|Hz]; [reflexivity|]. apply H, Nat.eqb_eq in Hz. now symmetry. }
      now rewrite (Z x Hx), (Z y Hy).
    - intros H x Hx. apply Nat.eqb_eq, H; [now left|now right]. }
  rewrite <- N, <- B, <- P. destruct (_ =? length l); cbn [negb]; [|split; [discriminate|intros (_ & H & _); discriminate]].
  destruct (existsb _ l); [split; [discriminate|intros (_ & _ & H & _); discriminate]|].
  destruct (forallb _ rest); cbn [negb]; [|split; [discriminate|intros (_ & _ & _ & H); discriminate]].
  split; [intros _|reflexivity]. split; [discriminate|auto].
Qed.
Print Assumptions C85_multi_check.
Example copies_ex : exists f g h, made 5 [(3, 4)] = Ok f /\ copy made (add_descriptors f [(9, 1)]) = Ok g /\ copied made g 2 h /\ dget 9 (f_desc h) = Some 1.
Proof.
  eexists. eexists. eexists. split; [vm_compute; reflexivity|]. split; [vm_compute; reflexivity|].
  split; [eapply copied_S; [eapply copied_S; [apply copied_0|]|]; vm_compute; reflexivity|reflexivity].
Qed.

(** ** C86 *)
(** A run raises nothing but the two errors which are let through ... *)
Theorem C86_raises ev x e : snd (run ev x) = Err e -> passes e /\ snd (run_with_error ev x) = Some e.
Proof.
  unfold run. destruct (run_with_error ev x) as (x' & [r|]); cbn [snd]; [|discriminate]. unfold passes.
  destruct r as [| | | | | | | | | | | | |n]; try discriminate. destruct n as [|[|n]]; cbn; intros H; try discriminate; injection H as <-; auto.
Qed.
Print Assumptions C86_raises.
(** ... and these it always lets through. *)
Theorem C86_let_through ev x e : passes e -> snd (run_with_error ev x) = Some e -> snd (run ev x) = Err e.
Proof.
  unfold run. destruct (run_with_error ev x) as (x' & r); cbn [snd]. intros [->| ->] ->; reflexivity.
Qed.
Print Assumptions C86_let_through.
(** The loss and budget which are reported when the optimization was reached: those of the recommendation, with a penalty of 10^9
    exactly if a constraint is violated and penalties are on; whether the optimization ended normally, stopped on an error, or used
    too much budget. *)
Theorem C86_loss ev x l b r : reached ev x -> e_loss ev = Ok l -> violates ev x b -> snd (run ev x) = Ok r ->
  r_loss r = Some (if b && x_penalize x then l + 1000000000 else l)%Q /\ r_budget r = Some (e_num_ask ev).
Proof.
  intros (Rc & Ri & Rb) El V. unfold run, run_with_error. rewrite Rc, Nat.eqb_refl, Rb. cbn [negb].
  replace (if x_started x then None else e_instantiate ev) with (@None exn) by (destruct (x_started x); [reflexivity|now rewrite (proj1 (Ri eq_refl))]).
  replace (if x_started x then None else e_reference ev) with (@None exn) by (destruct (x_started x); [reflexivity|now rewrite (proj2 (Ri eq_refl))]).
  pose proof (log_spec ev (set_started x)) as L. destruct (log_results ev (set_started x)) as (x' & raised).
  rewrite El in L. destruct L as (_ & _ & _ & _ & L). specialize (L b V). cbn [x_penalize set_started x_budget] in L. destruct L as (L1 & L2 & _).
  assert (G : forall o, snd (match o with None => (x', Ok (x_result x')) | Some (UserError 0) => (x', Err CopyError) | Some (UserError 1) => (x', Err Unsupported)
     | Some e => let x'' := set_result x' (set_error (x_result x') (Some e)) in (x'', Ok (x_result x'')) end) = Ok r ->
     r_loss r = Some (if b && x_penalize x then l + 1000000000 else l)%Q /\ r_budget r = Some (e_num_ask ev)).
  { intros [e|]; cbn; [|intros H; injection H as <-; auto]. destruct e as [| | | | | | | | | | | | |n]; try (intros H; injection H as <-; cbn; now auto).
    destruct n as [|[|n]]; cbn; try discriminate. intros H. injection H as <-. cbn. auto. }
  destruct (e_minimize ev) as [e|]; apply G.
Qed.
Print Assumptions C86_loss.
(** On a new experiment, no error is reported exactly if everything went well: the optimization was reached and ended normally,
    its recommendation and constraints could be evaluated, and at most the budget was used. *)
Theorem C86_success ev x : x_result x = no_result -> x_started x = false ->
  ((exists r, snd (run ev x) = Ok r /\ r_error r = None) <->
   reached ev x /\ e_minimize ev = None /\ (exists l, e_loss ev = Ok l) /\ (exists b, violates ev x b) /\ e_num_ask ev <= x_budget x).
Proof.
  intros Hr Hs.
  assert (N : (exists r, snd (run ev x) = Ok r /\ r_error r = None) <-> snd (run_with_error ev x) = None).
  { assert (K : r_error (x_result (fst (run_with_error ev x))) = None).
    { unfold run_with_error. rewrite Hs. pose proof (log_spec ev (set_started x)) as L. destruct (log_results ev (set_started x)) as (x' & raised) eqn:El.
      destruct L as (_ & _ & _ & L & _). cbn [x_result set_started] in L. rewrite Hr in L. cbn in L.
      destruct (e_copy ev) as [n|e]; [|cbn; now rewrite Hr]. destruct (negb (n =? x_checkers x)); [cbn; now rewrite Hr|].
      destruct (e_instantiate ev); [cbn; now rewrite Hr|]. destruct (e_reference ev); [cbn; now rewrite Hr|].
      cbv zeta. destruct (negb (e_has_budget ev)); [cbn; now rewrite Hr|]. destruct (e_minimize ev); exact L. }
    unfold run. destruct (run_with_error ev x) as (x' & [e|]); cbn [snd fst] in *.
    - split; [|discriminate]. intros (r & H & H').
      destruct e as [| | | | | | | | | | | | |n]; try (cbn in H; injection H as <-; cbn in H'; discriminate).
      destruct n as [|[|n]]; cbn in H; try discriminate. injection H as <-. discriminate.
    - split; [reflexivity|]. intros _. exists (x_result x'). auto. }
  rewrite N. unfold run_with_error, reached. rewrite Hs.
  destruct (e_copy ev) as [n|e]; [|split; [discriminate|intros ((H & _) & _); discriminate]].
  destruct (Nat.eqb_spec n (x_checkers x)) as [->|D]; cbn [negb]; [|split; [discriminate|intros ((H & _) & _); congruence]].
  destruct (e_instantiate ev); [split; [discriminate|intros ((_ & H & _) & _); destruct (H eq_refl); discriminate]|].
  destruct (e_reference ev); [split; [discriminate|intros ((_ & H & _) & _); destruct (H eq_refl); discriminate]|].
  cbv zeta. destruct (e_has_budget ev); cbn [negb]; [|split; [discriminate|intros ((_ & _ & H) & _); discriminate]].
  destruct (e_minimize ev) as [e|].
  { split; [|intros (_ & H & _); discriminate]. destruct (log_results ev (set_started x)) as (x' & [e'|]); discriminate. }
  assert (G : snd (log_results ev (set_started x)) = None <-> (exists l, e_loss ev = Ok l) /\ (exists b, violates ev x b) /\ e_num_ask ev <= x_budget x).
  { pose proof (log_spec ev (set_started x)) as L. destruct (log_results ev (set_started x)) as (x' & raised) eqn:El. cbn [snd]. destruct L as (_ & _ & _ & _ & L).
    destruct (e_loss ev) as [l|e] eqn:Eloss.
    - cbn [x_budget set_started] in L. split.
      + intros ->. split; [eauto|]. assert (V : exists b, violates ev x b).
        { unfold log_results in El. rewrite Eloss in El. unfold violates. destruct (e_violation ev) as [[|]|e].
          - exists true. auto.
          - destruct (Nat.ltb_spec 0 (x_checkers (set_started x))) as [H|H]; cbn in H.
            + destruct (e_unsatisfied ev) as [b|e]; [|discriminate]. exists b. right. right. split; [reflexivity|]. split; [lia|reflexivity].
            + exists false. right. left. split; [reflexivity|]. split; [lia|reflexivity].
          - discriminate. }
        split; [exact V|]. destruct V as (b & V). destruct (L b V) as (_ & _ & R). destruct (Nat.ltb_spec (x_budget x) (e_num_ask ev)); [discriminate|assumption].
      + intros (_ & (b & V) & Hle). destruct (L b V) as (_ & _ & ->). destruct (Nat.ltb_spec (x_budget x) (e_num_ask ev)); [lia|reflexivity].
    - split; [|intros ((l & H) & _); discriminate]. destruct L as (-> & _). discriminate. }
  rewrite G. intuition.
Qed.
Print Assumptions C86_success.
(** When the optimization is not reached, nothing is reported but the error: loss and budget keep the values they had. *)
Theorem C86_not_reached ev x r : ~ reached ev x -> snd (run ev x) = Ok r ->
  r_loss r = r_loss (x_result x) /\ r_budget r = r_budget (x_result x) /\ r_error r <> None.
Proof.
  intros Nr. unfold run, run_with_error.
  assert (K : forall x' e, x_result x' = x_result x -> snd (match Some e with None => (x', Ok (x_result x')) | Some (UserError 0) => (x', Err CopyError) | Some (UserError 1) => (x', Err Unsupported)
     | Some e => let x'' := set_result x' (set_error (x_result x') (Some e)) in (x'', Ok (x_result x'')) end) = Ok r ->
     r_loss r = r_loss (x_result x) /\ r_budget r = r_budget (x_result x) /\ r_error r <> None).
  { intros x' e Hx. cbn. destruct e as [| | | | | | | | | | | | |n]; try (intros H; injection H as <-; cbn; rewrite Hx; repeat split; now auto).
    destruct n as [|[|n]]; cbn; try discriminate. intros H. injection H as <-. cbn. rewrite Hx. repeat split; auto; discriminate. }
  unfold reached in Nr. destruct (e_copy ev) as [n|e]; [|now apply K].
  destruct (Nat.eqb_spec n (x_checkers x)) as [->|D]; cbn [negb]; [|now apply (K x AssertionError)].
  destruct (x_started x) eqn:Hs.
  - destruct (e_has_budget ev); cbn [negb]; [|now apply (K (set_started x) AssertionError)]. exfalso. apply Nr. split; [reflexivity|]. split; [discriminate|reflexivity].
  - destruct (e_instantiate ev); [now apply K|]. destruct (e_reference ev); [now apply K|].
    destruct (e_has_budget ev); cbn [negb]; [|now apply (K (set_started x) AssertionError)]. exfalso. apply Nr. split; [reflexivity|]. auto.
Qed.
Print Assumptions C86_not_reached.
(** Which error is reported when the optimization stops on an error: the one of the final evaluation, if it raises one, or a
    RuntimeError when too much budget was used; else the one of the optimization. *)
Theorem C86_which ev x e : reached ev x -> e_minimize ev = Some e ->
  (forall e', e_loss ev = Err e' -> snd (run_with_error ev x) = Some e') /\
  (forall l b, e_loss ev = Ok l -> violates ev x b -> snd (run_with_error ev x) = Some (if x_budget x <? e_num_ask ev then RuntimeError else e)).
Proof.
  intros (Rc & Ri & Rb) Em. unfold run_with_error. rewrite Rc, Nat.eqb_refl, Rb, Em. cbn [negb].
  replace (if x_started x then None else e_instantiate ev) with (@None exn) by (destruct (x_started x); [reflexivity|now rewrite (proj1 (Ri eq_refl))]).
  replace (if x_started x then None else e_reference ev) with (@None exn) by (destruct (x_started x); [reflexivity|now rewrite (proj2 (Ri eq_refl))]).
  pose proof (log_spec ev (set_started x)) as L. cbv zeta. destruct (log_results ev (set_started x)) as (x' & raised). cbn [snd].
  destruct L as (_ & _ & _ & _ & L). split.
  - intros e' El. rewrite El in L. destruct L as (-> & _). reflexivity.
  - intros l b El V. rewrite El in L. destruct (L b V) as (_ & _ & ->). cbn [x_budget set_started]. now destruct (x_budget x <? e_num_ask ev).
Qed.
Print Assumptions C86_which.
(** The error of a run stays when the experiment is run again and goes well: it is never set back to "". *)
Theorem C86_sticky ev x r e : r_error (x_result x) = Some e -> snd (run ev x) = Ok r -> r_error r <> None.
Proof.
  intros He. unfold run. assert (K : r_error (x_result (fst (run_with_error ev x))) = Some e).
  { unfold run_with_error. pose proof (log_spec ev (set_started x)) as L. destruct (log_results ev (set_started x)) as (x' & raised) eqn:El.
    destruct L as (_ & _ & _ & L & _). cbn [x_result set_started] in L. rewrite He in L.
    destruct (e_copy ev) as [n|e']; [|exact He]. destruct (negb (n =? x_checkers x)); [exact He|].
    destruct (if x_started x then None else e_instantiate ev); [exact He|]. destruct (if x_started x then None else e_reference ev); [exact He|].
    cbv zeta. destruct (negb (e_has_budget ev)); [exact He|]. destruct (e_minimize ev); exact L. }
  destruct (run_with_error ev x) as (x' & [e'|]); cbn [snd fst] in *.
  - destruct e' as [| | | | | | | | | | | | |n]; try (cbn; intros H; injection H as <-; discriminate).
    destruct n as [|[|n]]; cbn; intros H; try discriminate. injection H as <-. discriminate.
  - intros H. injection H as <-. congruence.
Qed.
Print Assumptions C86_sticky.
Theorem C86_sticky_refuted : exists ev1 ev2 x r, x_result x = no_result /\ reached ev2 (fst (run ev1 x)) /\ e_minimize ev2 = None /\ e_loss ev2 = Ok 1%Q /\
  violates ev2 x false /\ e_num_ask ev2 <= x_budget x /\ snd (run ev2 (fst (run ev1 x))) = Ok r /\ r_loss r = Some 1%Q /\ r_error r = Some ValueError.
Proof.
  pose (ev := fun m : option exn => {| e_copy := Ok 0; e_instantiate := None; e_reference := None; e_has_budget := true; e_minimize := m; e_num_ask := 10; e_objectives := 1;
           e_loss := Ok 1%Q; e_violation := Ok false; e_unsatisfied := Ok false |}).
  pose (x := {| x_budget := 10; x_seed := None; x_checkers := 0; x_penalize := true; x_started := false; x_result := no_result |}).
  exists (ev (Some ValueError)), (ev None), x. eexists.
  split; [reflexivity|]. split; [unfold reached; cbn; auto|]. split; [reflexivity|]. split; [reflexivity|].
  split; [unfold violates; cbn; auto|]. split; [cbn; lia|]. split; [reflexivity|]. split; reflexivity.
Qed.
Print Assumptions C86_sticky_refuted.
(** A run with a violated constraint, within the budget *)
Example run_ex : exists ev x r, reached ev x /\ violates ev x true /\ snd (run ev x) = Ok r /\ r_loss r = Some (3 + 1000000000)%Q /\ r_error r = None /\ x_result x = no_result.
Proof.
  exists {| e_copy := Ok 2; e_instantiate := None; e_reference := None; e_has_budget := true; e_minimize := None; e_num_ask := 10; e_objectives := 1;
           e_loss := Ok 3%Q; e_violation := Ok false; e_unsatisfied := Ok true |},
    {| x_budget := 10; x_seed := None; x_checkers := 2; x_penalize := true; x_started := false; x_result := no_result |}.
  eexists. split; [|split; [|split; [reflexivity|split; [reflexivity|split; reflexivity]]]].
  - unfold reached. cbn. auto.
  - unfold violates. cbn. right. right. auto.
Qed.

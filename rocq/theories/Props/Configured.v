(** C112: configured optimizers. *)
From Coq Require Import Arith Bool String Sorted Lia List.
From Verif.Model Require Import Prelude Configured.
From Verif.Spec Require Import Configured.
From Verif.Proofs Require Import Configured.
Import ListNotations.
Open Scope nat_scope.

Section Props.
Context {val : Type} (veqb : val -> val -> bool) (repr : val -> string).
Context (cname : nat -> string) (signature : nat -> list (string * val)).
Context (accepts : nat -> args -> @kwargs val -> bool).
Notation state := (@state val).
Notation op := (@op val).
Notation run := (run veqb repr cname signature accepts).
Notation create := (create veqb repr cname signature accepts).

(** Whatever a program did before, calling a configured optimizer makes an instance of the
    optimizer class at the end of the chain of configured optimizers, with the configuration
    of the last of the chain: the configurations of the others are not given to anybody. The
    instance bears the name of the one that was called, and refers to it. *)
Theorem C112_made (ops : list op) (o : nat) (a : args) b :
  nth_error (objs (run ops)) o = Some b ->
  (exists i c, innermost (objs (run ops)) o i c) /\
  forall i c bi, innermost (objs (run ops)) o i c -> nth_error (objs (run ops)) i = Some bi ->
    run_call accepts (run ops) o a =
    let kw := if o_as_config bi then KwConfig i else Kw (dict_at (run ops) (o_dict bi)) in
    if accepts c a kw then Ok (mkmade c a kw (o_name b) o) else Err TypeError.
Proof.
  intros H. assert (W := wf_run veqb repr cname signature accepts ops).
  split; [now apply innermost_exists with (b := b)|].
  intros i c bi Hi Hb. unfold run_call. apply call_innermost; auto.
  assert (o < length (objs (run ops))) by (apply nth_error_Some; congruence). lia.
Qed.

(** A new configured optimizer is named after its class and the parameters that differ from
    their defaults, in alphabetical order; its configuration is the dict it was given, which
    has lost "self" and "__class__". *)
Theorem C112_name (ops : list op) cls t r as_config s' o :
  NoDup (map fst (signature cls)) ->
  known (run ops) (Create cls t r as_config) = true ->
  create (run ops) cls t r as_config = (s', Ok o) ->
  o = length (objs (run ops)) /\
  (forall k v, In (k, v) (dict_at s' r) <->
     In (k, v) (dict_at (run ops) r) /\ k <> "self"%string /\ k <> "__class__"%string) /\
  exists l, changed_parameters (fun x y => negb (veqb x y)) (signature cls) (dict_at s' r) l /\
    objs s' = objs (run ops) ++ [mkcobj cls t as_config r (cname cls ++ "(" ++ listing repr l ++ ")")%string].
Proof.
  intros N K H. assert (W := wf_run veqb repr cname signature accepts ops). set (s := run ops) in *.
  assert (Lr : r < length (dicts s)) by (destruct t; cbn in K; [|apply andb_true_iff in K as [K _]]; now apply Nat.ltb_lt in K).
  apply create_cases in H. cbn zeta in H. fold (s_popped s r) in H.
  destruct (different_from_defaults _ _ _ _) as [diff|e] eqn:Ed; [|destruct H; discriminate].
  destruct H as [[-> [[= ->] _]]|[_ [_ [e [X _]]]]]; [|discriminate].
  assert (D : forall x, dict_at (mkstate (objs s ++ [mkcobj cls t as_config r (default_name repr cname cls diff)])
    (dicts (s_popped s r)) (registry s)) x = dict_at (s_popped s r) x) by reflexivity.
  split; [auto|]. split.
  - intros k v. rewrite D, popped_in by auto. unfold excluded. tauto.
  - exists (ssort diff). split.
    + assert (Nd : NoDup (map fst (dict_at (s_popped s r) r))) by apply wf_popped, W.
      split; [apply ssort_sorted|]. split.
      * apply (Permutation.Permutation_NoDup (l := map fst diff)); [|now apply (diff_nodup veqb signature cls _ diff N Ed)].
        apply Permutation.Permutation_map, ssort_perm.
      * intros k v. transitivity (In (k, v) diff).
        { split; apply Permutation.Permutation_in; [symmetry|]; apply ssort_perm. }
        rewrite D, (diff_in veqb signature cls _ diff Nd Ed). split.
        -- intros [Hd [Hp [y [Hy Hv]]]]. apply (proj1 (defaults_iff signature cls k y)) in Hy as [Hy _].
           split; [auto|]. split; [auto|]. exists y. split; [auto|exact Hv].
        -- intros [Hd [Hp [y [Hy Hv]]]]. split; [auto|]. split; [auto|]. exists y. split; [|auto].
           apply defaults_iff. split; [auto|]. now apply (popped_in s r k v W Lr).
    + cbn [objs]. unfold default_name. now rewrite concat_listing.
Qed.

(** Creating one raises RuntimeError exactly when the configuration has not the same keys as
    the parameters of the class. In every case of error no configured optimizer is added; when
    there is none, an optimizer which receives its configuration as keyword arguments can be
    called with 4 variables and a budget of 100. *)
Theorem C112_create (ops : list op) cls t r as_config s' res :
  known (run ops) (Create cls t r as_config) = true ->
  create (run ops) cls t r as_config = (s', res) ->
  (res = Err RuntimeError <->
   ~ forall k, k <> "self"%string -> k <> "__class__"%string ->
     (has_key (dict_at (run ops) r) k <-> has_key (signature cls) k)) /\
  (forall e, res = Err e -> objs s' = objs (run ops)) /\
  (forall o, res = Ok o -> as_config = false -> exists m, run_call accepts s' o (mkargs 4 100 1) = Ok m).
Proof.
  intros K H. assert (W := wf_run veqb repr cname signature accepts ops). set (s := run ops) in *.
  assert (Lr : r < length (dicts s)) by (destruct t; cbn in K; [|apply andb_true_iff in K as [K _]]; now apply Nat.ltb_lt in K).
  assert (Lt : forall o', t = Other o' -> o' < length (objs s)).
  { intros o' ->. cbn in K. apply andb_true_iff in K as [_ K]. now apply Nat.ltb_lt in K. }
  apply create_cases in H. cbn zeta in H. fold (s_popped s r) in H.
  assert (Nd : NoDup (map fst (dict_at (s_popped s r) r))) by apply wf_popped, W.
  destruct (diff_ok veqb signature cls _ Nd) as [Dk De].
  assert (Eq : (forall k, has_key (dict_at (s_popped s r) r) k <-> has_key (defaults signature cls) k) <->
    forall k, k <> "self"%string -> k <> "__class__"%string -> (has_key (dict_at s r) k <-> has_key (signature cls) k)).
  { assert (P : forall k, has_key (dict_at (s_popped s r) r) k <-> has_key (dict_at s r) k /\ ~ excluded k).
    { intros k. unfold has_key. split.
      - intros [v Hv]. apply (proj1 (popped_in s r k v W Lr)) in Hv as [Hv X]; eauto.
      - intros [[v Hv] X]. exists v. apply popped_in; auto. }
    assert (P' : forall k, has_key (defaults signature cls) k <-> has_key (signature cls) k /\ ~ excluded k).
    { intros k. unfold has_key. split.
      - intros [v Hv]. apply (proj1 (defaults_iff signature cls k v)) in Hv as [Hv X]; eauto.
      - intros [[v Hv] X]. exists v. apply defaults_iff; auto. }
    split.
    - intros X k H1 H2. specialize (X k). rewrite P, P' in X. unfold excluded in X. tauto.
    - intros X k. rewrite P, P'. specialize (X k). unfold excluded. tauto. }
  destruct (different_from_defaults _ _ _ _) as [diff|e] eqn:Ed.
  - assert (Good := proj1 Eq (proj1 Dk (ex_intro _ diff eq_refl))).
    destruct H as [[-> [-> T]]|[-> [-> [e [-> Er]]]]].
    + split; [split; [discriminate|intros X; contradiction]|]. split; [discriminate|].
      intros o [= <-] B. exact (T B).
    + split; [|split; [reflexivity|discriminate]].
      split; [|intros X; contradiction]. intros [= ->]. exfalso.
      assert (Wn : wf (mkstate (objs s ++ [mkcobj cls t false r (default_name repr cname cls diff)])
        (dicts (s_popped s r)) (registry s))).
      { pose proof (wf_popped s r W) as [W1 W2 W3 W4]. constructor; cbn [objs dicts registry].
        - exact W1.
        - intros o c X. apply nth_error_snoc in X as [X|[-> ->]]; [now apply W2 in X|]. cbn. now rewrite upd_length.
        - intros o c o' X Y. apply nth_error_snoc in X as [X|[-> ->]]; [now apply W3 with (b := c)|]. cbn in Y. auto.
        - intros n o X. apply W4 in X. cbn in X. rewrite app_length. lia. }
      assert (Hn : nth_error (objs s ++ [mkcobj cls t false r (default_name repr cname cls diff)]) (length (objs s)) =
        Some (mkcobj cls t false r (default_name repr cname cls diff))).
      { rewrite nth_error_app2 by lia. now rewrite Nat.sub_diag. }
      exact (run_call_errors accepts _ (mkargs 4 100 1) _ _ Wn Hn Er).
  - destruct H as [-> ->].
    assert (e = RuntimeError) by (destruct De as [[= ->]|[? ?]]; [reflexivity|discriminate]). subst e.
    split; [|split; [reflexivity|discriminate]].
    split; [|reflexivity]. intros _ X. destruct (proj2 Dk (proj2 Eq X)) as [? ?]. discriminate.
Qed.

(** A dict which no configured optimizer was made with, such as those [config()] returns, can
    be modified without effect on the configured optimizers. *)
Theorem C112_copy (ops : list op) r k v : (forall cls t b, ~ In (Create cls t r b) ops) ->
  forall o b, nth_error (objs (run ops)) o = Some b ->
  nth_error (objs (run (ops ++ [SetItem r k v]))) o = Some b /\
  dict_at (run (ops ++ [SetItem r k v])) (o_dict b) = dict_at (run ops) (o_dict b).
Proof.
  intros H o b Hb. rewrite run_snoc. unfold step. cbn [known].
  destruct (r <? _) eqn:E; [|auto]. split; [exact Hb|]. rewrite dict_at_set.
  destruct (Nat.eqb_spec r (o_dict b)) as [X|]; [|auto].
  exfalso. symmetry in X. revert X. eapply nodict_untouched; eauto.
Qed.
(** And [config()] does return a new dict, equal to the configuration. *)
Theorem C112_config (ops : list op) o b : nth_error (objs (run ops)) o = Some b ->
  exists s' r, config (run ops) o = (s', Ok r) /\ objs s' = objs (run ops) /\
    dict_at s' r = dict_at (run ops) (o_dict b) /\ length (dicts (run ops)) <= r /\
    (forall o' b', nth_error (objs s') o' = Some b' -> o_dict b' <> r) /\
    (forall x, x < length (dicts (run ops)) -> dict_at s' x = dict_at (run ops) x).
Proof.
  intros H. assert (W := wf_run veqb repr cname signature accepts ops). unfold config. rewrite H.
  do 2 eexists. split; [reflexivity|]. cbn [objs]. split; [auto|]. unfold dict_at at 1. cbn [dicts].
  split; [rewrite app_nth2 by auto; now rewrite Nat.sub_diag|]. split; [auto|]. split.
  - intros o' b' H'. apply (wf_ref _ W) in H'. lia.
  - intros x Hx. unfold dict_at. cbn [dicts]. now rewrite app_nth1.
Qed.

(** Two configured optimizers are equal exactly when their classes are the same and their
    configurations have the same items. *)
Theorem C112_equal (ops : list op) a b i j :
  nth_error (objs (run ops)) i = Some a -> nth_error (objs (run ops)) j = Some b ->
  (obj_eqb veqb (run ops) a b = true <->
   o_class a = o_class b /\
   forall k, (forall v, In (k, v) (dict_at (run ops) (o_dict a)) -> exists w, In (k, w) (dict_at (run ops) (o_dict b)) /\ veqb v w = true) /\
             (forall w, In (k, w) (dict_at (run ops) (o_dict b)) -> exists v, In (k, v) (dict_at (run ops) (o_dict a)) /\ veqb v w = true)).
Proof.
  intros _ _. assert (W := wf_run veqb repr cname signature accepts ops).
  unfold obj_eqb. rewrite andb_true_iff, Nat.eqb_eq.
  assert (Na := wf_dict _ W (o_dict a)). assert (Nb := wf_dict _ W (o_dict b)).
  rewrite dict_eqb_iff by auto. split; intros [E H]; (split; [auto|]); intros k; specialize (H k).
  - destruct (sget k (dict_at (run ops) (o_dict a))) as [va|] eqn:Ea, (sget k (dict_at (run ops) (o_dict b))) as [vb|] eqn:Eb; try contradiction.
    + split.
      * intros v Hv. exists vb. apply sget_iff in Hv; auto. apply sget_in in Eb. split; [auto|congruence].
      * intros w Hw. exists va. apply sget_iff in Hw; auto. apply sget_in in Ea. split; [auto|congruence].
    + split; intros v Hv; apply sget_iff in Hv; auto; congruence.
  - destruct H as [H1 H2].
    destruct (sget k (dict_at (run ops) (o_dict a))) as [va|] eqn:Ea, (sget k (dict_at (run ops) (o_dict b))) as [vb|] eqn:Eb; auto.
    + apply sget_in in Ea. destruct (H1 va Ea) as [w [Hw E']]. apply sget_iff in Hw; auto. congruence.
    + apply sget_in in Ea. destruct (H1 va Ea) as [w [Hw E']]. apply sget_iff in Hw; auto. congruence.
    + apply sget_in in Eb. destruct (H2 vb Eb) as [w [Hw E']]. apply sget_iff in Hw; auto. congruence.
Qed.

(** The name of a configured optimizer is the last one it was given. *)
Theorem C112_last_name (before after : list op) o n register :
  o < length (objs (run before)) -> (forall m b, ~ In (SetName o m b) after) ->
  exists c, nth_error (objs (run (before ++ SetName o n register :: after))) o = Some c /\ o_name c = n.
Proof.
  intros L H. destruct (nth_error (objs (run before)) o) as [c|] eqn:E.
  - replace (before ++ SetName o n register :: after) with ((before ++ [SetName o n register]) ++ after) by (rewrite <- app_assoc; auto).
    destruct (set_name_named veqb repr cname signature accepts before o n register c E) as [c' [E' N]].
    apply name_kept; [apply nth_error_Some; congruence|intros m b X; exfalso; eapply H; eauto|eauto].
  - apply nth_error_None in E. lia.
Qed.
(** The registry has a name for a configured optimizer when, and only when, [set_name]
    registered it at a moment when the name was free; and what the registry gives under a
    name bears that name unless it was given another one. *)
Theorem C112_registry (ops : list op) n o : sget n (registry (run ops)) = Some o ->
  (exists before after, ops = before ++ SetName o n true :: after /\ o < length (objs (run before)) /\
     sget n (registry (run before)) = None) /\
  ((forall m b, In (SetName o m b) ops -> m = n) ->
   exists c, nth_error (objs (run ops)) o = Some c /\ o_name c = n).
Proof.
  intros H. apply registry_history in H. split; [auto|]. intros X.
  destruct H as [l1 [l2 [-> [L _]]]]. destruct (nth_error (objs (run l1)) o) as [c|] eqn:E.
  - replace (l1 ++ SetName o n true :: l2) with ((l1 ++ [SetName o n true]) ++ l2) by (rewrite <- app_assoc; auto).
    destruct (set_name_named veqb repr cname signature accepts l1 o n true c E) as [c' [E' N]].
    apply name_kept; [apply nth_error_Some; congruence| |eauto].
    intros m b Hi. apply (X m b), in_or_app. right. now right.
  - apply nth_error_None in E. lia.
Qed.
Theorem C112_register (ops : list op) n o : o < length (objs (run ops)) ->
  (sget n (registry (run ops)) = None ->
     snd (set_name (run ops) o n true) = Ok tt /\ sget n (registry (fst (set_name (run ops) o n true))) = Some o) /\
  (sget n (registry (run ops)) <> None ->
     snd (set_name (run ops) o n true) = Err RuntimeError /\ registry (fst (set_name (run ops) o n true)) = registry (run ops)) /\
  (forall m, m <> n -> sget m (registry (fst (set_name (run ops) o n true))) = sget m (registry (run ops))).
Proof.
  intros L. unfold set_name. destruct (nth_error (objs (run ops)) o) as [c|] eqn:E; [|apply nth_error_None in E; lia].
  cbn [registry]. unfold smem. destruct (sget n (registry (run ops))) as [o'|] eqn:En; cbn [fst snd registry].
  - split; [discriminate|]. split; [auto|]. auto.
  - split; [intros _; split; [auto|]; rewrite sget_sset, String.eqb_refl; auto|]. split; [congruence|].
    intros m Hm. rewrite sget_sset. destruct (String.eqb_spec m n); congruence.
Qed.
End Props.

(** ** What does not hold; a class "Conf(self, a=1)" *)
Definition ex_sig (_ : nat) : list (string * nat) := [("self"%string, 0); ("a"%string, 1); ("b"%string, 2)].
Definition ex_repr (n : nat) : string := if n =? 1 then "1"%string else if n =? 2 then "2"%string else "7"%string.
Definition ex_name (_ : nat) : string := "Conf"%string.
Definition ex_acc (_ : nat) (_ : args) (_ : @kwargs nat) : bool := true.
Notation ex_run := (run Nat.eqb ex_repr ex_name ex_sig ex_acc).
Definition ex_create (t : target) (r : nat) : list op :=
  [NewDict; SetItem r "self" 0; SetItem r "b" 2; SetItem r "a" 7; Create 0 t r false]%string.

(** A registration that is refused renames the configured optimizer all the same. *)
Theorem C112_refused_refuted : exists ops o n,
  let s := ex_run ops in
  snd (set_name s o n true) = Err RuntimeError /\
  option_map o_name (nth_error (objs s) o) <> option_map o_name (nth_error (objs (fst (set_name s o n true))) o).
Proof.
  exists (ex_create (Class 0) 0 ++ [SetName 0 "A"%string true] ++ ex_create (Class 0) 1), 1, "A"%string.
  vm_compute. split; [reflexivity|discriminate].
Qed.
(** A configured optimizer registered twice bears only one of its registered names. *)
Theorem C112_two_names_refuted : exists ops n o c,
  sget n (registry (ex_run ops)) = Some o /\ nth_error (objs (ex_run ops)) o = Some c /\ o_name c <> n.
Proof.
  exists (ex_create (Class 0) 0 ++ [SetName 0 "A"%string true; SetName 0 "B"%string true]), "A"%string, 0.
  eexists. vm_compute. split; [reflexivity|]. split; [reflexivity|discriminate].
Qed.
(** Equal configured optimizers can make different optimizers, with different names. *)
Theorem C112_equal_refuted : exists ops a b,
  nth_error (objs (ex_run ops)) 0 = Some a /\ nth_error (objs (ex_run ops)) 1 = Some b /\
  obj_eqb Nat.eqb (ex_run ops) a b = true /\
  exists m m', run_call ex_acc (ex_run ops) 0 (mkargs 2 10 1) = Ok m /\ run_call ex_acc (ex_run ops) 1 (mkargs 2 10 1) = Ok m' /\
    m_class m <> m_class m' /\ m_name m <> m_name m'.
Proof.
  exists (ex_create (Class 0) 0 ++ ex_create (Class 1) 1 ++ [SetName 1 "B"%string false]).
  do 2 eexists. vm_compute. split; [reflexivity|]. split; [reflexivity|]. split; [reflexivity|].
  do 2 eexists. split; [reflexivity|]. split; [reflexivity|]. split; discriminate.
Qed.
(** The dict given at creation stays the configuration: modifying it afterwards changes what
    the optimizers receive, and leaves the name as it was. *)
Theorem C112_given_dict_refuted : exists ops r k v,
  run_call ex_acc (ex_run ops) 0 (mkargs 2 10 1) <> run_call ex_acc (ex_run (ops ++ [SetItem r k v])) 0 (mkargs 2 10 1) /\
  objs (ex_run ops) = objs (ex_run (ops ++ [SetItem r k v])).
Proof.
  exists (ex_create (Class 0) 0), 0, "a"%string, 1. vm_compute. split; [discriminate|reflexivity].
Qed.

(** A chain of two, the outer one with another configuration. *)
Example C112_ex :
  option_map o_name (nth_error (objs (ex_run (ex_create (Class 3) 0))) 0) = Some "Conf(a=7)"%string /\
  run_call ex_acc (ex_run (ex_create (Class 3) 0 ++ ex_create (Other 0) 1 ++ [SetItem 1 "b"%string 7; SetName 1 "Outer"%string true])) 1 (mkargs 2 10 1) =
  Ok (mkmade 3 (mkargs 2 10 1) (Kw [("b"%string, 2); ("a"%string, 7)]) "Outer"%string 1) /\
  snd (create Nat.eqb ex_repr ex_name ex_sig ex_acc (ex_run [NewDict; SetItem 0 "a"%string 1]) 0 (Class 0) 0 false) = Err RuntimeError.
Proof. vm_compute. auto. Qed.

Print Assumptions C112_made.
Print Assumptions C112_name.
Print Assumptions C112_create.
Print Assumptions C112_copy.
Print Assumptions C112_config.
Print Assumptions C112_equal.
Print Assumptions C112_last_name.
Print Assumptions C112_registry.
Print Assumptions C112_register.
Print Assumptions C112_refused_refuted.
Print Assumptions C112_two_names_refuted.
Print Assumptions C112_equal_refuted.
Print Assumptions C112_given_dict_refuted.

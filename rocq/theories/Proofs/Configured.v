(** Proofs for configured optimizers. *)
From Coq Require Import Arith Bool String Permutation Sorted Lia List.
From Verif.Model Require Import Prelude Configured.
From Verif.Spec Require Import Configured.
Import ListNotations.
Open Scope nat_scope.

Section SD.
Context {V : Type}.
Lemma sget_in k (d : list (string * V)) v : sget k d = Some v -> In (k, v) d.
Proof.
  induction d as [|[k' w] d IH]; cbn; [discriminate|]. destruct (String.eqb_spec k k').
  - intros [= ->]. subst. now left.
  - auto.
Qed.
Lemma sget_none k (d : list (string * V)) : sget k d = None <-> ~ In k (map fst d).
Proof.
  induction d as [|[k' w] d IH]; cbn; [tauto|]. destruct (String.eqb_spec k k').
  - subst. split; [discriminate|tauto].
  - rewrite IH. intuition congruence.
Qed.
Lemma sget_iff k (d : list (string * V)) v : NoDup (map fst d) -> (sget k d = Some v <-> In (k, v) d).
Proof.
  intros N. split; [apply sget_in|]. induction d as [|[k' w] d IH]; cbn; [tauto|].
  inversion N as [|? ? N1 N2]; subst. destruct (String.eqb_spec k k').
  - subst. intros [[= ->]|H]; [auto|]. exfalso. apply N1. now apply (in_map fst) in H.
  - intros [[= -> ->]|H]; [congruence|auto].
Qed.
Lemma smem_iff k (d : list (string * V)) : smem k d = true <-> has_key d k.
Proof.
  unfold smem, has_key. destruct (sget k d) eqn:E.
  - split; eauto using sget_in.
  - split; [discriminate|]. intros [v Hv]. apply sget_none in E. exfalso. apply E. now apply (in_map fst) in Hv.
Qed.
Lemma has_key_map k (d : list (string * V)) : has_key d k <-> In k (map fst d).
Proof.
  split; [intros [v H]; now apply (in_map fst) in H|].
  intros H. apply in_map_iff in H as [[a b] [<- H]]. now exists b.
Qed.
Lemma sset_keys k v (d : list (string * V)) x : In x (map fst (sset k v d)) <-> x = k \/ In x (map fst d).
Proof.
  induction d as [|[k' w] d IH]; cbn; [intuition|]. destruct (String.eqb_spec k k'); cbn.
  - subst. intuition.
  - rewrite IH. intuition.
Qed.
Lemma sset_nodup k v (d : list (string * V)) : NoDup (map fst d) -> NoDup (map fst (sset k v d)).
Proof.
  induction d as [|[k' w] d IH]; cbn; intros N; [repeat constructor; tauto|].
  inversion N as [|? ? N1 N2]; subst. destruct (String.eqb_spec k k'); cbn; [auto|].
  constructor; [|auto]. rewrite sset_keys. intuition congruence.
Qed.
Lemma sget_sset k v (d : list (string * V)) x : sget x (sset k v d) = if String.eqb x k then Some v else sget x d.
Proof.
  induction d as [|[k' w] d IH]; cbn.
  - reflexivity.
  - destruct (String.eqb_spec k k'); cbn.
    + subst. now destruct (String.eqb_spec x k').
    + rewrite IH. destruct (String.eqb_spec x k'), (String.eqb_spec x k); congruence.
Qed.
Lemma spop_keep k (d : list (string * V)) x v : NoDup (map fst d) -> (In (x, v) (spop k d) <-> In (x, v) d /\ x <> k).
Proof.
  induction d as [|[k' w] d IH]; cbn; intros N; [tauto|].
  inversion N as [|? ? N1 N2]; subst. destruct (String.eqb_spec k k'); cbn.
  - subst. split.
    + intros H. split; [now right|]. intros ->. apply N1. now apply (in_map fst) in H.
    + intros [[[= -> ->]|H] X]; congruence.
  - rewrite (IH N2). intuition congruence.
Qed.
Lemma spop_nodup k (d : list (string * V)) : NoDup (map fst d) -> NoDup (map fst (spop k d)).
Proof.
  induction d as [|[k' w] d IH]; cbn; intros N; [constructor|].
  inversion N as [|? ? N1 N2]; subst. destruct (String.eqb_spec k k'); cbn; [auto|].
  constructor; [|auto]. intros H. apply N1. apply in_map_iff in H as [[a b] [E H]]. cbn in E. subst.
  apply (spop_keep k d) in H as [H _]; [|auto]. now apply (in_map fst) in H.
Qed.
Lemma sinsert_perm x (l : list (string * V)) : Permutation (x :: l) (sinsert x l).
Proof.
  induction l as [|y l IH]; cbn; [auto|]. destruct (String.leb _ _); [auto|].
  rewrite perm_swap. now constructor.
Qed.
Lemma ssort_perm (l : list (string * V)) : Permutation l (ssort l).
Proof. induction l as [|x l IH]; cbn; [auto|]. rewrite <- sinsert_perm. now constructor. Qed.
Lemma sinsert_sorted x (l : list (string * V)) :
  Sorted (fun a b => String.leb (fst a) (fst b) = true) l ->
  Sorted (fun a b => String.leb (fst a) (fst b) = true) (sinsert x l).
Proof.
  induction 1 as [|y l H IH Hd]; cbn; [repeat constructor|].
  destruct (String.leb (fst x) (fst y)) eqn:E.
  - constructor; [constructor; auto|now constructor].
  - constructor; [auto|].
    assert (Hyx : String.leb (fst y) (fst x) = true) by (destruct (String.leb_total (fst x) (fst y)); congruence).
    destruct l as [|z l]; cbn; [now constructor|].
    destruct (String.leb (fst x) (fst z)); constructor; auto. now inversion Hd.
Qed.
Lemma ssort_sorted (l : list (string * V)) : Sorted (fun a b => String.leb (fst a) (fst b) = true) (ssort l).
Proof. induction l; cbn; [constructor|]. now apply sinsert_sorted. Qed.
End SD.

Section Upd.
Context {A : Type}.
Lemma upd_length i (x : A) l : length (upd i x l) = length l.
Proof. revert i; induction l as [|y l IH]; intros [|i]; cbn; auto. Qed.
Lemma upd_nth_error i (x : A) l j : nth_error (upd i x l) j = if (i =? j) && (i <? length l) then Some x else nth_error l j.
Proof.
  revert i j; induction l as [|y l IH]; intros [|i] [|j]; cbn; auto.
  - now rewrite andb_false_r.
  - rewrite IH. reflexivity.
Qed.
Lemma upd_nth i (x d : A) l j : nth j (upd i x l) d = if (i =? j) && (i <? length l) then x else nth j l d.
Proof.
  revert i j; induction l as [|y l IH]; intros [|i] [|j]; cbn; auto.
  - now rewrite andb_false_r.
  - rewrite IH. reflexivity.
Qed.
End Upd.

Section C.
Context {val : Type} (veqb : val -> val -> bool) (repr : val -> string).
Context (cname : nat -> string) (signature : nat -> list (string * val)).
Context (accepts : nat -> args -> @kwargs val -> bool).
Notation state := (@state val).
Notation op := (@op val).
Notation run := (run veqb repr cname signature accepts).
Notation step := (step veqb repr cname signature accepts).
Notation create := (create veqb repr cname signature accepts).

Record wf (s : state) : Prop := {
  wf_dict : forall r, NoDup (map fst (dict_at s r));
  wf_ref : forall o b, nth_error (objs s) o = Some b -> o_dict b < length (dicts s);
  wf_target : forall o b o', nth_error (objs s) o = Some b -> o_target b = Other o' -> o' < o;
  wf_registry : forall n o, sget n (registry s) = Some o -> o < length (objs s) }.

Lemma wf_init : wf init.
Proof.
  constructor; cbn.
  - intros [|r]; constructor.
  - intros [|o] b; discriminate.
  - intros [|o] b o'; discriminate.
  - discriminate.
Qed.
Lemma dict_at_set (s : state) r d x : dict_at (set_dict s r d) x = if (r =? x) && (r <? length (dicts s)) then d else dict_at s x.
Proof. unfold dict_at, set_dict. cbn. apply upd_nth. Qed.
Lemma wf_set (s : state) r d : wf s -> NoDup (map fst d) -> wf (set_dict s r d).
Proof.
  intros [W1 W2 W3 W4] N. constructor; [|cbn; auto..].
  - intros x. rewrite dict_at_set. destruct (_ && _); auto.
  - intros o b H. rewrite upd_length. eauto.
Qed.

Lemma create_cases (s : state) cls t r b s' res : create s cls t r b = (s', res) ->
  let s1 := set_dict s r (spop "__class__" (spop "self" (dict_at s r))) in
  match different_from_defaults veqb signature cls (dict_at s1 r) with
  | Err e => s' = s1 /\ res = Err e
  | Ok diff =>
      let s2 := mkstate (objs s ++ [mkcobj cls t b r (default_name repr cname cls diff)]) (dicts s1) (registry s) in
      (s' = s2 /\ res = Ok (length (objs s)) /\
        (b = false -> exists m, run_call accepts s2 (length (objs s)) (mkargs 4 100 1) = Ok m)) \/
      (s' = s1 /\ b = false /\ exists e, res = Err e /\ run_call accepts s2 (length (objs s)) (mkargs 4 100 1) = Err e)
  end.
Proof.
  unfold create, Model.Configured.create. cbn [objs dicts registry set_dict].
  set (s1 := set_dict s r _). change (mkstate (objs s) _ (registry s)) with s1.
  destruct (different_from_defaults veqb signature cls (dict_at s1 r)) as [diff|e].
  - cbn zeta. destruct b.
    + intros [= <- <-]. left. repeat split. discriminate.
    + destruct (run_call accepts _ _ _) as [m|e] eqn:E; intros [= <- <-].
      * left. repeat split. intros _. exists m. reflexivity.
      * right. repeat split. exists e. split; reflexivity.
  - intros [= <- <-]. auto.
Qed.

Definition s_popped (s : state) r := set_dict s r (spop "__class__" (spop "self" (dict_at s r))).
Lemma create_state (s : state) cls t r b :
  fst (create s cls t r b) = s_popped s r \/
  exists diff, different_from_defaults veqb signature cls (dict_at (s_popped s r) r) = Ok diff /\
  fst (create s cls t r b) = mkstate (objs s ++ [mkcobj cls t b r (default_name repr cname cls diff)]) (dicts (s_popped s r)) (registry s).
Proof.
  destruct (create s cls t r b) as [s' res] eqn:E. apply create_cases in E. cbn zeta in E.
  fold (s_popped s r) in E.
  destruct (different_from_defaults _ _ _ _) as [diff|e] eqn:Ed.
  - destruct E as [[-> _]|[-> _]]; [right|left; auto]. exists diff. auto.
  - destruct E as [-> _]. now left.
Qed.

Lemma wf_popped (s : state) r : wf s -> wf (s_popped s r).
Proof. intros W. apply wf_set; [auto|]. apply spop_nodup, spop_nodup, W. Qed.

Lemma nth_error_snoc {A} (l : list A) x i y : nth_error (l ++ [x]) i = Some y -> nth_error l i = Some y \/ (i = length l /\ y = x).
Proof.
  intros H. destruct (Nat.lt_ge_cases i (length l)).
  - left. now rewrite nth_error_app1 in H.
  - rewrite nth_error_app2 in H by lia. destruct (i - length l) as [|[|k]] eqn:E; cbn in H; [|discriminate..].
    right. injection H as <-. split; [lia|auto].
Qed.

Lemma set_name_state (s : state) o n b c : nth_error (objs s) o = Some c ->
  objs (fst (set_name s o n b)) = upd o (mkcobj (o_class c) (o_target c) (o_as_config c) (o_dict c) n) (objs s) /\
  dicts (fst (set_name s o n b)) = dicts s /\
  (registry (fst (set_name s o n b)) = registry s \/
   (b = true /\ smem n (registry s) = false /\ registry (fst (set_name s o n b)) = sset n o (registry s))).
Proof.
  intros H. unfold set_name. rewrite H. cbn [registry]. destruct b; [|cbn; auto].
  destruct (smem n (registry s)) eqn:E; cbn; auto 7.
Qed.

Lemma wf_step (s : state) x : wf s -> wf (step s x).
Proof.
  intros W. unfold step, Model.Configured.step. destruct (known s x) eqn:K; [|auto].
  destruct x as [|r k v|cls t r b|o|o n b].
  - destruct W as [W1 W2 W3 W4]. constructor; cbn; auto.
    + intros r. unfold dict_at. cbn. destruct (Nat.lt_ge_cases r (length (dicts s))).
      * rewrite app_nth1 by auto. apply W1.
      * rewrite app_nth2 by auto. destruct (r - length (dicts s)) as [|[|]]; constructor.
    + intros o b H. rewrite app_length. apply W2 in H. lia.
  - apply wf_set; [auto|]. apply sset_nodup, W.
  - assert (Wp := wf_popped s r W).
    destruct (create_state s cls t r b) as [->|[diff [_ ->]]]; [auto|].
    assert (Lr : r < length (dicts s)) by (destruct t; cbn in K; [|apply andb_true_iff in K as [K _]]; now apply Nat.ltb_lt in K).
    assert (Lt : forall o', t = Other o' -> o' < length (objs s)).
    { intros o' ->. cbn in K. apply andb_true_iff in K as [_ K]. now apply Nat.ltb_lt in K. }
    destruct W as [_ _ _ W4]. destruct Wp as [W1 W2 W3 _]. constructor; cbn [objs dicts registry].
    + intros x. exact (W1 x).
    + intros o c H. apply nth_error_snoc in H as [H|[-> ->]]; [now apply W2 in H|].
      cbn. now rewrite upd_length.
    + intros o c o' H Ht. apply nth_error_snoc in H as [H|[-> ->]]; [now apply W3 with (b := c)|].
      cbn in Ht. auto.
    + intros n o H. apply W4 in H. rewrite app_length. lia.
  - unfold config. destruct (nth_error (objs s) o) as [c|] eqn:E; [|auto]. cbn.
    destruct W as [W1 W2 W3 W4]. constructor; cbn; auto.
    + intros r. unfold dict_at at 1. cbn. destruct (Nat.lt_ge_cases r (length (dicts s))).
      * rewrite app_nth1 by auto. apply W1.
      * rewrite app_nth2 by auto. destruct (r - length (dicts s)) as [|[|]]; cbn; [apply W1|constructor|constructor].
    + intros o' b H. rewrite app_length. apply W2 in H. lia.
  - destruct (nth_error (objs s) o) as [c|] eqn:E; [|unfold set_name; now rewrite E].
    destruct (set_name_state s o n b c E) as [E1 [E2 E3]]. destruct W as [W1 W2 W3 W4].
    constructor; rewrite ?E1, ?E2.
    + intros r. unfold dict_at. rewrite E2. apply W1.
    + intros o' c'. rewrite upd_nth_error. destruct (_ && _); [|apply W2]. intros [= <-]. cbn. eauto.
    + intros o' c' p. rewrite upd_nth_error. destruct (_ && _) eqn:Eo; [|apply W3].
      apply andb_true_iff in Eo as [Eo _]. apply Nat.eqb_eq in Eo. subst o'.
      intros [= <-]. cbn. eauto.
    + intros n' o'. rewrite upd_length. destruct E3 as [->|[_ [_ ->]]]; [apply W4|].
      rewrite sget_sset. destruct (String.eqb n' n); [|apply W4].
      intros [= <-]. apply nth_error_Some. congruence.
Qed.
Lemma run_snoc ops x : run (ops ++ [x]) = step (run ops) x.
Proof. unfold run, Model.Configured.run. now rewrite fold_left_app. Qed.
Lemma wf_run ops : wf (run ops).
Proof.
  induction ops as [|x ops IH] using rev_ind; [apply wf_init|]. rewrite run_snoc. now apply wf_step.
Qed.

(** ** Calls *)
Lemma innermost_exists (s : state) : wf s -> forall o b, nth_error (objs s) o = Some b -> exists i c, innermost (objs s) o i c.
Proof.
  intros W o. induction o as [o IH] using lt_wf_ind. intros b H.
  destruct (o_target b) as [c|o'] eqn:E.
  - exists o, c. eapply here; eauto.
  - assert (L := wf_target s W o b o' H E).
    destruct (nth_error (objs s) o') as [b'|] eqn:E'.
    + destruct (IH o' L b' E') as [i [c H']]. exists i, c. eapply inside; eauto.
    + apply nth_error_None in E'. assert (o < length (objs s)) by (apply nth_error_Some; congruence). lia.
Qed.
Lemma call_innermost (s : state) a o i c : wf s -> innermost (objs s) o i c -> forall b bi fuel, o < fuel ->
  nth_error (objs s) o = Some b -> nth_error (objs s) i = Some bi ->
  call accepts fuel s o a =
  let kw := if o_as_config bi then KwConfig i else Kw (dict_at s (o_dict bi)) in
  if accepts c a kw then Ok (mkmade c a kw (o_name b) o) else Err TypeError.
Proof.
  intros W H. induction H as [o b0 c H0 T|o b0 o' i c H0 T H IH]; intros b bi fuel L Hb Hi.
  - assert (b = b0) by congruence. assert (bi = b0) by congruence. subst b bi. destruct fuel as [|fuel]; [lia|].
    cbn [call]. rewrite Hb, T. cbn zeta. now destruct (accepts _ _ _).
  - assert (b = b0) by congruence. subst b. destruct fuel as [|fuel]; [lia|].
    cbn [call]. rewrite Hb, T. assert (L' := wf_target s W o b0 o' Hb T).
    destruct (nth_error (objs s) o') as [b'|] eqn:E'.
    + rewrite (IH b' bi fuel) by (auto; lia). cbn zeta. now destruct (accepts _ _ _).
    + apply nth_error_None in E'. assert (o < length (objs s)) by (apply nth_error_Some; congruence). lia.
Qed.

Lemma innermost_some (os : list cobj) o i c : innermost os o i c -> exists b, nth_error os i = Some b.
Proof. induction 1; eauto. Qed.
Lemma run_call_errors (s : state) a o b : wf s -> nth_error (objs s) o = Some b ->
  run_call accepts s o a <> Err RuntimeError.
Proof.
  intros W H. destruct (innermost_exists s W o b H) as [i [c I]].
  destruct (innermost_some _ _ _ _ I) as [bi Hi]. unfold run_call.
  assert (L : o < length (objs s)) by (apply nth_error_Some; congruence).
  rewrite (call_innermost s a o i c W I b bi) by (auto; lia). cbn zeta.
  destruct (accepts _ _ _); discriminate.
Qed.

(** ** Names *)
Lemma concat_listing (l : list (string * val)) :
  String.concat ", " (map (fun p => fst p ++ "=" ++ repr (snd p))%string l) = listing repr l.
Proof.
  induction l as [|[k v] l IH]; [auto|]. destruct l as [|[k' v'] l]; [auto|].
  cbn [map] in *. cbn [String.concat listing fst snd] in *. rewrite IH.
  assert (A : forall x y z : string, ((x ++ y) ++ z = x ++ y ++ z)%string).
  { induction x; intros; cbn; [auto|]. now rewrite IHx. }
  now rewrite !A.
Qed.

Definition excluded (k : string) := k = "self"%string \/ k = "__class__"%string.
Lemma defaults_iff cls k y : In (k, y) (defaults signature cls) <-> In (k, y) (signature cls) /\ ~ excluded k.
Proof.
  clear veqb repr cname accepts.
  unfold defaults, excluded. rewrite filter_In. cbn [fst]. rewrite andb_true_iff, !negb_true_iff, !String.eqb_neq. tauto.
Qed.
Lemma filter_nil_iff {A} (f : A -> bool) l : filter f l = [] <-> forall x, In x l -> f x = false.
Proof.
  induction l as [|x l IH]; cbn; [tauto|]. destruct (f x) eqn:E; split.
  - discriminate.
  - intros H. specialize (H x (or_introl eq_refl)). congruence.
  - intros H y [->|Hy]; [auto|]. now apply IH.
  - intros H. apply IH. auto.
Qed.
Lemma diff_ok cls d : NoDup (map fst d) ->
  ((exists diff, different_from_defaults veqb signature cls d = Ok diff) <->
   forall k, has_key d k <-> has_key (defaults signature cls) k) /\
  (different_from_defaults veqb signature cls d = Err RuntimeError \/ exists diff, different_from_defaults veqb signature cls d = Ok diff).
Proof.
  intros N. unfold different_from_defaults. set (df := defaults signature cls).
  set (add := filter _ df). set (miss := filter (fun p => negb (smem (fst p) df)) d).
  assert (Ha : add = [] <-> forall k, has_key df k -> has_key d k).
  { unfold add. rewrite filter_nil_iff. split.
    - intros H k [v Hv]. apply H in Hv. apply negb_false_iff in Hv. now apply smem_iff in Hv.
    - intros H [k v] Hv. apply negb_false_iff, smem_iff, H. now exists v. }
  assert (Hm : miss = [] <-> forall k, has_key d k -> has_key df k).
  { unfold miss. rewrite filter_nil_iff. split.
    - intros H k [v Hv]. apply H in Hv. apply negb_false_iff in Hv. now apply smem_iff in Hv.
    - intros H [k v] Hv. apply negb_false_iff, smem_iff, H. now exists v. }
  destruct add, miss.
  - split; [|eauto]. split; [|eauto]. intros _ k. split; [now apply Hm|now apply Ha].
  - split; [|auto]. split; [intros [? ?]; discriminate|]. intros H. exfalso.
    assert (p :: miss = []) by (apply Hm; intros k; apply H). discriminate.
  - split; [|auto]. split; [intros [? ?]; discriminate|]. intros H. exfalso.
    assert (p :: add = []) by (apply Ha; intros k; apply H). discriminate.
  - split; [|auto]. split; [intros [? ?]; discriminate|]. intros H. exfalso.
    assert (p :: add = []) by (apply Ha; intros k; apply H). discriminate.
Qed.
Lemma diff_in cls d diff : NoDup (map fst d) -> different_from_defaults veqb signature cls d = Ok diff ->
  forall k v, In (k, v) diff <->
   In (k, v) d /\ String.prefix "_" k = false /\ exists y, In (k, y) (defaults signature cls) /\ negb (veqb y v) = true.
Proof.
  intros N H k v. unfold different_from_defaults in H.
  destruct (filter _ (defaults _ _)); [|discriminate]. destruct (filter _ d); [|discriminate].
  injection H as <-. rewrite in_flat_map. split.
  - intros [[k' y] [Hy H]]. cbn [fst snd] in H. destruct (sget k' d) as [w|] eqn:E; [|contradiction].
    destruct (negb (veqb y w)) eqn:E1; [|contradiction].
    destruct (String.prefix "_" k') eqn:E2; [contradiction|]. destruct H as [[= -> ->]|[]].
    split; [now apply sget_in|]. split; [auto|]. exists y. auto.
  - intros [Hd [Hp [y [Hy Hv]]]]. exists (k, y). split; [auto|]. cbn [fst snd].
    apply (sget_iff k d v N) in Hd. rewrite Hd, Hv, Hp. now left.
Qed.
Lemma nodup_flat {A B} (g : A -> string) (f : A -> list (string * B)) l :
  NoDup (map g l) -> (forall x p, In p (f x) -> fst p = g x) -> (forall x, length (f x) <= 1) -> NoDup (map fst (flat_map f l)).
Proof.
  intros N Hf Hl. induction l as [|x l IH]; cbn; [constructor|].
  inversion N as [|? ? N1 N2]; subst. specialize (IH N2). specialize (Hl x).
  destruct (f x) as [|p [|]] eqn:E; cbn in Hl |- *; [auto| |lia].
  constructor; [|auto]. intros H. apply N1. apply in_map_iff in H as [q [Eq Hq]].
  apply in_flat_map in Hq as [z [Hz Hq]]. apply Hf in Hq.
  assert (Hp := Hf x p). rewrite E in Hp. rewrite <- Hp by now left. rewrite <- Eq, Hq. now apply in_map.
Qed.
Lemma diff_nodup cls d diff : NoDup (map fst (signature cls)) -> different_from_defaults veqb signature cls d = Ok diff ->
  NoDup (map fst diff).
Proof.
  intros N H. unfold different_from_defaults in H.
  destruct (filter _ (defaults _ _)); [|discriminate]. destruct (filter _ d); [|discriminate].
  injection H as <-. apply nodup_flat with (g := fst).
  - unfold defaults. clear -N. induction (signature cls) as [|p l IH]; cbn; [constructor|].
    inversion N as [|? ? N1 N2]; subst. destruct (_ && _); cbn; [|auto]. constructor; [|auto].
    intros H. apply N1. apply in_map_iff in H as [q [E H]]. apply filter_In in H as [H _]. rewrite <- E. now apply in_map.
  - intros [k y] p Hp. cbn [fst snd] in *. destruct (sget k d); [|contradiction].
    destruct (_ && _); [|contradiction]. now destruct Hp as [<-|[]].
  - intros [k y]. cbn [fst snd]. destruct (sget k d); [|cbn; lia]. destruct (_ && _); cbn; lia.
Qed.
Lemma popped_in (s : state) r k v : wf s -> r < length (dicts s) ->
  (In (k, v) (dict_at (s_popped s r) r) <-> In (k, v) (dict_at s r) /\ ~ excluded k).
Proof.
  clear veqb repr cname signature accepts.
  intros W L. unfold s_popped. rewrite dict_at_set, Nat.eqb_refl. cbn [andb].
  apply Nat.ltb_lt in L. rewrite L. rewrite !spop_keep; [|apply W|apply spop_nodup, W].
  unfold excluded. tauto.
Qed.

(** ** Dicts *)
Lemma nodict_untouched ops r : (forall cls t b, ~ In (Create cls t r b) ops) ->
  forall o c, nth_error (objs (run ops)) o = Some c -> o_dict c <> r.
Proof.
  induction ops as [|x ops IH] using rev_ind; intros H o c; [destruct o; discriminate|].
  assert (H' : forall cls t b, ~ In (Create cls t r b) ops).
  { intros cls t b Hi. apply (H cls t b), in_or_app. now left. }
  specialize (IH H'). rewrite run_snoc. unfold step, Model.Configured.step.
  set (s := run ops) in *. destruct (known s x); [|apply IH].
  destruct x as [|r' k v|cls t r' b|o'|o' n b]; cbn [objs].
  - apply IH.
  - cbn. apply IH.
  - destruct (create_state s cls t r' b) as [->|[diff [_ ->]]]; [apply IH|]. cbn [objs].
    intros E. apply nth_error_snoc in E as [E|[-> ->]]; [eauto|]. cbn. intros ->.
    apply (H cls t b), in_or_app. right. now left.
  - unfold config. destruct (nth_error (objs s) o'); apply IH.
  - destruct (nth_error (objs s) o') as [c'|] eqn:E; [|unfold set_name; rewrite E; apply IH].
    destruct (set_name_state s o' n b c' E) as [-> _]. rewrite upd_nth_error.
    destruct (_ && _); [|apply IH]. intros [= <-]. cbn. eauto.
Qed.

(** ** Names and the registry *)
Lemma name_kept ops o (n : string) rest : o < length (objs (run ops)) ->
  (forall m b, In (SetName o m b) rest -> m = n) ->
  (exists c, nth_error (objs (run ops)) o = Some c /\ o_name c = n) ->
  exists c, nth_error (objs (run (ops ++ rest))) o = Some c /\ o_name c = n.
Proof.
  intros L. induction rest as [|x rest IH] using rev_ind; intros H0 H; [now rewrite app_nil_r|].
  destruct IH as [c [Hc Hn]]; [intros m b Hi; apply (H0 m b), in_or_app; now left|auto|].
  rewrite app_assoc, run_snoc. set (s := run (ops ++ rest)) in *. clearbody s.
  unfold step, Model.Configured.step. destruct (known s x) eqn:K; [|eauto].
  destruct x as [|r' k v|cls t r' b|o'|o' m b]; cbn [objs]; eauto.
  - destruct (create_state s cls t r' b) as [->|[diff [_ ->]]]; [cbn; eauto|]. cbn [objs].
    exists c. rewrite nth_error_app1; [auto|]. apply nth_error_Some. congruence.
  - unfold config. destruct (nth_error (objs s) o'); cbn; eauto.
  - destruct (nth_error (objs s) o') as [c'|] eqn:E; [|unfold set_name; rewrite E; eauto].
    destruct (set_name_state s o' m b c' E) as [-> _]. rewrite upd_nth_error.
    destruct ((o' =? o) && (o' <? length (objs s))) eqn:Eo; [|eauto].
    apply andb_true_iff in Eo as [Eo _]. apply Nat.eqb_eq in Eo. subst o'.
    eexists. split; [reflexivity|]. cbn. apply (H0 m b), in_or_app. right. now left.
Qed.
Lemma set_name_named ops o n b c : nth_error (objs (run ops)) o = Some c ->
  exists c', nth_error (objs (run (ops ++ [SetName o n b]))) o = Some c' /\ o_name c' = n.
Proof.
  intros H. rewrite run_snoc. unfold step, Model.Configured.step. cbn [known].
  assert (L : o < length (objs (run ops))) by (apply nth_error_Some; congruence).
  assert (L' := L). apply Nat.ltb_lt in L'. rewrite L'.
  destruct (set_name_state (run ops) o n b c H) as [-> _]. rewrite upd_nth_error, Nat.eqb_refl, L'. cbn.
  eauto.
Qed.
Lemma registry_history ops n o : sget n (registry (run ops)) = Some o ->
  exists before after, ops = before ++ SetName o n true :: after /\ o < length (objs (run before)) /\ sget n (registry (run before)) = None.
Proof.
  induction ops as [|x ops IH] using rev_ind; [discriminate|].
  rewrite run_snoc. unfold step, Model.Configured.step.
  assert (K' : sget n (registry (run ops)) = Some o -> exists before after,
      ops ++ [x] = before ++ SetName o n true :: after /\ o < length (objs (run before)) /\ sget n (registry (run before)) = None).
  { intros H. destruct (IH H) as [l1 [l2 [-> X]]]. exists l1, (l2 ++ [x]). now rewrite <- app_assoc. }
  destruct (known (run ops) x) eqn:K; [|exact K'].
  destruct x as [|r' k v|cls t r' b|o'|o' m b]; cbn [registry]; auto.
  - destruct (create_state (run ops) cls t r' b) as [->|[diff [_ ->]]]; exact K'.
  - unfold config. destruct (nth_error (objs (run ops)) o'); exact K'.
  - destruct (nth_error (objs (run ops)) o') as [c'|] eqn:E; [|unfold set_name; rewrite E; exact K'].
    destruct (set_name_state (run ops) o' m b c' E) as [_ [_ [->|[-> [Hm ->]]]]]; [exact K'|].
    rewrite sget_sset. destruct (String.eqb_spec n m); [|exact K'].
    intros [= <-]. subst m. exists ops, []. split; [auto|]. split; [apply nth_error_Some; congruence|].
    unfold smem in Hm. now destruct (sget n (registry (run ops))).
Qed.

(** ** Equality *)
Lemma nodup_incl_len {A} (a b : list A) : NoDup a -> incl a b -> length b <= length a -> incl b a.
Proof. intros. now apply NoDup_length_incl. Qed.
Lemma dict_eqb_iff (a b : list (string * val)) : NoDup (map fst a) -> NoDup (map fst b) ->
  (dict_eqb veqb a b = true <->
   forall k, match sget k a, sget k b with Some v, Some w => veqb v w = true | None, None => True | _, _ => False end).
Proof.
  clear repr cname signature accepts.
  intros Na Nb. unfold dict_eqb. rewrite andb_true_iff, Nat.eqb_eq, forallb_forall. split.
  - intros [L H]. assert (I : incl (map fst a) (map fst b)).
    { intros k Hk. apply in_map_iff in Hk as [[k' v] [<- Hk]]. apply H in Hk. cbn [fst snd] in *.
      destruct (sget k' b) eqn:E; [|discriminate]. apply sget_in in E. now apply (in_map fst) in E. }
    assert (I' : incl (map fst b) (map fst a)) by (apply nodup_incl_len; [auto|auto|rewrite !map_length; lia]).
    intros k. destruct (sget k a) as [v|] eqn:Ea.
    + apply sget_in in Ea. apply H in Ea. cbn [fst snd] in Ea. now destruct (sget k b).
    + destruct (sget k b) eqn:Eb; [|auto]. apply sget_none in Ea. apply Ea, I'.
      apply sget_in in Eb. now apply (in_map fst) in Eb.
  - intros H.
    assert (I : forall k, In k (map fst a) <-> In k (map fst b)).
    { intros k. specialize (H k). destruct (sget k a) eqn:Ea, (sget k b) eqn:Eb; try contradiction.
      - apply sget_in in Ea, Eb. apply (in_map fst) in Ea, Eb. tauto.
      - apply sget_none in Ea, Eb. tauto. }
    split.
    + rewrite <- (map_length fst a), <- (map_length fst b).
      assert (P : Permutation (map fst a) (map fst b)) by (apply NoDup_Permutation; auto).
      now apply Permutation_length.
    + intros [k v] Hk. cbn [fst snd]. apply (sget_iff k a v Na) in Hk. specialize (H k). rewrite Hk in H.
      now destruct (sget k b).
Qed.
End C.

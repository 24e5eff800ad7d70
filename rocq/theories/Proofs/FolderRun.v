(** Proofs for folder functions. *)
From Coq Require Import Ascii String Bool Arith Lia List.
From Verif.Model Require Import Prelude Instantiate FolderRun.
From Verif.Spec Require Import Instantiate FolderRun.
From Verif.Proofs Require Import Instantiate.
From Verif.Props Require Import Instantiate.
Import ListNotations.
Open Scope nat_scope.

Lemma path_eqb_eq p q : path_eqb p q = true <-> p = q.
Proof.
  destruct p as [a s], q as [b t]. unfold path_eqb. cbn [fst snd]. rewrite andb_true_iff, teqb_eq.
  destruct a, b; cbn; intuition congruence.
Qed.
Lemma set_same m p e : set_entry m p e p = e.
Proof. unfold set_entry. destruct (path_eqb p p) eqn:E; [auto|]. assert (path_eqb p p = true) by now apply path_eqb_eq. congruence. Qed.
Lemma set_other m p e q : q <> p -> set_entry m p e q = m q.
Proof. intros H. unfold set_entry. destruct (path_eqb q p) eqn:E; [|auto]. now apply path_eqb_eq in E. Qed.

Lemma write_plain m r t : (forall q, m (Out, r) <> Some (Link q)) -> write m (Out, r) t = (set_entry m (Out, r) (Some (File t)), Ok tt).
Proof.
  intros H. unfold write, max_links. cbn [resolve]. destruct (m (Out, r)) as [[c|q]|] eqn:E; auto. now destruct (H q).
Qed.

(** ** Links *)
Definition in_src m (listing : list text) := forall r, In r listing -> exists t, m (Src, r) = Some (File t).
Definition not_dangling (m : fs) := forall r, m (Out, r) <> None -> exists_ m (Out, r) = true.

Lemma resolve_set m p q fuel : m p = None -> forall x y, resolve fuel m x = Some y -> m y <> None -> resolve fuel (set_entry m p q) x = Some y.
Proof.
  intros Hp. induction fuel as [|fuel IH]; cbn [resolve]; [discriminate|].
  intros x y H Hy. destruct (path_eqb x p) eqn:E.
  - apply path_eqb_eq in E. subst x. rewrite Hp in H. injection H as <-. congruence.
  - rewrite set_other; [|intros ->; assert (path_eqb p p = true) by (now apply path_eqb_eq); congruence].
    destruct (m x) as [[c|z]|]; auto.
Qed.
Lemma exists_set m p e q : m p = None -> exists_ m q = true -> exists_ (set_entry m p e) q = true.
Proof.
  intros Hp H. unfold exists_ in *. destruct (resolve max_links m q) as [y|] eqn:E; [|discriminate].
  assert (Hy : m y <> None) by (destruct (m y); congruence).
  rewrite (resolve_set m p e max_links Hp q y E Hy), set_other; [auto|congruence].
Qed.
Lemma exists_link m r t : m (Src, r) = Some (File t) ->
  exists_ (set_entry m (Out, r) (Some (Link (Src, r)))) (Out, r) = true.
Proof.
  intros H. unfold exists_, max_links. cbn [resolve]. rewrite set_same.
  assert (E : set_entry m (Out, r) (Some (Link (Src, r))) (Src, r) = Some (File t)) by (rewrite set_other; [auto|discriminate]).
  rewrite E, E. reflexivity.
Qed.

Lemma link_all_spec listing : forall m, in_src m listing -> not_dangling m ->
  exists m', link_all m listing = (m', Ok tt) /\ not_dangling m' /\
    (forall r, m' (Src, r) = m (Src, r)) /\
    (forall r, m (Out, r) <> None -> m' (Out, r) = m (Out, r)) /\
    (forall r, m (Out, r) = None -> In r listing -> m' (Out, r) = Some (Link (Src, r))) /\
    (forall r, m (Out, r) = None -> ~ In r listing -> m' (Out, r) = None).
Proof.
  induction listing as [|r listing IH]; intros m Hs Hd; cbn [link_all].
  - exists m. repeat split; auto. intros r _ [].
  - assert (Hs' : in_src m listing) by (intros x Hx; apply Hs; now right).
    destruct (exists_ m (Out, r)) eqn:E.
    + destruct (IH m Hs' Hd) as [m' [-> [N [K1 [K2 [K3 K4]]]]]]. exists m'. repeat split; auto.
      * intros x Hx [<-|Hi]; [|auto]. exfalso. unfold exists_, max_links in E. cbn [resolve] in E.
        rewrite Hx, Hx in E. discriminate.
      * intros x Hx Hi. apply K4; [auto|]. intros ?. apply Hi. now right.
    + unfold symlink_to. destruct (m (Out, r)) as [e|] eqn:Eo.
      * exfalso. rewrite Hd in E by congruence. discriminate.
      * destruct (Hs r (or_introl eq_refl)) as [t Ht]. set (m1 := set_entry m (Out, r) (Some (Link (Src, r)))).
        assert (Hs1 : in_src m1 listing).
        { intros x Hx. destruct (Hs' x Hx) as [t' Ht']. exists t'. unfold m1. rewrite set_other; [auto|discriminate]. }
        assert (Hd1 : not_dangling m1).
        { intros x Hx. destruct (list_eq_dec ascii_dec x r) as [->|N]; [now apply exists_link with (t := t)|].
          apply exists_set; [auto|]. apply Hd. unfold m1 in Hx. rewrite set_other in Hx by congruence. auto. }
        destruct (IH m1 Hs1 Hd1) as [m' [-> [N [K1 [K2 [K3 K4]]]]]]. exists m'.
        assert (Ho : forall x, x <> r -> m1 (Out, x) = m (Out, x)) by (intros x Hx; unfold m1; apply set_other; congruence).
        assert (Hr : m1 (Out, r) = Some (Link (Src, r))) by apply set_same.
        repeat split; auto.
        -- intros x Hx. assert (x <> r) by congruence. rewrite <- Ho by auto. apply K2. now rewrite Ho.
        -- intros x Hx Hi. destruct (list_eq_dec ascii_dec x r) as [->|Nx].
           ++ rewrite K2; congruence.
           ++ destruct Hi as [->|Hi]; [congruence|]. apply K3; [now rewrite Ho|auto].
        -- intros x Hx Hi. assert (x <> r) by (intros ->; apply Hi; now left).
           apply K4; [now rewrite Ho|]. intros ?. apply Hi. now right.
Qed.

(** ** Texts *)
Lemma write_all_spec funcs kw : NoDup (map fst funcs) ->
  (forall r f, In (r, f) funcs -> exists t, file_call f (filter (fun kv => tmem (fst kv) (f_params f)) kw) = Ok t) ->
  forall m, (forall r, In r (map fst funcs) -> m (Out, r) <> None) ->
  exists m', write_all m funcs kw = (m', Ok tt) /\
    (forall r, m' (Src, r) = m (Src, r)) /\
    (forall r f t, In (r, f) funcs -> file_call f (filter (fun kv => tmem (fst kv) (f_params f)) kw) = Ok t -> m' (Out, r) = Some (File t)) /\
    (forall r, ~ In r (map fst funcs) -> m' (Out, r) = m (Out, r)).
Proof.
  induction funcs as [|[r f] funcs IH]; intros N Hf m Hm; cbn [write_all].
  - exists m. repeat split; auto. intros r f t [].
  - cbn [map fst] in N, Hm. inversion N as [|? ? N1 N2]; subst.
    unfold remove. destruct (m (Out, r)) as [e|] eqn:E; [|exfalso; apply (Hm r); [now left|auto]].
    set (m1 := set_entry m (Out, r) None).
    rewrite write_plain by (unfold m1; rewrite set_same; discriminate).
    set (m2 := set_entry m1 (Out, r) (Some (File []))).
    destruct (Hf r f (or_introl eq_refl)) as [t Ht]. rewrite Ht.
    rewrite write_plain by (unfold m2; rewrite set_same; discriminate).
    set (m3 := set_entry m2 (Out, r) (Some (File t))).
    assert (Eq : forall q, q <> (Out, r) -> m3 q = m q).
    { intros q Hq. unfold m3, m2, m1. now rewrite !set_other by auto. }
    destruct (IH N2) with (m := m3) as [m' [-> [K1 [K2 K3]]]].
    + intros r' f' H. apply (Hf r' f'). now right.
    + intros x Hx. rewrite Eq; [apply Hm; now right|]. intros [= ->]. contradiction.
    + exists m'. split; [auto|]. split; [|split].
      * intros x. rewrite K1. apply Eq. discriminate.
      * intros x g u [[= <- <-]|Hi] Hu; [|eauto]. assert (u = t) by congruence. subst u.
        rewrite K3 by auto. unfold m3. apply set_same.
      * intros x Hx. rewrite K3 by (intros ?; apply Hx; now right). apply Eq. intros [= ->]. apply Hx. now left.
Qed.
Lemma file_text f kw sfx s : file_init sfx s = Ok f -> incl (f_params f) (map fst kw) ->
  exists t, file_call f (filter (fun kv => tmem (fst kv) (f_params f)) kw) = Ok t /\
    forall value, shows (f_suffix f) kw value -> exists ps, reads (f_text f) ps /\ t = fill value ps.
Proof.
  intros Hf Hi. pose proof (file_call_spec _ _ _ (filter (fun kv => tmem (fst kv) (f_params f)) kw) Hf) as Hc.
  assert (Hp : forall x, In x (f_params f) <-> In x (map fst (filter (fun kv => tmem (fst kv) (f_params f)) kw))).
  { intros x. rewrite in_map_iff. split.
    - intros Hx. pose proof (Hi x Hx) as Hx'. apply in_map_iff in Hx' as (kv & <- & Hkv). exists kv. split; [reflexivity|].
      apply filter_In. split; [exact Hkv|now apply tmem_in].
    - intros (kv & <- & Hkv). apply filter_In in Hkv as (_ & Hkv). now apply tmem_in in Hkv. }
  destruct (file_init_spec _ _ _ Hf) as (Hs & _ & ps' & Hr' & Hps).
  destruct (file_call f _) as [out|e]; [|exfalso; destruct Hc as (_ & Hc); now apply Hc].
  destruct Hc as (_ & ps & Hr & ->). eexists. split; [reflexivity|].
  intros value Hv. exists ps. split; [exact Hr|]. apply fill_ext. intros n Hn. apply shows_value.
  - rewrite <- Hs. intros k d Hk. apply Hv. apply filter_In in Hk. tauto.
  - apply Hp. rewrite <- Hps. now rewrite (reads_unique _ _ Hr' _ Hr).
Qed.

(** ** Writes of the command *)
Lemma apply_writes_src ws : forall m, 
  (forall r t, In (r, t) ws -> forall q, m (Out, r) <> Some (Link q)) ->
  forall r, apply_writes m ws (Src, r) = m (Src, r).
Proof.
  induction ws as [|[x t] ws IH]; intros m H r; cbn [apply_writes]; [auto|].
  assert (Hx := H x t (or_introl eq_refl)). rewrite (write_plain m x t Hx). cbn [fst].
  rewrite IH.
  - apply set_other. discriminate.
  - intros r' t' Hi q. destruct (list_eq_dec ascii_dec r' x) as [->|N].
    + rewrite set_same. discriminate.
    + rewrite set_other by congruence. apply (H r' t'). now right.
Qed.

(** ** Lines *)
Lemma is_blank_iff c : is_blank c = true <-> blank c.
Proof.
  unfold is_blank, blank. rewrite orb_true_iff, !andb_true_iff, !Nat.leb_le. tauto.
Qed.
Lemma drop_blank_all a s : all_blank a -> drop_blank (a ++ s) = drop_blank s.
Proof.
  induction 1 as [|c a H _ IH]; cbn; [auto|]. apply is_blank_iff in H. now rewrite H.
Qed.
Lemma drop_blank_stop c s : ~ blank c -> drop_blank (c :: s) = c :: s.
Proof. intros H. cbn. destruct (is_blank c) eqn:E; [|auto]. now apply is_blank_iff in E. Qed.
Lemma drop_blank_app s c t : ~ blank c -> drop_blank (s ++ c :: t) = drop_blank s ++ c :: t.
Proof.
  intros H. induction s as [|x s IH]; [now apply drop_blank_stop|]. cbn [app drop_blank].
  destruct (is_blank x); auto.
Qed.
Lemma drop_blank_suffix s : exists a, s = a ++ drop_blank s.
Proof.
  induction s as [|c s [a IH]]; cbn; [now exists []|]. destruct (is_blank c); [|now exists []].
  exists (c :: a). cbn. now f_equal.
Qed.
Lemma all_blank_rev a : all_blank a -> all_blank (rev a).
Proof. intros H. apply Forall_forall. intros x Hx. apply in_rev in Hx. now apply (proj1 (Forall_forall _ _) H). Qed.
Lemma drop_all a : all_blank a -> drop_blank a = [].
Proof. intros H. rewrite <- (app_nil_r a). now rewrite drop_blank_all. Qed.

(** a text with a last part that neither starts nor ends with a blank *)
Lemma strip_last pre t trail : t <> [] -> (forall c t', t = c :: t' -> ~ blank c) -> (forall t' c, t = t' ++ [c] -> ~ blank c) ->
  all_blank trail -> strip_text (pre ++ t ++ trail) = drop_blank pre ++ t.
Proof.
  intros Ht Hh Hl Hb. unfold strip_text. destruct t as [|c t]; [congruence|].
  cbn [app]. rewrite drop_blank_app by (eapply Hh; eauto).
  change (c :: t ++ trail) with ((c :: t) ++ trail). rewrite !rev_app_distr.
  rewrite <- app_assoc. rewrite drop_blank_all by now apply all_blank_rev.
  destruct (exists_last Ht) as [t' [x E]]. rewrite E, rev_app_distr. cbn [rev app].
  rewrite drop_blank_stop by (eapply Hl; eauto).
  cbn [rev]. rewrite rev_app_distr, !rev_involutive. now rewrite <- app_assoc.
Qed.
Lemma strip_trimmed l t : trimmed l t -> strip_text l = t.
Proof.
  intros [a [b [-> [Ha [Hb [Hh Hl]]]]]]. destruct t as [|c t].
  - cbn [app]. unfold strip_text. rewrite drop_blank_all by auto. rewrite (drop_all b) by auto. reflexivity.
  - rewrite strip_last by (auto; discriminate). rewrite drop_all by auto. reflexivity.
Qed.
Lemma trimmed_exists l : exists t, trimmed l t.
Proof.
  assert (D : forall s, exists a, s = a ++ drop_blank s /\ all_blank a /\ forall c t, drop_blank s = c :: t -> ~ blank c).
  { induction s as [|c s IH]; cbn.
    - exists []. split; [auto|]. split; [constructor|discriminate].
    - destruct (is_blank c) eqn:E.
      + destruct IH as [a [H0 [H1 H2]]]. exists (c :: a). split; [cbn; now f_equal|].
        split; [constructor; [now apply is_blank_iff|auto]|auto].
      + exists []. split; [auto|]. split; [constructor|]. intros c' t [= <- <-] H. apply is_blank_iff in H. congruence. }
  destruct (D l) as [a [E1 [A1 H1]]]. destruct (D (rev (drop_blank l))) as [b [E2 [A2 H2]]].
  exists (rev (drop_blank (rev (drop_blank l)))).
  assert (E3 : drop_blank l = rev (drop_blank (rev (drop_blank l))) ++ rev b).
  { rewrite <- rev_app_distr, <- E2. now rewrite rev_involutive. }
  exists a, (rev b). split; [now rewrite <- E3|]. split; [auto|]. split; [now apply all_blank_rev|]. split.
  - intros c t' E. apply (H1 c (t' ++ rev b)). now rewrite E3, E.
  - intros t' c E. apply (H2 c (rev t')). rewrite <- (rev_involutive (drop_blank (rev (drop_blank l)))), E, rev_app_distr. reflexivity.
Qed.

Lemma boundary_iff c : is_boundary c = true <-> let n := nat_of_ascii c in 10 <= n <= 13 \/ 28 <= n <= 30.
Proof.
  unfold is_boundary, is_break. cbn zeta. rewrite !orb_true_iff, !Nat.eqb_eq. lia.
Qed.
Lemma one_line_iff t : one_line t <-> forall c, In c t -> is_boundary c = false.
Proof.
  unfold one_line. split; intros H c Hc; specialize (H c Hc).
  - destruct (is_boundary c) eqn:E; [|auto]. apply boundary_iff in E. cbn zeta in *. tauto.
  - cbn zeta. assert (X := proj2 (boundary_iff c)). cbn zeta in X. split; intros Y; rewrite X in H by tauto; discriminate.
Qed.
Lemma split_one t : one_line t -> forall cur st, (st = true \/ t <> []) -> split_from cur st t = [rev cur ++ t].
Proof.
  rewrite one_line_iff. induction t as [|c t IH]; intros H cur st Hs; cbn [split_from].
  - destruct Hs as [->|Hs]; [|congruence]. now rewrite app_nil_r.
  - rewrite H by now left. rewrite IH; [|intros; apply H; now right|now left]. cbn [rev]. now rewrite <- app_assoc.
Qed.
Lemma split_last p t : one_line t -> t <> [] -> (p = [] \/ exists p', p = p' ++ [newline]) ->
  exists l, split_from [] false (p ++ t) = l ++ [t].
Proof.
  intros H Ht [->|[p' ->]].
  - exists []. cbn [app]. now rewrite split_one by auto.
  - rewrite <- app_assoc. cbn [app].
    enough (G : forall st cur, exists l, split_from cur st (p' ++ newline :: t) = l ++ [t]) by apply G.
    induction p' as [|c p' IH]; intros st cur; cbn [app split_from].
    + change (is_boundary newline) with true. cbn iota. rewrite split_one by auto. now exists [rev cur].
    + destruct (is_boundary c); [|apply IH]. destruct (IH false []) as [l ->]. now exists (rev cur :: l).
Qed.
Lemma suffix_newline pre : (pre = [] \/ exists p', pre = p' ++ [newline]) -> 
  drop_blank pre = [] \/ exists p', drop_blank pre = p' ++ [newline].
Proof.
  intros H. destruct (drop_blank_suffix pre) as [a E]. destruct (drop_blank pre) as [|c q] eqn:Ed; [auto|right].
  destruct H as [->|[p' Hp]]; [destruct a; discriminate|].
  destruct (exists_last (l := c :: q)) as [q' [x Eq]]; [discriminate|]. rewrite Eq in E.
  rewrite Hp, app_assoc in E. apply app_inj_tail in E as [_ <-]. eauto.
Qed.
Lemma join_parts xs t ys : (forall y, In y ys -> y = []) ->
  exists pre trail, join_lines (xs ++ t :: ys) = pre ++ t ++ trail /\ (pre = [] \/ exists p', pre = p' ++ [newline]) /\ all_blank trail.
Proof.
  intros Hy. induction xs as [|x xs IH]; cbn [app].
  - exists []. assert (T : forall ys t, (forall y, In y ys -> y = []) -> exists trail, join_lines (t :: ys) = t ++ trail /\ all_blank trail).
    { clear. induction ys as [|y ys IH]; intros t H.
      - exists []. cbn. rewrite app_nil_r. split; [auto|constructor].
      - destruct (IH y) as [tr [E A]]; [intros z Hz; apply H; now right|].
        exists (newline :: tr). change (join_lines (t :: y :: ys)) with (t ++ newline :: join_lines (y :: ys)).
        rewrite E, (H y) by now left. split; [reflexivity|]. constructor; [|auto]. unfold blank. cbn. lia. }
    destruct (T ys t Hy) as [tr [E A]]. exists tr. split; [exact E|]. auto.
  - destruct IH as [pre [tr [E [Hp A]]]]. exists (x ++ newline :: pre), tr.
    assert (J : join_lines (x :: xs ++ t :: ys) = x ++ newline :: join_lines (xs ++ t :: ys)) by (destruct xs; reflexivity).
    rewrite J, E. split; [rewrite <- app_assoc; reflexivity|]. split; [|auto]. right.
    destruct Hp as [->|[p' ->]]; [now exists x|]. exists (x ++ newline :: p'). now rewrite <- app_assoc.
Qed.
Lemma decode_some ls : decode (map Some ls) = Ok (map strip_text ls).
Proof. induction ls as [|l ls IH]; cbn; [auto|]. now rewrite IH. Qed.
Lemma decode_none ls : In None ls -> decode ls = Err FailedJobError.
Proof.
  induction ls as [|[t|] ls IH]; cbn; [tauto| |auto]. intros [H|H]; [discriminate|]. now rewrite (IH H).
Qed.
Lemma blank_strip l : all_blank l -> strip_text l = [].
Proof. intros H. apply strip_trimmed. exists l, []. cbn. rewrite app_nil_r. repeat split; auto; try constructor; discriminate || (intros t' c E; destruct t'; discriminate). Qed.
Lemma join_blank n : all_blank (join_lines (repeat [] n)).
Proof.
  induction n as [|n IH]; [constructor|]. destruct n; [constructor|].
  change (join_lines (repeat [] (S (S n)))) with (newline :: join_lines (repeat [] (S n))).
  constructor; [unfold blank; cbn; lia|auto].
Qed.

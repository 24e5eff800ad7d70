(** Lemmas on placeholders. *)
From Coq Require Import Ascii String Bool Arith Lia List.
From Verif.Model Require Import Prelude Instantiate.
From Verif.Spec Require Import Instantiate.
Import ListNotations.

Lemma teqb_eq a b : teqb a b = true <-> a = b.
Proof. unfold teqb. destruct (list_eq_dec ascii_dec a b); split; congruence. Qed.
Lemma tmem_in a l : tmem a l = true <-> In a l.
Proof.
  unfold tmem. rewrite existsb_exists. split.
  - intros (x & H & E). apply teqb_eq in E. now subst.
  - intros H. exists a. split; [exact H|now apply teqb_eq].
Qed.
Lemma tmem_false a l : tmem a l = false <-> ~ In a l.
Proof. rewrite <- tmem_in. destruct (tmem a l); split; congruence. Qed.
Lemma word_spec c : is_word c = true <-> word_char c.
Proof.
  unfold is_word, word_char. cbv zeta. rewrite !orb_true_iff, !andb_true_iff, !Nat.leb_le, Nat.eqb_eq. tauto.
Qed.
Lemma strip_app p s : strip p (p ++ s) = Some s.
Proof. induction p as [|a p IH]; cbn; [now destruct s|]. destruct (ascii_dec a a); congruence. Qed.
Lemma strip_some p : forall s r, strip p s = Some r -> s = p ++ r.
Proof.
  induction p as [|a p IH]; intros s r; cbn; [destruct s; congruence|]. destruct s as [|b s]; [discriminate|].
  destruct (ascii_dec a b) as [->|]; [|discriminate]. intros H. f_equal. now apply IH.
Qed.
Lemma span_spec f s : forall a b, span f s = (a, b) ->
  s = a ++ b /\ Forall (fun c => f c = true) a /\ (b = [] \/ exists c b', b = c :: b' /\ f c = false).
Proof.
  induction s as [|c s IH]; intros a b; cbn; [intros H; injection H as <- <-; repeat split; auto|].
  destruct (f c) eqn:E.
  - destruct (span f s) as [a' b']. intros H. injection H as <- <-. destruct (IH a' b' eq_refl) as (H1 & H2 & H3).
    split; [cbn; now rewrite <- H1|]. split; [constructor; auto|exact H3].
  - intros H. injection H as <- <-. repeat split; auto. right. eauto.
Qed.
Lemma span_app f a c b : Forall (fun c => f c = true) a -> f c = false -> span f (a ++ c :: b) = (a, c :: b).
Proof.
  intros Ha Hc. induction Ha as [|x a Hx Ha IH]; cbn; [now rewrite Hc|]. now rewrite Hx, IH.
Qed.
Lemma until_brace_sound s : forall a b, until_brace s = Some (a, b) -> s = a ++ "}"%char :: b /\ ~ In newline a.
Proof.
  induction s as [|c s IH]; intros a b; cbn; [discriminate|]. destruct (ascii_dec c "}") as [->|Hc].
  - intros H. injection H as <- <-. auto.
  - destruct (ascii_dec c newline) as [|Hn]; [discriminate|]. destruct (until_brace s) as [[a' b']|]; [|discriminate].
    intros H. injection H as <- <-. destruct (IH a' b' eq_refl) as (H1 & H2). split; [cbn; now rewrite <- H1|].
    intros [H|H]; [now apply Hn|now apply H2].
Qed.
Lemma until_brace_complete a' : forall b', ~ In newline a' ->
  exists a b, until_brace (a' ++ "}"%char :: b') = Some (a, b) /\ length b' <= length b.
Proof.
  induction a' as [|c a' IH]; intros b' Hn; cbn [app until_brace].
  - exists [], b'. split; [|lia]. now destruct (ascii_dec "}" "}").
  - destruct (ascii_dec c "}") as [|Hc].
    { exists [], (a' ++ "}"%char :: b'). split; [reflexivity|]. rewrite app_length. cbn. lia. }
    destruct (ascii_dec c newline) as [E|]; [exfalso; apply Hn; now left|].
    destruct (IH b') as (a & b & E & L); [intros H; apply Hn; now right|]. rewrite E. eauto.
Qed.

Lemma match_complete p n k rest : placeholder p n k ->
  exists n' k' rest', match_here (p ++ rest) = Some (n', k', rest') /\ length rest <= length rest'.
Proof.
  intros (Hn & Hw & Hk).
  assert (Hw' : Forall (fun c => is_word c = true) n) by (eapply Forall_impl; [|exact Hw]; intros; now apply word_spec).
  unfold match_here. destruct k as [c|].
  - destruct Hk as (Hc & Hl & ->). change (list_ascii_of_string "NG_ARG{") with opening. rewrite <- !app_assoc. rewrite strip_app.
    cbn [app]. rewrite <- app_assoc. cbn [app]. rewrite span_app; [|exact Hw'|reflexivity].
    destruct n as [|n0 n]; [congruence|]. cbn [ascii_dec]. destruct (ascii_dec "|" "}") as [E|_]; [discriminate|].
    destruct (ascii_dec "|" "|") as [_|E]; [|congruence]. destruct c as [|c0 c]; [congruence|]. cbn [app].
    destruct (ascii_dec c0 newline) as [E|_]; [exfalso; apply Hl; left; exact E|].
    destruct (until_brace_complete c rest) as (a & b & E & L); [intros H; apply Hl; now right|]. rewrite E. eauto.
  - subst p. change (list_ascii_of_string "NG_ARG{") with opening. rewrite <- !app_assoc, strip_app. cbn [app].
    rewrite span_app; [|exact Hw'|reflexivity]. destruct n as [|n0 n]; [congruence|].
    destruct (ascii_dec "}" "}") as [_|E]; [|congruence]. eauto.
Qed.
Lemma match_sound s n k rest : match_here s = Some (n, k, rest) ->
  exists p, placeholder p n k /\ s = p ++ rest /\
    forall p' n' k', placeholder p' n' k' -> starts (p ++ rest) p' -> length p <= length p'.
Proof.
  intros H. assert (Hp : exists p, placeholder p n k /\ s = p ++ rest).
  { unfold match_here in H. destruct (strip opening s) as [s1|] eqn:E1; [|discriminate]. apply strip_some in E1. subst s.
    destruct (span is_word s1) as [name s1'] eqn:E2. apply span_spec in E2 as (-> & Hw & _).
    assert (Hw' : Forall word_char name) by (eapply Forall_impl; [|exact Hw]; intros; now apply word_spec).
    destruct name as [|n0 name]; [discriminate|]. destruct s1' as [|c s2]; [discriminate|].
    destruct (ascii_dec c "}") as [->|Hc].
    { injection H as <- <- <-. eexists. split; [split; [discriminate|]; split; [exact Hw'|reflexivity]|].
      rewrite <- !app_assoc. reflexivity. }
    destruct (ascii_dec c "|") as [->|]; [|discriminate]. destruct s2 as [|c1 s3]; [discriminate|].
    destruct (ascii_dec c1 newline) as [|Hn]; [discriminate|]. destruct (until_brace s3) as [[a r]|] eqn:E3; [|discriminate].
    injection H as <- <- <-. apply until_brace_sound in E3 as (-> & Ha).
    exists (list_ascii_of_string "NG_ARG{" ++ (n0 :: name) ++ "|"%char :: (c1 :: a) ++ ["}"%char]). split.
    - split; [discriminate|]. split; [exact Hw'|]. split; [discriminate|]. split; [|reflexivity].
      intros [H|H]; [now apply Hn|now apply Ha].
    - change opening with (list_ascii_of_string "NG_ARG{"). rewrite <- !app_assoc. do 2 f_equal. cbn [app]. rewrite <- app_assoc. reflexivity. }
  destruct Hp as (p & Hp & ->). exists p. split; [exact Hp|]. split; [reflexivity|].
  intros p' n' k' Hp' (r & E). destruct (match_complete p' n' k' r Hp') as (n2 & k2 & r2 & E2 & L).
  rewrite E in H. rewrite E2 in H. injection H as -> -> ->. apply (f_equal (@length ascii)) in E. rewrite !app_length in E. lia.
Qed.
Lemma match_none s : match_here s = None -> forall p n k, placeholder p n k -> ~ starts s p.
Proof.
  intros H p n k Hp (r & ->). destruct (match_complete p n k r Hp) as (n2 & k2 & r2 & E & _). congruence.
Qed.

Definition piece_of (t : token) : piece := match t with Plain c => Char c | Hole n _ => Slot n end.
Lemma placeholder_nonempty p n k : placeholder p n k -> p <> [].
Proof. intros (_ & _ & H). destruct k as [c|]; [destruct H as (_ & _ & ->)|subst p]; discriminate. Qed.
Lemma scan_reads n : forall s, length s <= n -> reads s (map piece_of (scan_n n s)).
Proof.
  induction n as [|n IH]; intros s Hs.
  - destruct s; [constructor|cbn in Hs; lia].
  - destruct s as [|c s]; [constructor|]. cbn [scan_n]. destruct (match_here (c :: s)) as [[[m k] rest]|] eqn:E.
    + apply match_sound in E as (p & Hp & Es & Hmin). cbn [map piece_of]. rewrite Es. eapply reads_slot; eauto.
      apply IH. pose proof (placeholder_nonempty _ _ _ Hp) as Hne. apply (f_equal (@length ascii)) in Es. rewrite app_length in Es.
      destruct p; [congruence|]. cbn in *. lia.
    + cbn [map piece_of]. constructor; [now apply match_none|]. apply IH. cbn in Hs. lia.
Qed.
Lemma scan_spec s : reads s (map piece_of (scan s)).
Proof. apply scan_reads. apply le_n. Qed.

(** There is only one way to read a text. *)
Lemma app_same_length {A} (p p' r r' : list A) : p ++ r = p' ++ r' -> length p = length p' -> p = p' /\ r = r'.
Proof.
  revert p'. induction p as [|a p IH]; intros [|a' p']; cbn; try lia; [auto|]. intros H L. injection H as -> H.
  destruct (IH p' H) as (-> & ->); [lia|auto].
Qed.
Lemma placeholder_name p n k n' k' : placeholder p n k -> placeholder p n' k' -> n = n'.
Proof.
  assert (Hspan : forall p n k, placeholder p n k -> exists r, strip opening p = Some r /\ fst (span is_word r) = n).
  { intros q m j (_ & Hw & H).
    assert (Hw' : Forall (fun c => is_word c = true) m) by (eapply Forall_impl; [|exact Hw]; intros; now apply word_spec).
    destruct j as [c|]; [destruct H as (_ & _ & ->)|subst q]; change (list_ascii_of_string "NG_ARG{") with opening; rewrite strip_app;
      eexists; (split; [reflexivity|]); (rewrite span_app; [reflexivity|exact Hw'|reflexivity]). }
  intros H H'. apply Hspan in H as (r & E & <-). apply Hspan in H' as (r' & E' & <-). congruence.
Qed.
Lemma reads_unique s ps : reads s ps -> forall ps', reads s ps' -> ps = ps'.
Proof.
  induction 1 as [|c s ps Hno H IH|p n k rest ps Hp Hmin H IH]; intros ps' H'.
  - inversion H' as [| |p n k rest ps2 Hp _ _ E]; [reflexivity|]. apply placeholder_nonempty in Hp. destruct p; [congruence|discriminate].
  - inversion H' as [|c' s' ps2 _ H2|p n k rest ps2 Hp Hmin H2 E]; subst.
    + f_equal. now apply IH.
    + exfalso. apply (Hno p n k Hp). exists rest. congruence.
  - remember (p ++ rest) as s eqn:Es. destruct H' as [|c s ps2 Hno H2|p' n' k' rest' ps2 Hp' Hmin' H2].
    + apply placeholder_nonempty in Hp. destruct p; [congruence|discriminate].
    + exfalso. apply (Hno p n k Hp). exists rest. exact Es.
    + assert (L : length p = length p').
      { apply Nat.le_antisymm; [apply (Hmin p' n' k' Hp'); now exists rest'|].
        apply (Hmin' p n k Hp). exists rest. exact Es. }
      destruct (app_same_length p p' rest rest' (eq_sym Es) L) as (-> & ->).
      rewrite (placeholder_name _ _ _ _ _ Hp Hp'). f_equal. now apply IH.
Qed.

(** Replacement *)
Definition names_of (ts : list token) : list text := slots (map piece_of ts).
Definition value_of (ext : text) (kw : kwargs) (n : text) : text := match lookup n kw with Some d => convert d ext | None => [] end.
Lemma lookup_in n kw : lookup n kw <> None <-> In n (map fst kw).
Proof.
  induction kw as [|[k v] kw IH]; cbn; [tauto|]. unfold teqb. destruct (list_eq_dec ascii_dec n k) as [->|Hne].
  - split; [auto|discriminate].
  - rewrite IH. split; [auto|]. intros [E|H]; [congruence|exact H].
Qed.
Lemma replace_spec ext kw ts : forall found,
  match replace ext kw found ts with
  | Ok (out, f) => out = fill (value_of ext kw) (map piece_of ts) /\ (forall x, In x f <-> In x found \/ In x (names_of ts)) /\
      NoDup (names_of ts) /\ (forall x, In x (names_of ts) -> ~ In x found) /\ incl (names_of ts) (map fst kw)
  | Err e => (e = RuntimeError \/ e = KeyError) /\
      ~ (NoDup (names_of ts) /\ (forall x, In x (names_of ts) -> ~ In x found) /\ incl (names_of ts) (map fst kw))
  end.
Proof.
  induction ts as [|[c|n k] ts IH]; intros found.
  - cbn. split; [reflexivity|]. split; [tauto|]. split; [constructor|]. split; [tauto|easy].
  - cbn [replace]. specialize (IH found). destruct (replace ext kw found ts) as [[out f]|e]; cbn [bind]; [|exact IH].
    destruct IH as (-> & H). split; [reflexivity|exact H].
  - cbn [replace]. change (names_of (Hole n k :: ts)) with (n :: names_of ts). destruct (tmem n found) eqn:Ef.
    { apply tmem_in in Ef. split; [auto|]. intros (_ & H & _). apply (H n); [now left|exact Ef]. }
    apply tmem_false in Ef. destruct (lookup n kw) as [d|] eqn:El.
    2:{ split; [auto|]. intros (_ & _ & H). assert (Hn : In n (map fst kw)) by (apply H; now left). apply lookup_in in Hn. congruence. }
    assert (Hin : In n (map fst kw)) by (apply lookup_in; congruence).
    specialize (IH (n :: found)). destruct (replace ext kw (n :: found) ts) as [[out f]|e]; cbn [bind].
    + destruct IH as (-> & Hf & Hnd & Hfr & Hi). assert (Hv : value_of ext kw n = convert d ext) by (unfold value_of; now rewrite El).
      split; [rewrite <- Hv; reflexivity|]. split.
      { intros x. rewrite Hf. cbn. tauto. }
      split; [constructor; [intros H; apply (Hfr n H); now left|exact Hnd]|]. split.
      * intros x [<-|H]; [exact Ef|]. intros Hx. apply (Hfr x H). now right.
      * intros x [<-|H]; [exact Hin|now apply Hi].
    + destruct IH as (He & IH). split; [exact He|]. intros (Hnd & Hfr & Hi). apply IH. inversion Hnd as [|? ? Ha Hb]; subst.
      split; [exact Hb|]. split.
      * intros x H [<-|Hx]; [now apply Ha|]. apply (Hfr x); [now right|exact Hx].
      * intros x H. apply Hi. now right.
Qed.
Lemma sub_spec s ext kw ps : reads s ps ->
  match sub s ext kw with
  | Ok out => out = fill (value_of ext kw) ps /\ NoDup (slots ps) /\ (forall x, In x (slots ps) <-> In x (map fst kw))
  | Err e => (e = RuntimeError \/ e = KeyError) /\ ~ (NoDup (slots ps) /\ (forall x, In x (slots ps) <-> In x (map fst kw)))
  end.
Proof.
  intros Hr. rewrite (reads_unique _ _ Hr _ (scan_spec s)). unfold sub. pose proof (replace_spec ext kw (scan s) []) as H.
  destruct (replace ext kw [] (scan s)) as [[out f]|e]; cbn [bind].
  - destruct H as (-> & Hf & Hnd & _ & Hi). fold (names_of (scan s)). destruct (forallb _ kw) eqn:E.
    + split; [reflexivity|]. split; [exact Hnd|]. intros x. split; [apply Hi|]. intros Hx. rewrite forallb_forall in E.
      apply in_map_iff in Hx as ([k v] & <- & Hx). specialize (E _ Hx). cbn in E. apply tmem_in in E. apply Hf in E as [[]|E]. exact E.
    + split; [auto|]. intros (_ & H). assert (forallb (fun kv => tmem (fst kv) f) kw = true); [|congruence].
      apply forallb_forall. intros [k v] Hx. cbn. apply tmem_in, Hf. right. apply H. apply in_map_iff. now exists (k, v).
  - destruct H as (He & H). split; [exact He|]. intros (Hnd & Hs). apply H. split; [exact Hnd|]. split; [easy|]. intros x Hx. now apply Hs.
Qed.

(** Files *)
Lemma distinct_spec l : forall seen, distinct seen l = true <-> NoDup l /\ (forall x, In x l -> ~ In x seen).
Proof.
  induction l as [|a l IH]; intros seen; cbn; [split; [split; [constructor|easy]|auto]|].
  destruct (tmem a seen) eqn:E.
  - apply tmem_in in E. split; [discriminate|]. intros (_ & H). exfalso. apply (H a); auto.
  - apply tmem_false in E. rewrite IH. split.
    + intros (Hnd & H). split; [constructor; [intros Ha; apply (H a Ha); now left|exact Hnd]|].
      intros x [<-|Hx]; [exact E|]. intros Hs. apply (H x Hx). now right.
    + intros (Hnd & H). inversion Hnd as [|? ? Ha Hb]; subst. split; [exact Hb|]. intros x Hx [<-|Hs]; [now apply Ha|]. apply (H x); auto.
Qed.
Lemma finditer_names s : map fst (finditer s) = names_of (scan s).
Proof.
  unfold finditer, names_of, slots. induction (scan s) as [|[c|n k] ts IH]; cbn; [reflexivity|exact IH|]. now rewrite IH.
Qed.
Lemma same_set_spec a b : same_set a b = true <-> forall x, In x a <-> In x b.
Proof.
  unfold same_set. rewrite andb_true_iff, !forallb_forall. split.
  - intros (H1 & H2) x. split; intros H; [apply tmem_in, (H1 x H)|apply tmem_in, (H2 x H)].
  - intros H. split; intros x Hx; apply tmem_in; now apply H.
Qed.
Lemma file_init_spec suffix s f : file_init suffix s = Ok f ->
  f_suffix f = suffix /\ NoDup (f_params f) /\ exists ps, reads (f_text f) ps /\ slots ps = f_params f.
Proof.
  unfold file_init. destruct (existsb _ _); [discriminate|]. destruct (if contains linetoken s then _ else _) as [s'|e]; cbn [bind]; [|discriminate].
  destruct (distinct [] (map fst (finditer s'))) eqn:E; [|discriminate]. intros H.
  assert (Hf : f = {| f_suffix := suffix; f_text := s'; f_params := map fst (finditer s') |}) by congruence. subst f. cbn.
  apply distinct_spec in E as (Hnd & _). split; [reflexivity|]. split; [exact Hnd|].
  exists (map piece_of (scan s')). split; [apply scan_spec|]. symmetry. apply finditer_names.
Qed.
Lemma file_call_spec suffix s f kw : file_init suffix s = Ok f ->
  match file_call f kw with
  | Ok out => (forall x, In x (f_params f) <-> In x (map fst kw)) /\ exists ps, reads (f_text f) ps /\ out = fill (value_of suffix kw) ps
  | Err e => e = AssertionError /\ ~ (forall x, In x (f_params f) <-> In x (map fst kw))
  end.
Proof.
  intros Hf. apply file_init_spec in Hf as (Hs & Hnd & ps & Hr & Hps). unfold file_call.
  destruct (same_set (map fst kw) (f_params f)) eqn:E.
  - pose proof (proj1 (same_set_spec _ _) E) as E'. pose proof (sub_spec _ (f_suffix f) kw ps Hr) as H.
    destruct (sub (f_text f) (f_suffix f) kw) as [out|e].
    + destruct H as (-> & _ & H2). split; [intros x; now rewrite E'|]. exists ps. now rewrite Hs.
    + exfalso. destruct H as (_ & H). apply H. rewrite Hps. split; [exact Hnd|]. intros x. now rewrite E'.
  - split; [reflexivity|]. intros H. assert (same_set (map fst kw) (f_params f) = true); [|congruence]. apply same_set_spec. intros x. now rewrite H.
Qed.

(** Commented lines *)
Lemma uncomment_spec ext cc indent s1 s2 command :
  comment_of ext comment_chars = Some cc ->
  Forall (fun c => c = " "%char) indent -> Forall (fun c => c = " "%char) s1 -> Forall (fun c => c = " "%char) s2 ->
  (forall c rest, command = c :: rest -> c <> " "%char) ->
  contains linetoken (indent ++ command) = false ->
  uncomment (indent ++ cc ++ s1 ++ linetoken ++ s2 ++ command) ext = Ok (indent ++ command).
Proof.
  intros Hc Hi H1 H2 Hcmd Hno. unfold uncomment. rewrite Hc.
  assert (Hsp : forall l, Forall (fun c => c = " "%char) l -> Forall (fun c => is_space c = true) l).
  { intros l H. eapply Forall_impl; [|exact H]. intros c ->. reflexivity. }
  assert (Hcc : exists c rest, cc = c :: rest /\ is_space c = false).
  { assert (Hin : In cc (map snd comment_chars)).
    { revert Hc. generalize comment_chars. induction l as [|[e k] l IH]; cbn; [discriminate|]. destruct (teqb ext e); [injection 1 as <-; now left|intros; right; auto]. }
    cbn in Hin. repeat destruct Hin as [<-|Hin]; try (eexists; eexists; split; [reflexivity|reflexivity]). destruct Hin. }
  destruct Hcc as (c0 & cc' & -> & Hc0). cbn [app]. rewrite span_app; [|now apply Hsp|exact Hc0].
  change (c0 :: cc' ++ s1 ++ linetoken ++ s2 ++ command) with ((c0 :: cc') ++ s1 ++ linetoken ++ s2 ++ command). rewrite strip_app.
  change (linetoken ++ s2 ++ command) with ("@"%char :: skipn 1 linetoken ++ s2 ++ command). rewrite span_app; [|now apply Hsp|reflexivity].
  cbn [snd]. change ("@"%char :: skipn 1 linetoken ++ s2 ++ command) with (linetoken ++ s2 ++ command). rewrite strip_app.
  assert (E : snd (span is_space (s2 ++ command)) = command).
  { destruct command as [|c rest].
    - rewrite app_nil_r. clear - H2. induction H2 as [|x s2 -> H2 IH]; [reflexivity|]. cbn. destruct (span is_space s2). exact IH.
    - rewrite span_app; [reflexivity|now apply Hsp|]. unfold is_space. destruct (ascii_dec c " ") as [E|]; [|reflexivity]. now destruct (Hcmd c rest eq_refl). }
  rewrite E. now rewrite Hno.
Qed.

(** C57: template instantiation replaces each placeholder once. *)
From Coq Require Import Ascii String Bool Arith Lia List.
From Verif.Model Require Import Prelude Instantiate.
From Verif.Spec Require Import Instantiate.
From Verif.Proofs Require Import Instantiate.
Import ListNotations.

(** [value] gives the text of each value *)
Definition shows (ext : text) (kw : kwargs) (value : text -> text) : Prop := forall n d, In (n, d) kw -> value n = convert d ext.

Lemma fill_ext v v' ps : (forall n, In n (slots ps) -> v n = v' n) -> fill v ps = fill v' ps.
Proof.
  induction ps as [|[c|n] ps IH]; cbn; [reflexivity|intros; f_equal; auto|]. intros H. f_equal; [apply H; now left|apply IH; auto].
Qed.
Lemma shows_value ext kw value n : shows ext kw value -> In n (map fst kw) -> value_of ext kw n = value n.
Proof.
  intros Hs Hn. unfold value_of. apply lookup_in in Hn. destruct (lookup n kw) as [d|] eqn:E; [|congruence]. symmetry. apply Hs.
  clear - E. induction kw as [|[k v] kw IH]; cbn in E; [discriminate|]. destruct (teqb n k) eqn:Ek.
  - apply teqb_eq in Ek. subst. injection E as ->. now left.
  - right. auto.
Qed.

(** A text reads in exactly one way, and the placeholders found are those of this reading. *)
Theorem C57_finditer (s : text) : exists ps, reads s ps /\ (forall ps', reads s ps' -> ps' = ps) /\ map fst (finditer s) = slots ps.
Proof.
  exists (map piece_of (scan s)). split; [apply scan_spec|]. split; [|apply finditer_names].
  intros ps' H. eapply reads_unique; [exact H|apply scan_spec].
Qed.
(** Replacement: succeeds exactly when the placeholders are distinct and have exactly the names given;
    each placeholder is replaced by its value, and other characters are kept. *)
Theorem C57_sub (s ext : text) (kw : kwargs) (ps : list piece) (value : text -> text) : reads s ps -> shows ext kw value ->
  match sub s ext kw with
  | Ok out => out = fill value ps /\ NoDup (slots ps) /\ (forall x, In x (slots ps) <-> In x (map fst kw))
  | Err e => (e = RuntimeError \/ e = KeyError) /\ ~ (NoDup (slots ps) /\ (forall x, In x (slots ps) <-> In x (map fst kw)))
  end.
Proof.
  intros Hr Hv. pose proof (sub_spec s ext kw ps Hr) as H. destruct (sub s ext kw) as [out|e]; [|exact H].
  destruct H as (-> & H1 & H2). split; [|auto]. apply fill_ext. intros n Hn. apply shows_value; [exact Hv|now apply H2].
Qed.
(** A missing value, an unused one, or a placeholder used twice make the replacement fail. *)
Corollary C57_sub_missing s ext kw ps n : reads s ps -> In n (slots ps) -> ~ In n (map fst kw) -> exists e, sub s ext kw = Err e.
Proof.
  intros Hr Hn Hk. pose proof (sub_spec s ext kw ps Hr) as H. destruct (sub s ext kw) as [out|e]; [|eauto].
  destruct H as (_ & _ & H). exfalso. now apply Hk, H.
Qed.
Corollary C57_sub_unused s ext kw ps n : reads s ps -> ~ In n (slots ps) -> In n (map fst kw) -> exists e, sub s ext kw = Err e.
Proof.
  intros Hr Hn Hk. pose proof (sub_spec s ext kw ps Hr) as H. destruct (sub s ext kw) as [out|e]; [|eauto].
  destruct H as (_ & _ & H). exfalso. now apply Hn, H.
Qed.
(** Values are converted with repr; in C and C++ files, arrays use braces. *)
Theorem C57_convert (r ext : text) : convert (Other r) ext = r /\
  (~ In ext (map str [".h"; ".hpp"; ".cpp"; ".c"]%string) -> convert (Array r) ext = r) /\
  (In ext (map str [".h"; ".hpp"; ".cpp"; ".c"]%string) ->
     length (convert (Array r) ext) = length r /\ ~ In "["%char (convert (Array r) ext) /\ ~ In "]"%char (convert (Array r) ext) /\
     forall i c, nth_error r i = Some c -> nth_error (convert (Array r) ext) i =
       Some (if ascii_dec c "[" then "{"%char else if ascii_dec c "]" then "}"%char else c)).
Proof.
  split; [reflexivity|]. unfold convert. split.
  - intros H. apply tmem_false in H. change (map str _) with [str ".h"; str ".hpp"; str ".cpp"; str ".c"] in H. now rewrite H.
  - intros H. apply tmem_in in H. change (map str _) with [str ".h"; str ".hpp"; str ".cpp"; str ".c"] in H. rewrite H.
    unfold braces. split; [apply map_length|]. split; [|split].
    + intros Hi. apply in_map_iff in Hi as (c & E & _). destruct (ascii_dec c "["); [discriminate|]. destruct (ascii_dec c "]"); [discriminate|]. congruence.
    + intros Hi. apply in_map_iff in Hi as (c & E & _). destruct (ascii_dec c "["); [discriminate|]. destruct (ascii_dec c "]"); [discriminate|]. congruence.
    + intros i c E. now rewrite nth_error_map, E.
Qed.

(** A file without commented line nor deprecated placeholder keeps its text; it is refused when two
    placeholders have the same name. *)
Theorem C57_file_init (suffix s : text) (ps : list piece) : contains linetoken s = false ->
  (forall x, In x (map str ["NG_G{"; "NG_OD{"; "NG_SC{"]%string) -> contains x s = false) -> reads s ps ->
  (NoDup (slots ps) -> exists f, file_init suffix s = Ok f /\ f_text f = s /\ f_params f = slots ps) /\
  (~ NoDup (slots ps) -> file_init suffix s = Err RuntimeError).
Proof.
  intros Hl Hd Hr. unfold file_init.
  replace (existsb _ _) with false by (cbn; rewrite !Hd by (cbn; auto); reflexivity).
  rewrite Hl. cbn [bind]. assert (En : map fst (finditer s) = slots ps).
  { rewrite finditer_names. unfold names_of. now rewrite (reads_unique _ _ Hr _ (scan_spec s)). }
  rewrite En. pose proof (distinct_spec (slots ps) []) as H. destruct (distinct [] (slots ps)).
  - split; [intros _; eexists; split; [reflexivity|auto]|]. intros Hn. destruct Hn. now apply H.
  - split; [|reflexivity]. intros Hn. assert (false = true); [|discriminate]. apply H. split; [exact Hn|easy].
Qed.
(** Calling an accepted file: never fails on the values of its placeholders, and is refused otherwise. *)
Theorem C57_file_call (suffix s : text) (f : file) (kw : kwargs) (value : text -> text) :
  file_init suffix s = Ok f -> shows suffix kw value ->
  exists ps, reads (f_text f) ps /\ slots ps = f_params f /\ NoDup (slots ps) /\
    ((forall x, In x (slots ps) <-> In x (map fst kw)) -> file_call f kw = Ok (fill value ps)) /\
    (~ (forall x, In x (slots ps) <-> In x (map fst kw)) -> file_call f kw = Err AssertionError).
Proof.
  intros Hf Hv. pose proof (file_call_spec suffix s f kw Hf) as H. destruct (file_init_spec suffix s f Hf) as (Hs & Hnd & ps & Hr & Hps).
  exists ps. split; [exact Hr|]. split; [exact Hps|]. split; [now rewrite Hps|]. rewrite Hps. destruct (file_call f kw) as [out|e].
  - destruct H as (Hk & ps' & Hr' & ->). split; [|easy]. intros _. f_equal. rewrite (reads_unique _ _ Hr' _ Hr).
    apply fill_ext. intros n Hn. apply shows_value; [exact Hv|]. apply Hk. now rewrite <- Hps.
  - destruct H as (-> & H). split; [easy|auto].
Qed.
(** Commented lines: the comment mark is removed, the indentation and the command are kept. *)
Theorem C57_uncomment ext cc indent s1 s2 command :
  In (ext, cc) (map (fun p => (str (fst p), str (snd p))) [(".c", "//"); (".h", "//"); (".cpp", "//"); (".hpp", "//"); (".py", "#"); (".m", "%")]%string) ->
  Forall (fun c => c = " "%char) indent -> Forall (fun c => c = " "%char) s1 -> Forall (fun c => c = " "%char) s2 ->
  (forall c rest, command = c :: rest -> c <> " "%char) ->
  (forall a b, indent ++ command <> a ++ str "@nevergrad@" ++ b) ->
  uncomment (indent ++ cc ++ s1 ++ str "@nevergrad@" ++ s2 ++ command) ext = Ok (indent ++ command).
Proof.
  intros Hc Hi H1 H2 Hcmd Hno. apply uncomment_spec; try assumption.
  - cbn [map fst snd] in Hc. repeat (destruct Hc as [Hc|Hc]; [injection Hc as <- <-; reflexivity|]). destruct Hc.
  - change (str "@nevergrad@") with linetoken in Hno. revert Hno. generalize (indent ++ command). intros l Hno. induction l as [|c l IH].
    + reflexivity.
    + cbn [contains]. destruct (strip linetoken (c :: l)) as [r|] eqn:E.
      * apply strip_some in E. exfalso. apply (Hno [] r). exact E.
      * apply IH. intros a b E'. apply (Hno (c :: a) b). now rewrite E'.
Qed.
(** An accepted line has no mark left. *)
Theorem C57_uncomment_clean line ext out a b : uncomment line ext = Ok out -> out <> a ++ str "@nevergrad@" ++ b.
Proof.
  unfold uncomment. destruct (comment_of ext comment_chars) as [cc|]; [|discriminate]. destruct (span is_space line) as [indent r1].
  match goal with |- (if contains linetoken ?l then _ else _) = _ -> _ => generalize l end. intros l.
  destruct (contains linetoken l) eqn:E; [discriminate|]. intros H. injection H as <-. intros ->.
  change (str "@nevergrad@") with linetoken in E. induction a as [|c a IH].
  - cbn [app] in E. unfold contains in E. remember (linetoken ++ b) as l eqn:El. pose proof (strip_app linetoken b) as Hs. rewrite <- El in Hs.
    destruct l; rewrite Hs in E; discriminate.
  - cbn [app contains] in E. destruct (strip linetoken (c :: a ++ linetoken ++ b)); [discriminate|]. now apply IH.
Qed.

(** A file with commented lines: every line with the mark is uncommented, the others are kept, in the same order and still on
    lines of their own (only the newline at the end is removed). *)
Lemma contains_app x a b : contains x a = true -> contains x (a ++ b) = true.
Proof.
  intros H. assert (S : exists u v, a = u ++ x ++ v).
  { induction a as [|c a IH]; cbn [contains] in H.
    - destruct (strip x []) as [r|] eqn:E; [|discriminate]. apply strip_some in E. exists [], r. exact E.
    - destruct (strip x (c :: a)) as [r|] eqn:E; [apply strip_some in E; exists [], r; exact E|]. destruct (IH H) as (u & v & ->). exists (c :: u), v. reflexivity. }
  destruct S as (u & v & ->). clear H. rewrite <- !app_assoc. induction u as [|c u IH].
  - cbn [app]. pose proof (strip_app x (v ++ b)) as E. destruct (x ++ v ++ b); cbn [contains]; now rewrite E.
  - cbn [app contains]. destruct (strip x (c :: u ++ x ++ v ++ b)); [reflexivity|exact IH].
Qed.
Lemma contains_skip x a b : contains x b = true -> contains x (a ++ b) = true.
Proof. intros H. induction a as [|c a IH]; cbn [app contains]; [exact H|]. now destruct (strip x (c :: a ++ b)). Qed.
Definition unlines (ls : list text) : text := flat_map (fun l => l ++ [newline]) ls.
Lemma splitlines_unlines ls : Forall (Forall (fun c => is_break c = false)) ls -> splitlines (unlines ls) = ls.
Proof.
  unfold splitlines. induction 1 as [|l ls Hl Hls IH]; [reflexivity|]. cbn [unlines flat_map].
  assert (G : forall l cur st rest, Forall (fun c => is_break c = false) l -> splitlines_from cur st ((l ++ [newline]) ++ rest) = (rev cur ++ l) :: splitlines_from [] false rest).
  { clear. induction l as [|c l IH]; intros cur st rest H; cbn [app splitlines_from].
    - change (is_break newline) with true. cbn [app]. now rewrite app_nil_r.
    - inversion_clear H as [|? ? Hc Hl]. rewrite Hc, IH by exact Hl. cbn [rev]. now rewrite <- app_assoc. }
  rewrite G by exact Hl. cbn [rev app]. f_equal. exact IH.
Qed.
Theorem C57_file_lines (suffix : text) (ls : list text) (f : file) :
  Forall (Forall (fun c => is_break c = false)) ls -> (exists l, In l ls /\ contains (str "@nevergrad@") l = true) ->
  file_init suffix (unlines ls) = Ok f ->
  exists ls', Forall2 (fun l l' => if contains (str "@nevergrad@") l then uncomment l (lower suffix) = Ok l' else l' = l) ls ls' /\
    unlines ls' = f_text f ++ [newline].
Proof.
  intros Hb (l0 & Hi & Hc) H. unfold file_init in H. change (str "@nevergrad@") with linetoken in *. destruct (existsb _ _); [discriminate|].
  assert (C : contains linetoken (unlines ls) = true).
  { clear - Hi Hc. induction ls as [|l ls IH]; [destruct Hi|]. cbn [unlines flat_map]. destruct Hi as [->|Hi]; [now apply contains_app, contains_app|]. now apply contains_skip, IH. }
  rewrite C, splitlines_unlines in H by exact Hb.
  destruct (mapM _ ls) as [ls'|e] eqn:E; cbn [bind] in H; [|discriminate]. exists ls'.
  assert (F : Forall2 (fun l l' => if contains linetoken l then uncomment l (lower suffix) = Ok l' else l' = l) ls ls').
  { clear - E. revert ls' E. induction ls as [|l ls IH]; intros ls' E; cbn [mapM] in E; [injection E as <-; constructor|].
    destruct (if contains linetoken l then uncomment l (lower suffix) else Ok l) as [l'|e] eqn:El; cbn [bind] in E; [|discriminate].
    destruct (mapM _ ls) as [ls2|e]; cbn [bind] in E; [|discriminate]. injection E as <-. constructor; [|now apply IH].
    destruct (contains linetoken l); [exact El|]. now injection El. }
  split; [exact F|]. destruct (distinct [] _); [|discriminate]. injection H as <-. cbn [f_text].
  assert (N : ls' <> []) by (intros ->; inversion F; subst; destruct Hi). clear - N.
  induction ls' as [|a l IH]; [congruence|]. destruct l as [|b l]; [cbn; now rewrite app_nil_r|].
  change (unlines (a :: b :: l)) with ((a ++ [newline]) ++ unlines (b :: l)). rewrite IH by discriminate.
  change (join_lines (a :: b :: l)) with (a ++ newline :: join_lines (b :: l)). now rewrite <- !app_assoc.
Qed.
Example C57_lines_ex : exists f, file_init (str ".py") (unlines [str "import os"; str "  # @nevergrad@ x = NG_ARG{a}"; str "y"]) = Ok f /\
  f_text f ++ [newline] = unlines [str "import os"; str "  x = NG_ARG{a}"; str "y"].
Proof. eexists. split; vm_compute; reflexivity. Qed.

(** Folders: each file is written with its own values, and the values must be exactly those of the
    placeholders of the files. *)
Theorem C57_folder (files : list (text * text)) (fs : list file) (kw : kwargs) :
  folder files = Ok fs ->
  fs <> [] /\ Forall (fun f => exists s, In (f_suffix f, s) files /\ file_init (f_suffix f) s = Ok f /\ f_params f <> []) fs /\
  ((forall x, In x (map fst kw) <-> exists f, In f fs /\ In x (f_params f)) ->
     exists outs, instantiate fs kw = Ok outs /\
       Forall2 (fun f out => forall value, shows (f_suffix f) kw value -> exists ps, reads (f_text f) ps /\ out = fill value ps) fs outs) /\
  (~ (forall x, In x (map fst kw) <-> exists f, In f fs /\ In x (f_params f)) -> instantiate fs kw = Err AssertionError).
Proof.
  intros H. unfold folder in H. destruct (folder_init [] files) as [fs'|e] eqn:E; cbn [bind] in H; [|discriminate].
  assert (fs' = fs /\ fs <> []) as (-> & Hne) by (destruct fs'; [discriminate|split; [congruence|intros ->; discriminate]]). clear H.
  split; [exact Hne|]. assert (Hall : Forall (fun f => exists s, In (f_suffix f, s) files /\ file_init (f_suffix f) s = Ok f /\ f_params f <> []) fs).
  { clear Hne. revert fs E. induction files as [|[suffix s] files IH]; intros fs E; cbn [folder_init] in E; [injection E as <-; constructor|].
    assert (Hw : forall l, Forall (fun f => exists s0, In (f_suffix f, s0) files /\ file_init (f_suffix f) s0 = Ok f /\ f_params f <> []) l ->
                 Forall (fun f => exists s0, In (f_suffix f, s0) ((suffix, s) :: files) /\ file_init (f_suffix f) s0 = Ok f /\ f_params f <> []) l).
    { intros l Hl. eapply Forall_impl; [|exact Hl]. intros f (s0 & H1 & H2). exists s0. split; [now right|exact H2]. }
    destruct (comment_of (lower suffix) comment_chars); [|apply Hw; now apply IH].
    destruct (file_init suffix s) as [f|] eqn:Ef; cbn [bind] in E; [|discriminate].
    destruct (f_params f) as [|x l] eqn:El; [apply Hw; now apply IH|].
    destruct (existsb _ _); [discriminate|]. destruct (folder_init [] files) as [fs2|]; cbn [bind] in E; [|discriminate].
    injection E as <-. constructor; [|apply Hw; now apply IH]. exists s. destruct (file_init_spec _ _ _ Ef) as (Hs & _). rewrite Hs.
    split; [now left|]. split; [exact Ef|]. rewrite El. discriminate. }
  split; [exact Hall|]. unfold instantiate. split.
  - intros Hk. replace (same_set (map fst kw) (flat_map f_params fs)) with true.
    2:{ symmetry. apply same_set_spec. intros x. rewrite Hk, in_flat_map. reflexivity. }
    assert (Hi : forall f, In f fs -> incl (f_params f) (map fst kw)) by (intros f Hf x Hx; apply Hk; eauto).
    clear Hk Hne E. induction fs as [|f fs IH]; cbn [mapM]; [exists []; split; [reflexivity|constructor]|].
    inversion Hall as [|? ? (s & Hs & Hf & _) Hall']; subst. destruct IH as (outs & Eo & Ho); [exact Hall'|intros; apply Hi; now right|].
    pose proof (file_call_spec _ _ _ (filter (fun kv => tmem (fst kv) (f_params f)) kw) Hf) as Hc.
    assert (Hp : forall x, In x (f_params f) <-> In x (map fst (filter (fun kv => tmem (fst kv) (f_params f)) kw))).
    { intros x. rewrite in_map_iff. split.
      - intros Hx. pose proof (Hi f (or_introl eq_refl) x Hx) as Hx'. apply in_map_iff in Hx' as (kv & <- & Hkv). exists kv. split; [reflexivity|].
        apply filter_In. split; [exact Hkv|now apply tmem_in].
      - intros (kv & <- & Hkv). apply filter_In in Hkv as (_ & Hkv). now apply tmem_in in Hkv. }
    destruct (file_call f _) as [out|e]; [|exfalso; destruct Hc as (_ & Hc); now apply Hc].
    destruct Hc as (_ & ps & Hr & ->). cbn [bind]. rewrite Eo. cbn [bind]. eexists. split; [reflexivity|]. constructor; [|exact Ho].
    intros value Hv. exists ps. split; [exact Hr|]. apply fill_ext. intros n Hn. apply shows_value.
    + intros m d Hm. apply Hv. apply filter_In in Hm. tauto.
    + apply Hp. destruct (file_init_spec _ _ _ Hf) as (_ & _ & ps' & Hr' & Hps). rewrite <- Hps. now rewrite (reads_unique _ _ Hr' _ Hr).
  - intros Hk. destruct (same_set _ _) eqn:Es; [|reflexivity]. exfalso. apply Hk. intros x. rewrite (proj1 (same_set_spec _ _) Es x). apply in_flat_map.
Qed.
(** The same name in two files is not detected, although the documentation requires unique names. *)
Theorem C57_shared_names_refuted : exists s1 s2 f1 f2 x, folder [(str ".py", s1); (str ".py", s2)] = Ok [f1; f2] /\
  In x (f_params f1) /\ In x (f_params f2).
Proof. exists (str "NG_ARG{a}"), (str "1 + NG_ARG{a|again}"). do 2 eexists. exists (str "a"). split; [vm_compute; reflexivity|]. split; now left. Qed.
(** Arrays written in files whose suffix is in upper case keep square brackets, although such files are
    instantiated like the others. *)
Theorem C57_upper_case_refuted : exists suffix s f,
  lower suffix = str ".cpp" /\ folder [(suffix, s)] = Ok [f] /\
  instantiate [f] [(str "a", Array (str "[1, 2]"))] = Ok [str "x = [1, 2]"] /\
  exists f', folder [(str ".cpp", s)] = Ok [f'] /\ instantiate [f'] [(str "a", Array (str "[1, 2]"))] = Ok [str "x = {1, 2}"].
Proof.
  exists (str ".CPP"), (str "x = NG_ARG{a}"). eexists. split; [vm_compute; reflexivity|]. split; [vm_compute; reflexivity|].
  split; [vm_compute; reflexivity|]. eexists. split; vm_compute; reflexivity.
Qed.
(** A commented line anywhere in the file removes its last newline. *)
Theorem C57_last_newline_refuted : exists s f, file_init (str ".py") (s ++ [newline]) = Ok f /\ f_text f = str "NG_ARG{a}".
Proof. exists (str "# @nevergrad@ NG_ARG{a}"). eexists. split; vm_compute; reflexivity. Qed.

Example C57_ex : let s := str "x = NG_ARG{value|}};NG_ARG{}NG_ARG{b}" in
  finditer s = [(str "value", Some (str "}")); (str "b", None)] /\
  sub s (str ".c") [(str "b", Other (str "'u'")); (str "value", Array (str "[[1], 2]"))] = Ok (str "x = {{1}, 2};NG_ARG{}'u'") /\
  sub s (str ".c") [(str "b", Other (str "3"))] = Err KeyError /\
  sub s (str ".c") [(str "b", Other (str "3")); (str "value", Other (str "1")); (str "z", Other (str "2"))] = Err RuntimeError /\
  uncomment (str "  // @nevergrad@ x = NG_ARG{y}") (str ".c") = Ok (str "  x = NG_ARG{y}").
Proof. vm_compute. repeat split. Qed.
Example C57_shows_ex : shows (str ".c") [(str "b", Other (str "3"))] (fun _ => str "3").
Proof. intros n d [E|[]]. injection E as <- <-. reflexivity. Qed.

Print Assumptions C57_finditer.
Print Assumptions C57_sub.
Print Assumptions C57_convert.
Print Assumptions C57_file_init.
Print Assumptions C57_file_call.
Print Assumptions C57_uncomment.
Print Assumptions C57_uncomment_clean.
Print Assumptions C57_file_lines.
Print Assumptions C57_folder.
Print Assumptions C57_shared_names_refuted.
Print Assumptions C57_upper_case_refuted.
Print Assumptions C57_last_newline_refuted.

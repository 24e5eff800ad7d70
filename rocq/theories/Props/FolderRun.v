(** C113: functions made of a folder and a command. *)
From Coq Require Import Ascii String Bool Arith Lia List.
From Verif.Model Require Import Prelude Instantiate FolderRun.
From Verif.Spec Require Import Instantiate FolderRun.
From Verif.Proofs Require Import Instantiate FolderRun.
From Verif.Props Require Import Instantiate.
Import ListNotations.
Open Scope nat_scope.

(** The instrumented folder: its files, and among them those with placeholders. *)
Definition instrumented (m : fs) (listing : list text) (funcs : list (text * file)) : Prop :=
  (forall r, In r listing -> exists t, m (Src, r) = Some (File t)) /\
  NoDup (map fst funcs) /\
  forall r f, In (r, f) funcs -> In r listing /\ exists suffix s, file_init suffix s = Ok f.
(** The values given are those of the placeholders. *)
Definition complete (funcs : list (text * file)) (kw : kwargs) : Prop :=
  forall x, In x (map fst kw) <-> exists r f, In (r, f) funcs /\ In x (f_params f).

Lemma complete_iff funcs kw : same_set (map fst kw) (flat_map (fun rf => f_params (snd rf)) funcs) = true <-> complete funcs kw.
Proof.
  rewrite same_set_spec. unfold complete. split; intros H x; rewrite (H x); rewrite in_flat_map.
  - split; [intros [[r f] X]; eauto|intros [r [f X]]; exists (r, f); auto].
  - split; [intros [r [f X]]; exists (r, f); auto|intros [[r f] X]; eauto].
Qed.

(** Instantiating in a folder: the instrumented folder is not modified; each file with
    placeholders is a file with its values; the others are links to the original, except those
    that were already there, which are kept; nothing else is touched. *)
Theorem C113_instantiate (m : fs) (listing : list text) (funcs : list (text * file)) (kw : kwargs) :
  instrumented m listing funcs -> (forall r, m (Out, r) <> None -> exists_ m (Out, r) = true) -> complete funcs kw ->
  exists m', instantiate_to_folder m listing funcs kw = (m', Ok tt) /\
    (forall r, m' (Src, r) = m (Src, r)) /\
    (forall r f, In (r, f) funcs -> exists t, m' (Out, r) = Some (File t) /\
       forall value, shows (f_suffix f) kw value -> exists ps, reads (f_text f) ps /\ t = fill value ps) /\
    (forall r, ~ In r (map fst funcs) ->
       (m (Out, r) <> None -> m' (Out, r) = m (Out, r)) /\
       (m (Out, r) = None -> In r listing -> m' (Out, r) = Some (Link (Src, r))) /\
       (m (Out, r) = None -> ~ In r listing -> m' (Out, r) = None)).
Proof.
  intros [Hs [Hn Hf]] Hd Hk. unfold instantiate_to_folder. rewrite (proj2 (complete_iff funcs kw) Hk).
  destruct (link_all_spec listing m Hs Hd) as [m1 [-> [_ [K1 [K2 [K3 K4]]]]]].
  assert (T : forall r f, In (r, f) funcs -> exists t, file_call f (filter (fun kv => tmem (fst kv) (f_params f)) kw) = Ok t /\
    forall value, shows (f_suffix f) kw value -> exists ps, reads (f_text f) ps /\ t = fill value ps).
  { intros r f Hi. destruct (Hf r f Hi) as [_ [sfx [s Hfi]]]. eapply file_text; [eauto|]. intros x Hx. apply Hk. eauto. }
  destruct (write_all_spec funcs kw Hn) with (m := m1) as [m' [-> [L1 [L2 L3]]]].
  - intros r f Hi. destruct (T r f Hi) as [t [Ht _]]. eauto.
  - intros r Hr. apply in_map_iff in Hr as [[r' f] [<- Hi]]. cbn [fst]. destruct (Hf r' f Hi) as [Hl _].
    destruct (m (Out, r')) eqn:E; [rewrite K2; congruence|rewrite K3; [discriminate|auto|auto]].
  - exists m'. split; [auto|]. split; [intros r; rewrite L1; apply K1|]. split.
    + intros r f Hi. destruct (T r f Hi) as [t [Ht Hv]]. exists t. split; [eauto|auto].
    + intros r Hr. rewrite L3 by auto. auto.
Qed.
(** With other values nothing is done. *)
Theorem C113_other_values (m : fs) (listing : list text) (funcs : list (text * file)) (kw : kwargs) :
  ~ complete funcs kw -> instantiate_to_folder m listing funcs kw = (m, Err AssertionError).
Proof.
  intros H. unfold instantiate_to_folder. destruct (same_set _ _) eqn:E; [|auto]. now apply complete_iff in E.
Qed.

Section Float.
Context {A : Type} (to_float : text -> result A).

(** Calling the function: the command runs in a new folder instantiated with the values; the
    folder disappears whatever happens; the instrumented folder is as before when the command
    writes in no file without placeholders. *)
Theorem C113_call (m : fs) (listing : list text) (funcs : list (text * file)) (kw : kwargs) (cmd : command) :
  instrumented m listing funcs -> (forall r, m (Out, r) = None) -> complete funcs kw ->
  let '(m', res) := folder_call to_float m listing funcs kw cmd in
  (forall r, m' (Out, r) = None) /\
  exists seen, 
    (forall r f, In (r, f) funcs -> exists t, seen (Out, r) = Some (File t) /\
       forall value, shows (f_suffix f) kw value -> exists ps, reads (f_text f) ps /\ t = fill value ps) /\
    (forall r, ~ In r (map fst funcs) -> In r listing -> seen (Out, r) = Some (Link (Src, r))) /\
    (forall r, ~ In r listing -> seen (Out, r) = None) /\
    (forall r, seen (Src, r) = m (Src, r)) /\
    ((forall r t, In (r, t) (fst (cmd seen)) -> In r (map fst funcs) \/ ~ In r listing) -> forall r, m' (Src, r) = m (Src, r)) /\
    res = bind (command_result (snd (cmd seen))) (postprocess to_float).
Proof.
  intros Hi Ho Hk. destruct (C113_instantiate m listing funcs kw Hi) as [m1 [E [K1 [K2 K3]]]]; [intros r H; now rewrite Ho in H|auto|].
  unfold folder_call. rewrite E. destruct (cmd m1) as [ws o] eqn:Ec.
  split; [reflexivity|]. exists m1. rewrite Ec. cbn [fst snd]. destruct Hi as [_ [_ Hf]].
  assert (N : forall r, ~ In r listing -> ~ In r (map fst funcs)).
  { intros r H X. apply in_map_iff in X as [[r' f] [<- X]]. apply H. cbn. now apply (Hf r' f). }
  split; [auto|]. split; [intros r H1 H2; apply K3; auto|]. split; [intros r H; apply K3; auto|]. split; [auto|].
  split; [|auto]. intros Hw r. cbn [cleanup fst]. rewrite apply_writes_src; [auto|].
  intros x t Hx q. destruct (Hw x t Hx) as [H|H].
  - apply in_map_iff in H as [[x' f] [<- H]]. cbn [fst]. destruct (K2 x' f H) as [t' [-> _]]. discriminate.
  - destruct (K3 x (N x H)) as [_ [_ X]]. rewrite X by auto. discriminate.
Qed.

(** The result is the number on the last line which is not blank, whatever is printed before. *)
Theorem C113_output (before after : list text) (l t : text) :
  trimmed l t -> t <> [] -> one_line t -> Forall all_blank after ->
  bind (command_result (mkoutcome (map Some (before ++ l :: after)) 0)) (postprocess to_float) = to_float t.
Proof.
  intros Ht Hne H1 Ha. unfold command_result. cbn [out_lines out_code]. rewrite decode_some. cbn [bind].
  change (0 =? 0) with true. cbn iota. cbn [bind]. rewrite map_app. cbn [map]. rewrite (strip_trimmed l t Ht).
  destruct (join_parts (map strip_text before) t (map strip_text after)) as [pre [tr [Ej [Hp Hb]]]].
  { intros y Hy. apply in_map_iff in Hy as [z [<- Hz]]. apply blank_strip. now apply (proj1 (Forall_forall _ _) Ha). }
  transitivity (postprocess to_float (pre ++ t ++ tr)); [f_equal; exact Ej|]. clear Ej.
  destruct Ht as [a [b [_ [_ [_ [Hh Hl]]]]]]. unfold postprocess.
  assert (X : pre ++ t ++ tr <> []).
  { intros X. apply app_eq_nil in X as [_ X]. apply app_eq_nil in X as [X _]. contradiction. }
  destruct (pre ++ t ++ tr) eqn:E; [congruence|]. rewrite <- E. clear X. unfold last_line_as_float.
  rewrite strip_last by auto. destruct (split_last (drop_blank pre) t H1 Hne) as [ls ->]; [now apply suffix_newline|].
  now rewrite rev_app_distr.
Qed.
(** A command that fails, or prints what cannot be decoded, makes the call fail. *)
Theorem C113_failure (o : outcome) : out_code o <> 0 \/ In None (out_lines o) ->
  bind (command_result o) (postprocess to_float) = Err FailedJobError.
Proof.
  intros H. unfold command_result.
  assert (D : forall ls, decode ls = Err FailedJobError \/ exists ts, decode ls = Ok ts).
  { induction ls as [|[t|] ls IH]; cbn; eauto. destruct IH as [->|[ts ->]]; cbn; eauto. }
  destruct H as [H|H].
  - destruct (D (out_lines o)) as [->|[ts ->]]; [auto|]. cbn [bind]. apply Nat.eqb_neq in H. now rewrite H.
  - now rewrite decode_none.
Qed.
(** A command that prints nothing raises ValueError; if it prints at least two blank lines and
    nothing else, the error is another one. *)
Theorem C113_blank (ls : list text) : Forall all_blank ls ->
  bind (command_result (mkoutcome (map Some ls) 0)) (postprocess to_float) =
  Err (if length ls <=? 1 then ValueError else IndexError).
Proof.
  intros H. unfold command_result. cbn [out_lines out_code]. rewrite decode_some. cbn [bind].
  change (0 =? 0) with true. cbn iota. cbn [bind].
  assert (E : map strip_text ls = repeat [] (length ls)).
  { induction H as [|l ls H _ IH]; cbn; [auto|]. rewrite IH. now rewrite blank_strip. }
  rewrite E. destruct (length ls) as [|[|n]]; [reflexivity|reflexivity|].
  change (join_lines (repeat [] (S (S n)))) with (newline :: join_lines (repeat [] (S n))).
  cbn [postprocess Nat.leb]. unfold last_line_as_float.
  rewrite blank_strip; [reflexivity|]. constructor; [unfold blank; cbn; lia|apply join_blank].
Qed.
End Float.

(** The command line: the command, then the arguments, then the keyword arguments, in order. *)
Theorem C113_command_line (command args : list text) (kws : list (text * text)) :
  length (full_command command args kws) = length command + length args + length kws /\
  (forall i x, nth_error command i = Some x -> nth_error (full_command command args kws) i = Some x) /\
  (forall i x, nth_error args i = Some x -> nth_error (full_command command args kws) (length command + i) = Some x) /\
  (forall i k v, nth_error kws i = Some (k, v) ->
     nth_error (full_command command args kws) (length command + length args + i) = Some (str "--" ++ k ++ str "=" ++ v)).
Proof.
  unfold full_command, text in *. split; [rewrite !app_length, map_length; lia|]. split; [|split].
  - intros i x H. rewrite nth_error_app1; [auto|]. apply nth_error_Some. congruence.
  - intros i x H. rewrite nth_error_app2 by lia. replace (length command + i - length command) with i by lia.
    rewrite nth_error_app1; [auto|]. apply nth_error_Some. congruence.
  - intros i k v H. rewrite nth_error_app2 by lia. rewrite nth_error_app2 by lia.
    replace (length command + length args + i - length command - length args) with i by lia.
    rewrite (map_nth_error _ _ _ H). reflexivity.
Qed.

(** ** A folder with two files *)
Definition ex_file := {| f_suffix := str ".py"; f_text := str "print(NG_ARG{x})"; f_params := [str "x"] |}.
Definition ex_fs : fs := fun p =>
  match fst p with
  | Src => if teqb (snd p) (str "main.py") then Some (File (str "print(NG_ARG{x})"))
           else if teqb (snd p) (str "data") then Some (File (str "1")) else None
  | Out => None
  end.
Definition ex_listing := [str "data"; str "main.py"].
Definition ex_funcs := [(str "main.py", ex_file)].
Definition ex_kw : kwargs := [(str "x", Instantiate.Other (str "12"))].
Lemma ex_instrumented : instrumented ex_fs ex_listing ex_funcs.
Proof.
  split; [|split].
  - intros r [<-|[<-|[]]]; eexists; vm_compute; reflexivity.
  - repeat constructor. intros [].
  - intros r f [[= <- <-]|[]]. split; [right; now left|]. exists (str ".py"), (str "print(NG_ARG{x})"). vm_compute. reflexivity.
Qed.
Lemma ex_complete : complete ex_funcs ex_kw.
Proof. apply complete_iff. vm_compute. reflexivity. Qed.

(** A command that writes in a file without placeholders modifies the instrumented folder. *)
Theorem C113_source_refuted : exists cmd r,
  instrumented ex_fs ex_listing ex_funcs /\ complete ex_funcs ex_kw /\
  fst (folder_call (fun t => Ok t) ex_fs ex_listing ex_funcs ex_kw cmd) (Src, r) <> ex_fs (Src, r).
Proof.
  exists (fun _ => ([(str "data", str "2")], mkoutcome [] 0)), (str "data").
  split; [apply ex_instrumented|]. split; [apply ex_complete|]. vm_compute. discriminate.
Qed.
(** Instantiating twice in the same folder: a file without placeholders which is already there
    is kept even when it is not the one of the instrumented folder. *)
Theorem C113_stale_refuted : exists m r,
  instrumented m ex_listing ex_funcs /\ (forall x, m (Out, x) <> None -> exists_ m (Out, x) = true) /\
  snd (instantiate_to_folder m ex_listing ex_funcs ex_kw) = Ok tt /\
  m (Src, r) = Some (File (str "1")) /\ fst (instantiate_to_folder m ex_listing ex_funcs ex_kw) (Out, r) = Some (File (str "old")).
Proof.
  exists (set_entry ex_fs (Out, str "data") (Some (File (str "old")))), (str "data"). split; [|split].
  - split; [|split; [repeat constructor; intros []|]].
    + intros r [<-|[<-|[]]]; eexists; vm_compute; reflexivity.
    + apply ex_instrumented.
  - intros x H. unfold set_entry in H. destruct (path_eqb (Out, x) (Out, str "data")) eqn:E; [|now destruct H].
    apply path_eqb_eq in E. injection E as ->. vm_compute. reflexivity.
  - vm_compute. auto.
Qed.

Example C113_ex :
  snd (folder_call (fun t => Ok t) ex_fs ex_listing ex_funcs ex_kw
    (fun m => ([], match m (Out, str "main.py") with
                   | Some (File t) => mkoutcome [Some (str "start"); Some (str "  " ++ t); Some (str " ")] 0
                   | _ => mkoutcome [] 1
                   end))) = Ok (str "print(12)") /\
  snd (folder_call (fun t => Ok t) ex_fs ex_listing ex_funcs ex_kw (fun _ => ([], mkoutcome [Some (str "3")] 2))) = Err FailedJobError /\
  one_line (str "print(12)") /\ trimmed (str "  3 ") (str "3").
Proof.
  split; [vm_compute; reflexivity|]. split; [vm_compute; reflexivity|]. split.
  - apply one_line_iff. intros c H. cbn in H. repeat (destruct H as [<-|H]; [reflexivity|]). destruct H.
  - exists (str "  "), (str " "). split; [reflexivity|].
    split; [repeat constructor; unfold blank; cbn; lia|]. split; [repeat constructor; unfold blank; cbn; lia|].
    split; [intros c t' [= <- <-]|intros [|? [|]] c [= <-]]; unfold blank; cbn; lia.
Qed.

Print Assumptions C113_instantiate.
Print Assumptions C113_other_values.
Print Assumptions C113_call.
Print Assumptions C113_output.
Print Assumptions C113_failure.
Print Assumptions C113_blank.
Print Assumptions C113_command_line.
Print Assumptions C113_source_refuted.
Print Assumptions C113_stale_refuted.

From Coq Require Import Bool List Arith Lia.
From Verif.Model Require Import Prelude Recast.
From Verif.Spec Require Import Recast.
From Verif.Proofs Require Import Prelude.
Import ListNotations.

Section Seq.
Context {P L : Type}.
Implicit Types (o : opt (P:=P) (L:=L)) (rs : list L).

Definition recorded (lib : list L -> request P) (R : list nat) (C : list (P * option L)) rs : Prop :=
  length R = length rs /\ forall j r, nth_error rs j = Some r -> exists c p, nth_error R j = Some c /\ nth_error C c = Some (p, Some r) /\ lib (firstn j rs) = RPoint p.

Lemma firstn_S_nth : forall {A} (l : list A) j a, nth_error l j = Some a -> firstn (S j) l = firstn j l ++ [a].
Proof. induction l as [|b l IH]; intros [|j] a H; cbn in *; try discriminate; [injection H as ->; reflexivity|rewrite <- (IH j a H); reflexivity]. Qed.

Lemma skipn_nth : forall {A} (l : list A) j a, nth_error l j = Some a -> skipn j l = a :: skipn (S j) l.
Proof. induction l as [|b l IH]; intros [|j] a H; cbn in *; try discriminate; [injection H as ->; reflexivity|exact (IH j a H)]. Qed.

Section Replay.
Variables (lib lib2 : list L -> request P) (random : nat -> P) (near : P -> P -> bool).
Variables (R : list nat) (C : list (P * option L)) (As : list nat) (d na nt : nat) (rs : list L).
Definition rth (j : nat) : option (thread P L) := match j with 0 => None | S _ => Some (advance lib2 (firstn j rs) []) end.
Definition rst (j : nat) : opt := mkopt (rth j) false R C As d na nt.
Lemma rst_ask j p' g : lib2 (firstn j rs) = RPoint p' ->
  internal_ask lib2 random (rst j) g = (mkopt (Some (mkthread (firstn j rs) [] false None false)) false R C As d na nt, Returned p').
Proof.
  intros Hp. unfold internal_ask, rst, rth. cbn [o_thread].
  replace (match match j with 0 => None | S _ => Some (advance lib2 (firstn j rs) []) end with Some t => t | None => start lib2 end)
    with (advance lib2 (firstn j rs) []) by (destruct j; reflexivity).
  unfold advance. rewrite Hp. reflexivity.
Qed.
Lemma replay_step j r p p' c g : nth_error rs j = Some r -> nth_error R j = Some c -> nth_error C c = Some (p, Some r) ->
  lib2 (firstn j rs) = RPoint p' -> near p' p = true ->
  replay_loop lib2 random near (skipn j R) (rst j) g = replay_loop lib2 random near (skipn (S j) R) (rst (S j)) g.
Proof.
  intros Hr Hc HC Hp Hn. rewrite (skipn_nth R j c Hc). cbn [replay_loop].
  change (candidates (rst j)) with C. rewrite HC, (rst_ask j p' g Hp), Hn. cbn [negb].
  unfold internal_tell. cbn [o_thread]. unfold is_alive. cbn [ended negb give pickling replay candidates asked draws num_ask num_tell].
  unfold give; cbn [ended received mail]. rewrite <- (firstn_S_nth rs j r Hr). reflexivity.
Qed.
Lemma replay_bad j r p p' c g : nth_error rs j = Some r -> nth_error R j = Some c -> nth_error C c = Some (p, Some r) ->
  lib2 (firstn j rs) = RPoint p' -> near p' p = false -> replay_loop lib2 random near (skipn j R) (rst j) g = Some (Err RuntimeError).
Proof.
  intros Hr Hc HC Hp Hn. rewrite (skipn_nth R j c Hc). cbn [replay_loop].
  change (candidates (rst j)) with C. rewrite HC, (rst_ask j p' g Hp), Hn. reflexivity.
Qed.
Lemma replay_upto (rec : recorded lib R C rs) g : forall j, j <= length rs ->
  (forall i p, i < j -> lib (firstn i rs) = RPoint p -> exists p', lib2 (firstn i rs) = RPoint p' /\ near p' p = true) ->
  replay_loop lib2 random near R (rst 0) g = replay_loop lib2 random near (skipn j R) (rst j) g.
Proof.
  destruct rec as [Hl Hrec].
  induction j as [|j IH]; intros Hj Hg; [reflexivity|].
  rewrite IH by (try lia; intros i p Hi; apply Hg; lia).
  destruct (nth_error rs j) as [r|] eqn:Er; [|apply nth_error_None in Er; lia].
  destruct (Hrec j r Er) as [c [p [Hc [HC Hp]]]]. destruct (Hg j p ltac:(lia) Hp) as [p' [Hp' Hn]].
  exact (replay_step j r p p' c g Er Hc HC Hp' Hn).
Qed.
End Replay.

Variables (lib : list L -> request P) (random : nat -> P).
Definition thr o : thread P L := match o_thread o with None => start lib | Some t => t end.

(** While the library runs *)
Record RInv o : Prop := mkR {
  r_run : ended (thr o) = false; r_err : error (thr o) = None; r_gone : gone (thr o) = false;
  r_pick : pickling o = true;
  r_rec : recorded lib (replay o) (candidates o) (received (thr o));
  r_none : o_thread o = None -> num_ask o = 0 /\ num_tell o = 0 /\ received (thr o) = [];
  r_pt : exists p, lib (received (thr o)) = RPoint p /\
     ((asked o = [] /\ mail (thr o) = [MPoint p] /\ num_ask o = num_tell o /\ (o_thread o = None \/ received (thr o) <> []))
      \/ (exists c, asked o = [c] /\ mail (thr o) = [] /\ num_ask o = S (num_tell o) /\ nth_error (candidates o) c = Some (p, None) /\ o_thread o <> None))
}.
(** After its end *)
Record FInv o : Prop := mkF {
  f_end : exists t, o_thread o = Some t /\ ended t = true;
  f_pick : pickling o = true;
  f_rec : recorded lib (replay o) (candidates o) (received (thr o));
  f_ne : received (thr o) <> [];
  f_done : error (thr o) = None -> lib (received (thr o)) = RDone;
  f_asked : forall c, In c (asked o) -> exists p, nth_error (candidates o) c = Some (p, None);
  f_nodup : NoDup (asked o);
  f_num : num_ask o = num_tell o + length (asked o)
}.

Lemma set_loss_other : forall c l (C : list (P * option L)) c', c' <> c -> nth_error (set_loss c l C) c' = nth_error C c'.
Proof. induction c as [|c IH]; intros l [|[p o] C] [|c'] H; cbn; try reflexivity; try lia. apply IH. lia. Qed.
Lemma set_loss_same : forall c l (C : list (P * option L)) p x, nth_error C c = Some (p, x) -> nth_error (set_loss c l C) c = Some (p, Some l).
Proof. induction c as [|c IH]; intros l [|[q y] C] p x H; cbn in *; try discriminate; [injection H as -> _; reflexivity|exact (IH l C p x H)]. Qed.

Lemma recorded_set R C rs c l p : recorded lib R C rs -> nth_error C c = Some (p, None) -> recorded lib R (set_loss c l C) rs.
Proof.
  intros [Hl H] Hc. split; [exact Hl|]. intros j r Hr. destruct (H j r Hr) as [c' [q [H1 [H2 H3]]]]. exists c', q.
  split; [exact H1|split; [|exact H3]]. rewrite set_loss_other; [exact H2|]. intros ->. rewrite Hc in H2. discriminate.
Qed.
Lemma recorded_snoc R C rs x : recorded lib R C rs -> recorded lib R (C ++ [x]) rs.
Proof.
  intros [Hl H]. split; [exact Hl|]. intros j r Hr. destruct (H j r Hr) as [c' [q [H1 [H2 H3]]]]. exists c', q.
  split; [exact H1|split; [|exact H3]]. rewrite nth_error_app1; [exact H2|]. apply nth_error_Some. rewrite H2. discriminate.
Qed.
Lemma recorded_tell R C rs c p l : recorded lib R C rs -> lib rs = RPoint p -> nth_error C c = Some (p, None) ->
  recorded lib (R ++ [c]) (set_loss c l C) (rs ++ [l]).
Proof.
  intros HR Hp Hc. pose proof (recorded_set R C rs c l p HR Hc) as [Hl H]. split; [rewrite !app_length, Hl; reflexivity|].
  intros j r Hr. destruct (Nat.lt_ge_cases j (length rs)) as [Hj|Hj].
  - rewrite nth_error_app1 in Hr by exact Hj. destruct (H j r Hr) as [c' [q [H1 [H2 H3]]]]. exists c', q.
    split; [rewrite nth_error_app1 by lia; exact H1|]. split; [exact H2|]. rewrite firstn_app.
    replace (j - length rs) with 0 by lia. cbn [firstn]. rewrite app_nil_r. exact H3.
  - rewrite nth_error_app2 in Hr by exact Hj. destruct (j - length rs) as [|k] eqn:E; cbn in Hr; [|destruct k; discriminate].
    injection Hr as <-. exists c, p. assert (j = length rs) by lia. subst j.
    split; [rewrite nth_error_app2 by lia; rewrite Hl, Nat.sub_diag; reflexivity|].
    split; [exact (set_loss_same c l C p None Hc)|]. rewrite firstn_app, Nat.sub_diag, firstn_all. cbn. rewrite app_nil_r. exact Hp.
Qed.

Lemma RInv_new : (exists p, lib [] = RPoint p) -> RInv new_opt.
Proof.
  intros [p Hp]. unfold new_opt. constructor; unfold thr, start, advance; cbn; rewrite ?Hp; cbn; try reflexivity; try (repeat split; reflexivity).
  - split; [reflexivity|]. intros [|j] r H; discriminate.
  - exists p. split; [exact Hp|]. left. repeat split; auto.
Qed.

Lemma ask_run o p g : RInv o -> lib (received (thr o)) = RPoint p -> mail (thr o) = [MPoint p] ->
  ask lib random o g = (mkopt (Some (mkthread (received (thr o)) [] false None false)) (pickling o) (replay o) (candidates o ++ [(p, None)])
     (asked o ++ [length (candidates o)]) (draws o) (S (num_ask o)) (num_tell o), Returned (length (candidates o), p)).
Proof.
  intros HI Hp Hm. unfold ask, internal_ask. fold (thr o). unfold next_message, is_alive. rewrite (r_run _ HI), Hm, (r_err _ HI), (r_gone _ HI).
  cbn. rewrite (r_run _ HI). reflexivity.
Qed.
Lemma ask_wait o g : RInv o -> mail (thr o) = [] -> snd (ask lib random o g) = Blocked.
Proof.
  intros HI Hm. unfold ask, internal_ask. fold (thr o). unfold next_message, is_alive. rewrite (r_run _ HI), Hm. reflexivity.
Qed.

Lemma existsb_in c l : existsb (Nat.eqb c) l = true <-> In c l.
Proof.
  rewrite existsb_exists. split; [intros [x [Hx E]]; apply Nat.eqb_eq in E; subst; exact Hx|intros H; exists c; split; [exact H|apply Nat.eqb_refl]].
Qed.

Lemma RInv_step o c : RInv o -> plain c -> succeeded (snd (step lib random o c)) ->
  RInv (fst (step lib random o c)) \/ FInv (fst (step lib random o c)).
Proof.
  intros HI Hpl Hs. destruct c as [g|c l l' g|i g]; cbn [plain] in Hpl; try contradiction; cbn [step] in *.
  - destruct (r_pt _ HI) as [p [Hp [[Ha [Hm [Hn Hst]]]|[c [Ha [Hm _]]]]]].
    + rewrite (ask_run o p g HI Hp Hm) in *. left. cbn [fst].
      constructor; unfold thr; cbn; try reflexivity; [exact (r_pick _ HI)|exact (recorded_snoc _ _ _ _ (r_rec _ HI))|discriminate|].
      exists p. split; [exact Hp|]. right. exists (length (candidates o)). rewrite Ha, Hn. cbn.
      repeat split; try reflexivity; [|discriminate]. rewrite nth_error_app2, Nat.sub_diag by lia. reflexivity.
    + pose proof (ask_wait o g HI Hm) as Hw. destruct (ask lib random o g) as [o1 x]. cbn in *. subst x. contradiction.
  - subst l'. unfold tell in *. cbn [asked] in *. destruct (existsb (Nat.eqb c) (asked o)) eqn:E; [|contradiction].
    apply existsb_in in E. destruct (r_pt _ HI) as [p [Hp [[Ha _]|[c' [Ha [Hm [Hn [Hc Ht]]]]]]]]; rewrite Ha in E; [contradiction|].
    destruct E as [E|[]]. subst c'.
    destruct (o_thread o) as [t|] eqn:Et; [|congruence].
    assert (Hthr : thr o = t) by (unfold thr; rewrite Et; reflexivity).
    pose proof (r_run _ HI) as Hrun. pose proof (r_pick _ HI) as Hpk. pose proof (r_rec _ HI) as Hrec. rewrite Hthr in *.
    unfold internal_tell in *. cbn [o_thread asked candidates replay draws num_ask num_tell pickling] in *.
    unfold is_alive in *. rewrite Hrun in *. cbn [negb fst snd] in *. rewrite Hpk in *.
    assert (HR : recorded lib (replay o ++ [c]) (set_loss c l (candidates o)) (received t ++ [l]))
      by exact (recorded_tell _ _ _ c p l Hrec Hp Hc).
    assert (Hgive : give lib t (Some l) = advance lib (received t ++ [l]) []) by (unfold give; rewrite Hrun, Hm; reflexivity).
    rewrite Hgive in *. cbn [o_thread asked candidates replay draws num_ask num_tell pickling fst]. rewrite Ha in *. cbn [filter]. rewrite Nat.eqb_refl. cbn [negb].
    unfold advance. destruct (lib (received t ++ [l])) as [q| |e] eqn:Eq.
    + left. constructor; unfold thr; cbn; try reflexivity; [exact HR|discriminate|].
      exists q. split; [exact Eq|]. left. repeat split; try reflexivity; [lia|]. right. intros H. apply app_eq_nil in H as [_ H]. discriminate.
    + right. constructor; unfold thr; cbn; try reflexivity; [eexists; split; reflexivity|exact HR|intros H; apply app_eq_nil in H as [_ H]; discriminate|intros _; exact Eq|intros ? []|constructor|lia].
    + right. constructor; unfold thr; cbn; try reflexivity; [eexists; split; reflexivity|exact HR|intros H; apply app_eq_nil in H as [_ H]; discriminate|discriminate|intros ? []|constructor|lia].
Qed.

Lemma FInv_step o c : FInv o -> plain c -> prompt c -> succeeded (snd (step lib random o c)) -> FInv (fst (step lib random o c)).
Proof.
  intros HI Hpl Hpr Hs. destruct (f_end _ HI) as [t [Et He]]. pose proof (f_pick _ HI) as Hpk. pose proof (f_rec _ HI) as Hrec. pose proof (f_done _ HI) as Hd. pose proof (f_ne _ HI) as Hnil.
  assert (Hthr : thr o = t) by (unfold thr; rewrite Et; reflexivity). rewrite Hthr in *.
  assert (Hal : exists b, is_alive t false = (mkthread (received t) (mail t) true (error t) b, false)).
  { unfold is_alive. rewrite He. destruct (gone t) eqn:Eg; [exists true|exists true; reflexivity]. destruct t; cbn in *; subst; reflexivity. }
  destruct Hal as [b Hal].
  destruct c as [g|c l l' g|i g]; cbn [plain prompt] in Hpl, Hpr; try contradiction; subst g; cbn [step] in *.
  - unfold ask, internal_ask in *. rewrite Et in *. unfold next_message in *. rewrite Hal in *. cbn [error] in *.
    destruct (error t) as [e|] eqn:Ee; cbn [fst snd succeeded] in *; [contradiction|].
    constructor; unfold thr; cbn; [eexists; split; reflexivity|exact Hpk|exact (recorded_snoc _ _ _ _ Hrec)|exact Hnil|intros _; apply Hd; reflexivity| | |].
    + intros c Hc. apply in_app_iff in Hc as [Hc|[<-|[]]].
      * destruct (f_asked _ HI c Hc) as [p Hp]. exists p. rewrite nth_error_app1; [exact Hp|]. apply nth_error_Some. rewrite Hp. discriminate.
      * exists (random (draws o)). rewrite nth_error_app2, Nat.sub_diag by lia. reflexivity.
    + apply NoDup_app_snoc; [exact (f_nodup _ HI)|]. intros Hin. destruct (f_asked _ HI _ Hin) as [p Hp].
      assert (length (candidates o) < length (candidates o)) by (apply nth_error_Some; rewrite Hp; discriminate). lia.
    + rewrite app_length, (f_num _ HI). cbn. lia.
  - subst l'. unfold tell in *. cbn [asked] in *. destruct (existsb (Nat.eqb c) (asked o)) eqn:E; [|contradiction].
    apply existsb_in in E. destruct (f_asked _ HI c E) as [p Hp].
    unfold internal_tell in *. cbn [o_thread asked candidates replay draws num_ask num_tell pickling] in *. rewrite Et, Hal in *. cbn [negb error] in *.
    destruct (error t) as [e|] eqn:Ee; cbn [fst snd succeeded] in *; [contradiction|].
    constructor; unfold thr; cbn; [eexists; split; reflexivity|exact Hpk|exact (recorded_set _ _ _ c l p Hrec Hp)|exact Hnil|intros _; apply Hd; reflexivity| | |].
    + intros c' Hc. apply filter_In in Hc as [Hc Hne]. apply negb_true_iff, Nat.eqb_neq in Hne. destruct (f_asked _ HI c' Hc) as [q Hq]. exists q.
      rewrite set_loss_other by congruence. exact Hq.
    + apply NoDup_filter. exact (f_nodup _ HI).
    + rewrite (f_num _ HI). pose proof (f_nodup _ HI) as Hnd. clear - E Hnd.
      assert (Hlen : length (asked o) = S (length (filter (fun c' => negb (c =? c')) (asked o)))); [|lia].
      induction (asked o) as [|a l IH]; [contradiction|]. inversion Hnd as [|? ? Ha Hnd']; subst. cbn [filter length].
      destruct (Nat.eqb_spec c a) as [->|Hne].
      * cbn [negb]. f_equal. clear - Ha. induction l as [|b l IH]; [reflexivity|]. cbn. destruct (Nat.eqb_spec a b) as [->|_]; [exfalso; apply Ha; left; reflexivity|].
        cbn. f_equal. apply IH. intros H. apply Ha. right. exact H.
      * cbn [negb length]. f_equal. apply IH; [|exact Hnd']. destruct E as [E|E]; [congruence|exact E].
Qed.

Lemma ended_step o c : (exists t, o_thread o = Some t /\ ended t = true) -> exists t, o_thread (fst (step lib random o c)) = Some t /\ ended t = true.
Proof.
  intros [t [Et He]].
  assert (Hal : forall g, exists t' b, is_alive t g = (t', b) /\ ended t' = true /\ received t' = received t).
  { intros g. unfold is_alive. rewrite He. destruct (gone t); [eexists _, _; split; [reflexivity|split; [exact He|reflexivity]]|].
    destruct g; eexists _, _; (split; [reflexivity|split; [try exact He; reflexivity|reflexivity]]). }
  assert (Hask : forall o g, o_thread o = Some t -> exists t', o_thread (fst (internal_ask lib random o g)) = Some t' /\ ended t' = true).
  { intros o' g Eo. unfold internal_ask, next_message. rewrite Eo. destruct (Hal g) as [t' [b [-> [He' _]]]]. destruct b.
    - destruct (mail t') as [|[p| |e] m]; try (eexists; split; [reflexivity|exact He']). cbn. destruct (error t'); eexists; (split; [reflexivity|exact He']).
    - cbn. destruct (error t'); eexists; (split; [reflexivity|exact He']). }
  assert (Htell : forall o t i l g, o_thread o = Some t -> ended t = true -> exists t', o_thread (fst (internal_tell lib o i l g)) = Some t' /\ ended t' = true).
  { clear. intros o t i l g Eo He. unfold internal_tell. rewrite Eo. unfold is_alive. rewrite He.
    destruct (gone t); [cbn; destruct (error t); eexists; (split; [reflexivity|exact He])|]. destruct g; cbn.
    - eexists; split; [reflexivity|]. unfold give. rewrite He. exact He.
    - destruct (error t); eexists; (split; [reflexivity|try exact He; reflexivity]). }
  destruct c as [g|c l l' g|i g]; cbn [step].
  - unfold ask. destruct (Hask o g Et) as [t' [E' H']]. destruct (internal_ask lib random o g) as [o1 [p|e|]]; cbn in *; exists t'; split; assumption.
  - unfold tell. destruct (existsb _ _); [|cbn; exists t; split; assumption].
    match goal with |- context[internal_tell lib ?o1 c (Some l') g] => destruct (Htell o1 t c (Some l') g Et He) as [t' [E' H']]; destruct (internal_tell lib o1 c (Some l') g) as [o2 [p|e|]]; cbn in *; exists t'; split; assumption end.
  - unfold refuse. destruct (Hask o g Et) as [t' [E' H']]. destruct (internal_ask lib random o g) as [o1 [p|e|]]; cbn [fst] in *; try (exists t'; split; assumption).
    match goal with |- context[internal_tell lib ?o1 ?c (Some i) g] => destruct (Htell o1 t' c (Some i) g E' H') as [t2 [E2 H2]]; destruct (internal_tell lib o1 c (Some i) g) as [o2 x]; cbn in *; exists t2; split; assumption end.
Qed.
Lemma ended_history cs : forall o, (exists t, o_thread o = Some t /\ ended t = true) -> exists t, o_thread (fst (history lib random o cs)) = Some t /\ ended t = true.
Proof.
  induction cs as [|c cs IH]; intros o H; [exact H|]. cbn [history]. pose proof (ended_step o c H) as H1. destruct (step lib random o c) as [o1 x]. cbn in H1.
  specialize (IH o1 H1). destruct (history lib random o1 cs) as [o2 xs]. exact IH.
Qed.
Lemma history_running cs : forall o, RInv o -> Forall plain cs -> Forall succeeded (snd (history lib random o cs)) ->
  running (fst (history lib random o cs)) -> RInv (fst (history lib random o cs)).
Proof.
  induction cs as [|c cs IH]; intros o HI Hp Hs Hr; [exact HI|]. cbn [history] in *. inversion Hp as [|? ? Hp1 Hp2]; subst.
  pose proof (RInv_step o c HI Hp1) as Hst. destruct (step lib random o c) as [o1 x]. cbn [fst snd] in Hst.
  specialize (IH o1). pose proof (ended_history cs o1) as Hend.
  destruct (history lib random o1 cs) as [o2 xs]. cbn [fst snd] in *. inversion Hs as [|? ? Hs1 Hs2]; subst.
  destruct (Hst Hs1) as [H|H]; [exact (IH H Hp2 Hs2 Hr)|]. destruct (Hend (f_end _ H)) as [t [Et He]]. unfold running in Hr. rewrite Et in Hr. congruence.
Qed.
Lemma history_prompt cs : forall o, RInv o \/ FInv o -> Forall plain cs -> Forall prompt cs -> Forall succeeded (snd (history lib random o cs)) ->
  RInv (fst (history lib random o cs)) \/ FInv (fst (history lib random o cs)).
Proof.
  induction cs as [|c cs IH]; intros o HI Hp Hq Hs; [exact HI|]. cbn [history] in *. inversion Hp as [|? ? Hp1 Hp2]; inversion Hq as [|? ? Hq1 Hq2]; subst.
  pose proof (RInv_step o c) as Hst. pose proof (FInv_step o c) as Hst2. destruct (step lib random o c) as [o1 x]. cbn [fst snd] in Hst, Hst2.
  specialize (IH o1). destruct (history lib random o1 cs) as [o2 xs]. cbn [fst snd] in *. inversion Hs as [|? ? Hs1 Hs2]; subst.
  apply IH; try assumption. destruct HI as [HI|HI]; [exact (Hst HI Hp1 Hs1)|right; exact (Hst2 HI Hp1 Hq1 Hs1)].
Qed.
(** If the library never asks for a point, it ends at the first call *)
Lemma first_call cs : (forall p, lib [] <> RPoint p) -> Forall plain cs -> Forall succeeded (snd (history lib random new_opt cs)) ->
  cs = [] \/ exists t, o_thread (fst (history lib random new_opt cs)) = Some t /\ ended t = true.
Proof.
  intros Hl Hp Hs. destruct cs as [|c cs]; [left; reflexivity|right]. cbn [history] in *. inversion Hp as [|? ? Hp1 Hp2]; subst.
  assert (H1 : succeeded (snd (step lib random new_opt c)) -> exists t, o_thread (fst (step lib random new_opt c)) = Some t /\ ended t = true).
  { destruct c as [g|i l l' g|i g]; cbn [plain] in Hp1; try contradiction; cbn [step].
    intros _. unfold ask, internal_ask, new_opt, next_message. cbn [o_thread]. unfold start, advance, is_alive.
      destruct (lib []) as [p| |e] eqn:E; [exfalso; exact (Hl p eq_refl)| |]; cbn; destruct g; cbn; eexists; split; reflexivity. }
  destruct (step lib random new_opt c) as [o1 x]. cbn [fst snd] in H1. pose proof (ended_history cs o1) as Hend.
  destruct (history lib random o1 cs) as [o2 xs]. cbn [fst snd] in *. inversion Hs; subst. apply Hend, H1. assumption.
Qed.
End Seq.

Lemma mkopt_eta {P L} (o : opt (P:=P) (L:=L)) : o = mkopt (o_thread o) (pickling o) (replay o) (candidates o) (asked o) (draws o) (num_ask o) (num_tell o).
Proof. destruct o; reflexivity. Qed.

Section Restore.
Context {P L : Type}.
Variables (lib : list L -> request P) (random : nat -> P) (near : P -> P -> bool).
Hypothesis near_refl : forall p, near p p = true.
Implicit Types (o : opt (P:=P) (L:=L)).

Lemma restore_running o g s : RInv lib o -> getstate o = Ok s -> setstate lib random near s g = Some (Ok o).
Proof.
  intros HI. unfold getstate. rewrite (r_pick _ _ HI). cbn [negb]. intros [= <-]. unfold setstate. cbn [pickling replay negb].
  pose proof (r_run _ _ HI) as Hrun. pose proof (r_err _ _ HI) as Herr. pose proof (r_gone _ _ HI) as Hgone. pose proof (r_pick _ _ HI) as Hpk. pose proof (r_rec _ _ HI) as Hrec.
  set (rs := received (thr lib o)) in *.
  change (with_pickling _ false) with (rst lib (replay o) (candidates o) (asked o) (draws o) (num_ask o) (num_tell o) rs 0).
  rewrite (replay_upto lib lib random near _ _ _ _ _ _ rs Hrec g (length rs) (Nat.le_refl _)) by (intros i p _ Hp; exists p; split; [exact Hp|apply near_refl]).
  replace (skipn (length rs) (replay o)) with (@nil nat) by (symmetry; apply skipn_all2; rewrite (proj1 Hrec); lia).
  cbn [replay_loop]. destruct (r_pt _ _ HI) as [p [Hp Hcase]]. fold rs in Hp, Hcase.
  assert (Hfull : firstn (length rs) rs = rs) by apply firstn_all.
  destruct Hcase as [[Ha [Hm [Hn Hst]]]|[c [Ha [Hm [Hn [Hc Ht]]]]]].
  - cbn [rst num_tell num_ask]. rewrite Hn, Nat.ltb_irrefl. do 2 f_equal. unfold with_pickling, rst. cbn.
    rewrite (mkopt_eta o) at 7. rewrite Hpk, Hn. f_equal. unfold rth. rewrite Hfull. unfold advance. rewrite Hp.
    destruct (o_thread o) as [t|] eqn:Et.
    + assert (Hthr : thr lib o = t) by (unfold thr; rewrite Et; reflexivity). rewrite Hthr in *.
      destruct rs as [|r rs0] eqn:Ers; [destruct Hst; congruence|]. cbn [length].
      assert (Hr : received t = r :: rs0) by (rewrite <- Hthr; exact Ers). clear - Hrun Herr Hgone Hm Hr. f_equal. destruct t; cbn in *. congruence.
    + destruct (r_none _ _ HI Et) as [_ [_ Hz]]. fold rs in Hz. rewrite Hz. reflexivity.
  - cbn [rst num_tell num_ask]. rewrite Hn. replace (num_tell o <? S (num_tell o)) with true by (symmetry; apply Nat.ltb_lt; lia).
    change (mkopt (rth lib rs (length rs)) false (replay o) (candidates o) (asked o) (draws o) (S (num_tell o)) (num_tell o))
      with (rst lib (replay o) (candidates o) (asked o) (draws o) (S (num_tell o)) (num_tell o) rs (length rs)).
    rewrite <- Hn at 1. rewrite (rst_ask lib random _ _ _ _ _ _ rs (length rs) p g) by (rewrite Hfull; exact Hp).
    do 2 f_equal. unfold with_pickling. cbn. etransitivity; [|symmetry; apply mkopt_eta]. rewrite Hpk, Hfull. f_equal.
    destruct (o_thread o) as [t|] eqn:Et; [|congruence]. assert (Hthr : thr lib o = t) by (unfold thr; rewrite Et; reflexivity).
    assert (Hr : rs = received t) by (rewrite <- Hthr; reflexivity). rewrite Hr. rewrite Hthr in Hm, Hrun, Herr, Hgone. clear - Hrun Herr Hgone Hm.
    f_equal. destruct t; cbn in *. congruence.
Qed.

Lemma restore_mismatch (lib2 : list L -> request P) o g s j p p' : RInv lib o \/ FInv lib o -> getstate o = Ok s -> j < length (received (thr lib o)) ->
  (forall i q, i < j -> lib (firstn i (received (thr lib o))) = RPoint q -> exists q', lib2 (firstn i (received (thr lib o))) = RPoint q' /\ near q' q = true) ->
  lib (firstn j (received (thr lib o))) = RPoint p -> lib2 (firstn j (received (thr lib o))) = RPoint p' -> near p' p = false ->
  setstate lib2 random near s g = Some (Err RuntimeError).
Proof.
  intros HI Hs Hj Hpre Hp Hp' Hn.
  assert (Hrec : recorded lib (replay o) (candidates o) (received (thr lib o))) by (destruct HI as [HI|HI]; [exact (r_rec _ _ HI)|exact (f_rec _ _ HI)]).
  assert (Hpk : pickling o = true) by (destruct HI as [HI|HI]; [exact (r_pick _ _ HI)|exact (f_pick _ _ HI)]).
  revert Hs. unfold getstate. rewrite Hpk. cbn [negb]. intros [= <-]. unfold setstate. cbn [pickling replay negb].
  set (rs := received (thr lib o)) in *.
  change (with_pickling _ false) with (rst lib2 (replay o) (candidates o) (asked o) (draws o) (num_ask o) (num_tell o) rs 0).
  rewrite (replay_upto lib lib2 random near _ _ _ _ _ _ rs Hrec g j ltac:(lia) Hpre).
  destruct (nth_error rs j) as [r|] eqn:Er; [|apply nth_error_None in Er; lia].
  destruct Hrec as [_ Hrec]. destruct (Hrec j r Er) as [c [q [Hc [HC Hq]]]]. rewrite Hp in Hq. injection Hq as <-.
  rewrite (replay_bad lib2 random near _ _ _ _ _ _ rs j r p p' c g Er Hc HC Hp' Hn). reflexivity.
Qed.

(** States that differ only by the remains of an ended thread *)
Definition alike o o' : Prop :=
  finished o /\ finished o' /\ pickling o' = pickling o /\ replay o' = replay o /\ candidates o' = candidates o /\ asked o' = asked o /\ draws o' = draws o
  /\ num_ask o' = num_ask o /\ num_tell o' = num_tell o.

Lemma restore_finished o g s : FInv lib o -> finished o -> asked o = [] -> getstate o = Ok s ->
  exists o', setstate lib random near s g = Some (Ok o') /\ alike o o'.
Proof.
  intros HI Hfin Ha. unfold getstate. rewrite (f_pick _ _ HI). cbn [negb]. intros [= <-]. unfold setstate. cbn [pickling replay negb].
  pose proof (f_rec _ _ HI) as Hrec. pose proof (f_num _ _ HI) as Hn. rewrite Ha, Nat.add_0_r in Hn.
  set (rs := received (thr lib o)) in *.
  change (with_pickling _ false) with (rst lib (replay o) (candidates o) (asked o) (draws o) (num_ask o) (num_tell o) rs 0).
  rewrite (replay_upto lib lib random near _ _ _ _ _ _ rs Hrec g (length rs) (Nat.le_refl _)) by (intros i p _ Hp; exists p; split; [exact Hp|apply near_refl]).
  replace (skipn (length rs) (replay o)) with (@nil nat) by (symmetry; apply skipn_all2; rewrite (proj1 Hrec); lia).
  cbn [replay_loop rst num_tell num_ask]. rewrite Hn, Nat.ltb_irrefl. eexists. split; [reflexivity|].
  assert (Hd : lib rs = RDone).
  { apply (f_done _ _ HI). unfold finished in Hfin. unfold thr. destruct (o_thread o); [exact (proj2 Hfin)|contradiction]. }
  unfold alike. split; [exact Hfin|]. unfold with_pickling, finished. cbn. rewrite (f_pick _ _ HI).
  repeat split; try reflexivity; [|symmetry; exact Hn].
  unfold rth. rewrite firstn_all. destruct (length rs) as [|n] eqn:El; [|unfold advance; rewrite Hd; split; reflexivity].
  destruct rs as [|r rs0] eqn:Ers; [|discriminate]. exfalso. exact (f_ne _ _ HI Ers).
Qed.

Lemma alike_alive o o' t t' : alike o o' -> o_thread o = Some t -> o_thread o' = Some t' ->
  exists u u', is_alive t false = (u, false) /\ is_alive t' false = (u', false) /\ error u = None /\ error u' = None /\ ended u = true /\ ended u' = true.
Proof.
  intros [H [H' _]] E E'. unfold finished in *. rewrite E in H. rewrite E' in H'. destruct H as [H1 H2], H' as [H1' H2'].
  unfold is_alive. rewrite H1, H1'. destruct (gone t), (gone t'); eexists _, _; repeat split; assumption || reflexivity.
Qed.
Lemma internal_ask_alike o o' : alike o o' -> exists o1 o1', internal_ask lib random o false = (o1, Returned (random (draws o))) /\
  internal_ask lib random o' false = (o1', Returned (random (draws o))) /\ alike o1 o1'.
Proof.
  intros H. pose proof H as [Hf [Hf' [H1 [H2 [H3 [H4 [H5 [H6 H7]]]]]]]]. unfold finished in Hf, Hf'.
  destruct (o_thread o) as [t|] eqn:E; [|contradiction]. destruct (o_thread o') as [t'|] eqn:E'; [|contradiction].
  destruct (alike_alive o o' t t' H E E') as [u [u' [Hu [Hu' [He [He' [Hd Hd']]]]]]].
  unfold internal_ask, next_message. rewrite E, E', Hu, Hu', He, He', H5.
  eexists _, _. split; [reflexivity|split; [reflexivity|]]. unfold alike, finished. cbn. repeat split; congruence.
Qed.
Lemma internal_tell_alike o o' c l : alike o o' -> exists o1 o1', internal_tell lib o c l false = (o1, Returned tt) /\
  internal_tell lib o' c l false = (o1', Returned tt) /\ alike o1 o1'.
Proof.
  intros H. pose proof H as [Hf [Hf' [H1 [H2 [H3 [H4 [H5 [H6 H7]]]]]]]]. unfold finished in Hf, Hf'.
  destruct (o_thread o) as [t|] eqn:E; [|contradiction]. destruct (o_thread o') as [t'|] eqn:E'; [|contradiction].
  destruct (alike_alive o o' t t' H E E') as [u [u' [Hu [Hu' [He [He' [Hd Hd']]]]]]].
  unfold internal_tell. rewrite E, E', Hu, Hu', He, He'. cbn [negb].
  eexists _, _. split; [reflexivity|split; [reflexivity|]]. unfold alike, finished, with_thread. cbn. repeat split; congruence.
Qed.
Lemma alike_step o o' c : alike o o' -> prompt c -> snd (step lib random o c) = snd (step lib random o' c) /\ alike (fst (step lib random o c)) (fst (step lib random o' c)).
Proof.
  intros H Hpr. destruct c as [g|c l l' g|i g]; cbn [prompt] in Hpr; subst g; cbn [step].
  - unfold ask. destruct (internal_ask_alike o o' H) as [o1 [o1' [-> [-> H1]]]].
    pose proof H1 as [Hf [Hf' [P1 [P2 [P3 [P4 [P5 [P6 P7]]]]]]]]. cbn. rewrite P3. split; [reflexivity|]. unfold alike, finished in *. cbn. rewrite P1, P2, P4, P5, P6, P7. repeat split; try reflexivity; tauto.
  - pose proof H as [Hf [Hf' [P1 [P2 [P3 [P4 [P5 [P6 P7]]]]]]]].
    unfold tell. cbn [asked]. rewrite P4. destruct (existsb (Nat.eqb c) (asked o)).
    + rewrite P1, P2, P3, P5, P6, P7.
      match goal with |- context[internal_tell lib ?a c _ _] => match goal with |- context[internal_tell lib ?b c _ _] => lazymatch b with a => fail | _ =>
        assert (HA : alike a b) end end end.
      { unfold alike, finished in *. cbn. repeat split; try reflexivity; tauto. }
      destruct (internal_tell_alike _ _ c (Some l') HA) as [o1 [o1' [-> [-> H1]]]].
      pose proof H1 as [Hg [Hg' [Q1 [Q2 [Q3 [Q4 [Q5 [Q6 Q7]]]]]]]]. cbn. split; [reflexivity|].
      unfold alike, finished in *. cbn. rewrite Q1, Q2, Q3, Q4, Q5, Q6, Q7. repeat split; try reflexivity; tauto.
    + cbn. split; [reflexivity|]. unfold alike, finished in *. cbn. rewrite P1, P2, P3, P5, P6, P7. repeat split; try reflexivity; tauto.
  - unfold refuse. destruct (internal_ask_alike o o' H) as [o1 [o1' [-> [-> H1]]]].
    pose proof H1 as [Hf [Hf' [P1 [P2 [P3 [P4 [P5 [P6 P7]]]]]]]]. rewrite P1, P2, P3, P4, P5, P6, P7.
    match goal with |- context[internal_tell lib ?a ?c _ _] => match goal with |- context[internal_tell lib ?b c _ _] => lazymatch b with a => fail | _ =>
      assert (HA : alike a b) end end end.
    { unfold alike, finished in *. cbn. repeat split; try reflexivity; tauto. }
    destruct (internal_tell_alike _ _ (length (candidates o1)) (Some i) HA) as [o2 [o2' [-> [-> H2]]]]. split; [reflexivity|exact H2].
Qed.
Lemma alike_history cs : forall o o', alike o o' -> Forall prompt cs -> snd (history lib random o cs) = snd (history lib random o' cs).
Proof.
  induction cs as [|c cs IH]; intros o o' H Hp; [reflexivity|]. cbn [history]. inversion Hp as [|? ? Hp1 Hp2]; subst.
  destruct (alike_step o o' c H Hp1) as [H1 H2]. destruct (step lib random o c) as [o1 x]. destruct (step lib random o' c) as [o1' x']. cbn [fst snd] in *. subst x'.
  specialize (IH o1 o1' H2 Hp2). destruct (history lib random o1 cs), (history lib random o1' cs). cbn in *. congruence.
Qed.
End Restore.

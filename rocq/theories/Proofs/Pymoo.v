(** Lemmas about the wrappers of Pymoo. *)
From Coq Require Import Bool Arith List QArith Lia Permutation.
From Verif Require Import Model.Prelude Model.Recast Model.Pymoo Spec.Pymoo.
Import ListNotations.
Open Scope nat_scope.
Open Scope list_scope.

Section Batch.
Context {P : Type}.
Variable default : P.
Variable random : nat -> P.
Variable lib : list (list (option (list Q))) -> request (list P).
Notation step := (pb_step default random lib).
Notation history := (pb_history default random lib).

Lemma pb_history_app cs1 cs2 s : history s (cs1 ++ cs2) =
  (fst (history (fst (history s cs1)) cs2), snd (history s cs1) ++ snd (history (fst (history s cs1)) cs2)).
Proof.
  revert s. induction cs1 as [|c cs1 IH]; intros s; cbn [pb_history app fst snd].
  - apply surjective_pairing.
  - destruct (step s c) as [s1 x]. rewrite IH. destruct (history s1 cs1) as [s2 xs]. reflexivity.
Qed.

Lemma set_nobj_known k j : k <> 0 -> j = k -> set_nobj k j = Ok k.
Proof. intros N ->. unfold set_nobj. destruct (Nat.eqb_spec k 0); [easy|]. now rewrite Nat.eqb_refl. Qed.

Definition ready (k : nat) (s : pb (P := P)) : Prop := pb_nobj s = k /\ (b_thread (pb_opt s) = None -> b_asked (pb_opt s) = []).

Lemma bask_thread o g : b_thread (fst (bask lib random o g)) <> None.
Proof.
  unfold bask, internal_bask, ask_current. cbn [current_batch with_bthread].
  destruct (current_batch o) as [|x l].
  - destruct (negb _); [cbn; easy|]. destruct (next_message _ g) as [t r]. destruct r as [[pts|]|e|].
    + cbn [current_batch]. destruct (pop _) as [[[u p] rest]|]; cbn; easy.
    + destruct (error t); cbn; easy.
    + cbn; easy.
    + cbn; easy.
  - destruct (pop _) as [[[u p] rest]|]; cbn; easy.
Qed.

Lemma ready_step k s c : k <> 0 -> ready k s -> with_k_losses k c ->
  ready k (fst (step s c)) /\ pb_opt (fst (step s c)) = fst (bstep lib random (pb_opt s) (unwrapped c)) /\
  same_result (snd (step s c)) (snd (bstep lib random (pb_opt s) (unwrapped c))).
Proof.
  intros K [Rn Ra] W. destruct s as [n o]. cbn [pb_nobj pb_opt] in *. subst n. destruct c as [g|u ls g]; cbn [pb_step unwrapped bstep].
  - unfold pb_ask. cbn [pb_nobj pb_opt]. destruct (Nat.eqb_spec k 0); [easy|].
    pose proof (bask_thread o g) as T. destruct (bask lib random o g) as [o' r]. cbn in *. repeat split; [easy|constructor].
  - unfold pb_tell. cbn [pb_nobj pb_opt]. rewrite set_nobj_known by easy.
    destruct (b_thread o) as [t|] eqn:E.
    + assert (T : b_thread (fst (btell lib o u ls g)) <> None).
      { unfold btell. destruct (existsb _ _); [|cbn; congruence].
        unfold internal_btell. rewrite E. destruct (is_alive t g) as [t' al]. destruct (negb al).
        - destruct (error t'); cbn; easy.
        - destruct (dget _ _); [|cbn; easy]. destruct (negb _); [cbn; easy|]. destruct (Nat.eqb _ _); cbn; easy. }
      destruct (btell lib o u ls g) as [o' r]. cbn in *. repeat split; [easy|constructor].
    + specialize (Ra eq_refl). unfold btell. rewrite Ra. cbn. repeat split; [easy|constructor].
Qed.
Lemma ready_history k cs : k <> 0 -> forall s, ready k s -> Forall (with_k_losses k) cs ->
  pb_opt (fst (history s cs)) = fst (bhistory lib random (pb_opt s) (map unwrapped cs)) /\
  Forall2 same_result (snd (history s cs)) (snd (bhistory lib random (pb_opt s) (map unwrapped cs))).
Proof.
  intros K. induction cs as [|c cs IH]; intros s I W; [split; [easy|constructor]|].
  inversion W as [|? ? W1 W2]; subst. destruct (ready_step k s c K I W1) as (I' & E & O).
  cbn [pb_history bhistory map].
  destruct (step s c) as [s1 x]. destruct (bstep lib random (pb_opt s) (unwrapped c)) as [o1 y]. cbn [fst snd] in *. subst o1.
  destruct (IH s1 I' W2) as [H1 H2]. destruct (history s1 cs) as [s2 xs]. destruct (bhistory lib random (pb_opt s1) (map unwrapped cs)) as [o2 ys].
  cbn in *. split; [easy|now constructor].
Qed.

Definition dummies (m : nat) (asked : list nat) (n : nat) : pb (P := P) := mkpb m (mkbopt None [] [] 0 0 [] asked 0 n).
Lemma warm_asks gs : forall a i, history (dummies 0 a i) (map PAsk gs) =
  (dummies 0 (a ++ seq i (List.length gs)) (i + List.length gs), map (fun u => POAsk (Returned (u, default))) (seq i (List.length gs))).
Proof.
  induction gs as [|g gs IH]; intros a i; cbn [map List.length seq].
  - cbn. now rewrite app_nil_r, Nat.add_0_r.
  - change (history (dummies 0 a i) (PAsk g :: map PAsk gs)) with
      (let '(s2, xs) := history (dummies 0 (a ++ [i]) (S i)) (map PAsk gs) in (s2, POAsk (Returned (i, default)) :: xs)).
    rewrite IH. rewrite <- app_assoc. cbn [app]. now rewrite <- Nat.add_succ_comm.
Qed.
Definition told_of (ts : list (nat * list Q * bool)) : list pbcall := map (fun x => PTell (fst (fst x)) (snd (fst x)) (snd x)) ts.
Definition others (ts : list (nat * list Q * bool)) (a : list nat) : list nat :=
  filter (fun v => negb (existsb (Nat.eqb v) (map (fun x => fst (fst x)) ts))) a.
Lemma warm_tells k ts : k <> 0 -> forall m a n, (m = 0 \/ m = k) -> NoDup (map (fun x => fst (fst x)) ts) ->
  incl (map (fun x => fst (fst x)) ts) a -> (forall x, In x ts -> List.length (snd (fst x)) = k) ->
  history (dummies m a n) (told_of ts) =
  (dummies (match ts with [] => m | _ => k end) (others ts a) n, map (fun _ => POTell (Returned tt)) ts).
Proof.
  intros K. induction ts as [|[[u ls] g] ts IH]; intros m a n M N I L.
  - cbn. unfold others. cbn. f_equal. f_equal. clear. induction a as [|x a IH]; cbn; [easy|now rewrite <- IH].
  - cbn [map fst] in N. inversion N as [|? ? N1 N2]; subst.
    assert (Lu : List.length ls = k) by apply (L (u, ls, g) (or_introl eq_refl)).
    assert (S1 : step (dummies m a n) (PTell u ls g) = (dummies k (filter (fun v => negb (Nat.eqb u v)) a) n, POTell (Returned tt))).
    { unfold pb_step, pb_tell. cbn [pb_nobj pb_opt dummies b_thread b_asked].
      replace (set_nobj m (List.length ls)) with (Ok k : result nat).
      2:{ destruct M as [-> | ->]; [cbn; now rewrite Lu|symmetry; now apply set_nobj_known]. }
      replace (existsb (Nat.eqb u) a) with true; [easy|]. symmetry. apply existsb_exists. exists u. split; [|apply Nat.eqb_refl].
      apply I. now left. }
    change (history (dummies m a n) (told_of ((u, ls, g) :: ts))) with
      (let '(s1, x) := step (dummies m a n) (PTell u ls g) in let '(s2, xs) := history s1 (told_of ts) in (s2, x :: xs)).
    rewrite S1. rewrite IH.
    + cbn [map]. f_equal. unfold dummies. f_equal; [now destruct ts|]. f_equal. unfold others. cbn [map fst]. clear.
      induction a as [|v a IH]; cbn; [easy|]. rewrite Nat.eqb_sym. destruct (Nat.eqb v u); cbn; [easy|].
      destruct (existsb _ _); cbn; [easy|now rewrite IH].
    + now right.
    + easy.
    + intros v Iv. apply filter_In. split; [apply I; now right|]. destruct (Nat.eqb_spec u v); [subst; contradiction|easy].
    + intros x Ix. apply L. now right.
Qed.
Lemma others_nil ts a : (forall v, In v a -> In v (map (fun x => fst (fst x)) ts)) -> others ts a = [].
Proof.
  intros H. unfold others. induction a as [|v a IH]; [easy|]. cbn.
  replace (existsb _ _) with true; [apply IH; intros w I; apply H; now right|]. symmetry. apply existsb_exists.
  exists v. split; [apply H; now left|apply Nat.eqb_refl].
Qed.
Lemma enumerate_keys {A} (l : list A) i u : In u (map fst (enumerate i l)) -> i <= u.
Proof. revert i. induction l as [|x l IH]; intros i; cbn; [easy|]. intros [<-|I]; [easy|]. apply IH in I. lia. Qed.
Lemma dget_none {A} u (d : list (nat * A)) : ~ In u (map fst d) -> dget u d = None.
Proof.
  induction d as [|[v x] d IH]; cbn; [easy|]. intros N. destruct (Nat.eqb_spec u v); [subst; tauto|]. apply IH. tauto.
Qed.
Lemma pop_some {A} (l : list A) : l <> [] -> exists x r, pop l = Some (x, r).
Proof.
  induction l as [|a l IH]; [easy|]. intros _. cbn. destruct l as [|b l]; [cbn; eauto|].
  destruct IH as (x & r & ->); [easy|]. eauto.
Qed.
Lemma late_tell k a n p ps v ls g g' : k <> 0 -> lib [] = RPoint (p :: ps) -> In v a -> v < n -> List.length ls = k ->
  exists s r, history (dummies k a n) [PAsk g; PTell v ls g'] = (s, [POAsk (Returned r); POTell (Raised KeyError)]).
Proof.
  intros K Hl Iv Lv Lls. cbn [pb_history pb_step]. unfold pb_ask. cbn [pb_nobj pb_opt dummies].
  destruct (Nat.eqb_spec k 0); [easy|]. unfold bask, internal_bask. cbn [b_thread with_bthread current_batch].
  unfold can_ask. cbn [indices negb]. unfold start, advance. rewrite Hl. cbn [app next_message is_alive ended mail].
  unfold next_message. cbn [is_alive ended mail received error gone].
  unfold ask_current, with_bthread. cbn [current_batch next_uid].
  destruct (pop_some (enumerate n (p :: ps))) as ([u q] & rest & Ep); [easy|]. rewrite Ep.
  cbn [b_thread current_batch batch_losses tell_counter batch_size indices b_asked b_draws next_uid negb].
  unfold pb_tell. cbn [pb_nobj pb_opt b_thread]. rewrite set_nobj_known by easy.
  unfold btell. cbn [b_asked].
  replace (existsb (Nat.eqb v) (a ++ [u])) with true.
  2:{ symmetry. apply existsb_exists. exists v. split; [apply in_or_app; now left|apply Nat.eqb_refl]. }
  unfold internal_btell. cbn [b_thread is_alive ended negb with_bthread indices].
  match goal with |- context [dget v ?d] => replace (dget v d) with (@None nat) end; [eauto|].
  symmetry. apply dget_none. rewrite map_map. intros I. apply in_map_iff in I as (x & E & I). cbn [fst] in E.
  assert (In (snd x) (enumerate n (p :: ps))).
  { clear -I. revert I. generalize 0, (enumerate n (p :: ps)). intros j l. revert j.
    induction l as [|y l IH]; intros j; cbn; [easy|]. intros [<-|I]; [now left|right; now apply (IH (S j))]. }
  apply (in_map fst) in H. apply enumerate_keys in H. lia.
Qed.
End Batch.

Section Sequential.
Context {P : Type}.
Variable default : P.
Variable random : nat -> P.
Variable lib : list (list Q) -> request P.
Variable pt : list (list Q) -> P.
Hypothesis going : forall rs, lib rs = RPoint (pt rs).
Notation step := (ps_step default random lib).
Notation history := (ps_history default random lib).

(** nothing pending, [rs] given so far *)
Definition waiting (k i : nat) (rs : list (list Q)) (s : ps (P := P)) : Prop :=
  ps_nobj s = k /\ asked (ps_opt s) = [] /\ List.length (candidates (ps_opt s)) = i /\
  ((o_thread (ps_opt s) = None /\ rs = []) \/ o_thread (ps_opt s) = Some (mkthread rs [MPoint (pt rs)] false None false)).
Lemma length_set_loss c (l : list Q) (cs : list (P * option (list Q))) : List.length (set_loss c l cs) = List.length cs.
Proof. revert c. induction cs as [|[p x] cs IH]; intros [|c]; cbn; auto. Qed.
Lemma waiting_cycle k i rs s ls pen g : k <> 0 -> waiting k i rs s -> List.length ls = k ->
  exists s', history s [SAsk g; STell i ls pen g] = (s', [SOAsk (Returned (i, pt rs)); SOTell (Returned tt)]) /\
    waiting k (S i) (rs ++ [ls]) s'.
Proof.
  intros K (Hn & Ha & Hc & Ht) L. destruct s as [n o]. cbn [ps_nobj ps_opt] in *. subst n.
  cbn [ps_history ps_step]. unfold ps_ask. cbn [ps_nobj ps_opt]. destruct (Nat.eqb_spec k 0); [easy|].
  unfold ask, internal_ask.
  assert (T : match o_thread o with None => start lib | Some t => t end = mkthread rs [MPoint (pt rs)] false None false).
  { destruct Ht as [[-> ->]| ->]; [|easy]. unfold start, advance. now rewrite going. }
  rewrite T. unfold next_message. cbn [is_alive ended mail received error gone with_thread o_thread pickling replay candidates asked draws num_ask num_tell].
  unfold ps_tell. cbn [ps_nobj ps_opt o_thread]. rewrite set_nobj_known by easy.
  unfold tell. cbn [asked o_thread]. rewrite Ha, Hc. cbn [app existsb]. rewrite Nat.eqb_refl. cbn [orb].
  unfold internal_tell. cbn [o_thread is_alive ended negb]. unfold give. cbn [ended]. unfold advance. cbn [received mail]. rewrite going.
  eexists. split; [reflexivity|]. cbn [o_thread pickling replay candidates asked draws num_ask num_tell app].
  repeat split; cbn [ps_nobj ps_opt o_thread asked candidates].
  - cbn. now rewrite Nat.eqb_refl.
  - rewrite length_set_loss, app_length. cbn. lia.
  - right. reflexivity.
Qed.
Lemma waiting_run k ts g : k <> 0 -> forall i rs s, waiting k i rs s -> Forall (fun t => List.length (fst t) = k) ts ->
  exists s', history s (one_by_one i ts g) = (s', answers pt i rs ts) /\ waiting k (i + List.length ts) (rs ++ map fst ts) s'.
Proof.
  intros K. induction ts as [|[ls pen] ts IH]; intros i rs s W F.
  - exists s. split; [easy|]. cbn. now rewrite Nat.add_0_r, app_nil_r.
  - apply Forall_cons_iff in F as [F1 F2]. cbn [fst] in F1.
    destruct (waiting_cycle _ i rs s ls pen g K W F1) as (s1 & E & W1).
    destruct (IH (S i) _ s1 W1 F2) as (s2 & E2 & W2). exists s2. split.
    + cbn [one_by_one answers].
      cbn [ps_history] in E |- *. destruct (step s (SAsk g)) as [s0 x0]. destruct (step s0 (STell i ls pen g)) as [s0' x0'].
      injection E as -> -> ->. rewrite E2. reflexivity.
    + cbn [List.length map fst]. rewrite Nat.add_succ_r. rewrite <- app_assoc in W2. exact W2.
Qed.
Lemma waiting_new k : waiting k 0 [] (new_ps k).
Proof. repeat split. now left. Qed.
Lemma waiting_warm k ls pen g g' : k <> 0 -> List.length ls = k ->
  exists s, history (new_ps 0) [SAsk g; STell 0 ls pen g'] = (s, [SOAsk (Returned (0, default)); SOTell (Returned tt)]) /\ waiting k 1 [] s.
Proof.
  intros K L. eexists. split; [reflexivity|]. cbn. repeat split; [easy|]. now left.
Qed.
Lemma waiting_given k i rs s : waiting k i rs s -> given s = rs.
Proof. intros (_ & _ & _ & [[E ->]|E]); unfold given; now rewrite E. Qed.
Lemma waiting_refuse k i rs s g : k <> 0 -> waiting k i rs s -> snd (step s (SRefuse g)) = SORefuse (Raised RuntimeError).
Proof.
  intros K (Hn & Ha & Hc & Ht). destruct s as [n o]. cbn [ps_nobj ps_opt] in *. subst n.
  cbn [ps_step]. unfold ps_refuse. cbn [ps_nobj ps_opt]. destruct (Nat.eqb_spec k 0); [easy|]. unfold internal_ask.
  assert (T : match o_thread o with None => start lib | Some t => t end = mkthread rs [MPoint (pt rs)] false None false).
  { destruct Ht as [[-> ->]| ->]; [|easy]. unfold start, advance. now rewrite going. }
  rewrite T. reflexivity.
Qed.
Lemma ps_history_app cs1 cs2 s : history s (cs1 ++ cs2) =
  (fst (history (fst (history s cs1)) cs2), snd (history s cs1) ++ snd (history (fst (history s cs1)) cs2)).
Proof.
  revert s. induction cs1 as [|c cs1 IH]; intros s; cbn [ps_history app fst snd].
  - apply surjective_pairing.
  - destruct (step s c) as [s1 x]. rewrite IH. destruct (history s1 cs1) as [s2 xs]. reflexivity.
Qed.
End Sequential.

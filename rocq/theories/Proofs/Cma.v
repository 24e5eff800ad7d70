From Coq Require Import List Arith Lia QArith Lqa Bool Permutation Sorted.
From Verif.Model Require Import Prelude MultiValue Nsga2 Cma.
From Verif.Spec Require Import Cma.
From Verif.Proofs Require Import MultiValue.
Import ListNotations.
Open Scope nat_scope.

(** ** The k first of a sorted list *)
Section Sort.
  Variables (A : Type) (key : A -> Q).
  Let le u v := qle (key u) (key v).
  Lemma place_perm x l : Permutation (place le x l) (x :: l).
  Proof. induction l as [|y l IH]; cbn; [auto|]. destruct (le x y); [auto|]. rewrite IH. apply perm_swap. Qed.
  Lemma sort_perm l : Permutation (stable_sort le l) l.
  Proof. induction l as [|x l IH]; cbn; [auto|]. rewrite place_perm. auto. Qed.
  Lemma place_sorted x l : StronglySorted (fun u v => (key u <= key v)%Q) l -> StronglySorted (fun u v => (key u <= key v)%Q) (place le x l).
  Proof.
    induction 1 as [|y l S IH F]; cbn; [repeat constructor|]. unfold le at 1. destruct (qle (key x) (key y)) eqn:Q.
    - apply qle_iff in Q. constructor; [constructor; auto|]. constructor; [exact Q|]. eapply Forall_impl; [|exact F]. cbn. intros z Hz. lra.
    - apply qle_false in Q. constructor; [exact IH|]. rewrite (place_perm x l). constructor; [lra|exact F].
  Qed.
  Lemma sort_sorted l : StronglySorted (fun u v => (key u <= key v)%Q) (stable_sort le l).
  Proof. induction l as [|x l IH]; [constructor|]. cbn. apply place_sorted. exact IH. Qed.
  Lemma sorted_split l k : StronglySorted (fun u v => (key u <= key v)%Q) l ->
    forall p r, In p (firstn k l) -> In r (skipn k l) -> (key p <= key r)%Q.
  Proof.
    intros S. revert k. induction S as [|x l S IH F]; intros [|k] p r Hp Hr; cbn in *; try contradiction.
    destruct Hp as [<-|Hp].
    - rewrite Forall_forall in F. apply F. rewrite <- (firstn_skipn k l). apply in_or_app. right. exact Hr.
    - eauto.
  Qed.
  Lemma k_best_sort k l : k_best k key l (firstn k (stable_sort le l)).
  Proof.
    split.
    - rewrite firstn_length. rewrite (Permutation_length (sort_perm l)). reflexivity.
    - exists (skipn k (stable_sort le l)). split; [rewrite firstn_skipn; apply sort_perm|]. apply sorted_split. apply sort_sorted.
  Qed.
End Sort.

Lemma combine_fst_snd {A B} (l : list (A * B)) : combine (map fst l) (map snd l) = l.
Proof. induction l as [|[a b] l IH]; cbn; congruence. Qed.
Lemma combine_map_r {A B} (f : A -> B) (l : list A) : combine l (map f l) = map (fun x => (x, f x)) l.
Proof. induction l; cbn; congruence. Qed.

Section Cma.
  Variables (E X : Type).
  Variable popsize : E -> nat.
  Variable es_ask : E -> list X * E.
  Variable es_tell : E -> list X -> list Q -> E * option exn.
  Variable stop : E -> bool.
  Variable fresh : nat -> E.
  Variable fcmaes : bool.
  Variable pop : nat.
  Notation run := (cma_run E X popsize es_ask es_tell stop fresh fcmaes pop).
  Notation ask := (cma_ask E X es_ask stop fresh fcmaes).
  Notation tell := (cma_tell E X popsize es_tell stop fresh fcmaes pop).
  Notation get := (get_es E X stop fresh fcmaes).
  Notation step := (cma_step E X popsize es_ask es_tell stop fresh fcmaes pop).

  Lemma get_keeps s e s' : get s = (e, s') ->
    c_queue s' = c_queue s /\ c_told s' = c_told s /\ c_loss s' = c_loss s /\ c_parents s' = c_parents s.
  Proof.
    unfold get_es. destruct (c_es s) as [e0|]; [destruct (negb fcmaes && stop e0)|]; intros H; injection H as <- <-; cbn; auto.
  Qed.

  Hypothesis Hask : forall e, fst (es_ask e) <> [].
  Hypothesis Hpop : 2 <= pop.
  Hypothesis Htell : forall e xs ys, snd (es_tell e xs ys) = None \/ snd (es_tell e xs ys) = Some RuntimeError \/ snd (es_tell e xs ys) = Some AssertionError.

  (** ** One ask *)
  Lemma ask_step n s effs s' ex : c_parents s <> [] -> ask n s = (effs, s', ex) ->
    ex = None /\ c_told s' = c_told s /\ c_loss s' = c_loss s /\ c_parents s' = c_parents s /\
    exists x par, (effs = [Gave x par] /\ c_queue s = x :: c_queue s') \/
      (exists xs, effs = [Drawn xs; Gave x par] /\ c_queue s = [] /\ xs = x :: c_queue s').
  Proof.
    intros Np. unfold cma_ask. destruct (c_queue s) as [|x q] eqn:Q.
    - destruct (get s) as [e s1] eqn:G. destruct (get_keeps _ _ _ G) as (G1 & G2 & G3 & G4).
      destruct (es_ask e) as [xs e'] eqn:Ea. pose proof (Hask e) as N. rewrite Ea in N. cbn in N. cbn [c_queue].
      destruct xs as [|x q]; [contradiction|]. cbn [c_parents]. rewrite G4.
      destruct (length (c_parents s)) as [|m] eqn:L; [destruct (c_parents s); [contradiction|discriminate L]|].
      intros H. injection H as <- <- <-. cbn [c_told c_loss c_parents c_queue]. repeat split; auto.
      eexists _, _. right. eexists. split; [reflexivity|]. auto.
    - cbn [c_queue c_parents c_es c_made c_told c_loss]. rewrite Q. cbn [c_parents].
      destruct (length (c_parents s)) as [|m] eqn:L; [destruct (c_parents s); [contradiction|discriminate L]|].
      intros H. injection H as <- <- <-. cbn [c_told c_loss c_parents c_queue app]. repeat split; auto.
      eexists _, _. left. split; reflexivity.
  Qed.

  (** ** One tell *)
  Definition waiting (s : cma E X) : list (nat * X * Q) := map (fun ux => (ux, loss_of s (fst ux))) (c_told s).
  Definition tell_store (u : nat) (loss : Q) (s : cma E X) : nat -> option Q := fun v => if v =? u then Some loss else c_loss s v.
  Lemma tell_step u x l pen s effs s' ex : tell u x l pen s = (effs, s', ex) ->
    ex = None /\ c_queue s' = c_queue s /\ c_loss s' = tell_store u l s /\
    ((effs = [] /\ c_told s' = c_told s ++ [(u, x)] /\ c_parents s' = c_parents s /\
      exists e, length (c_told s') < popsize e) \/
     (c_told s' = [] /\ exists ok, let us := map fst (c_told s ++ [(u, x)]) in
      effs = [Batch us (map snd (c_told s ++ [(u, x)])) (map (loss_of s') us) ok] /\
      (exists e, popsize e <= length us) /\
      c_parents s' = if ok then map Some (firstn (pop / 2) (stable_sort (fun u v => qle (loss_of s' u) (loss_of s' v)) us)) else c_parents s)).
  Proof.
    unfold cma_tell. set (s0 := Cma _ _ _ _ _ _). destruct (get s0) as [e s1] eqn:G. destruct (get_keeps _ _ _ G) as (G1 & G2 & G3 & G4).
    unfold s0 in G1, G2, G3, G4. cbn [c_queue c_told c_loss c_parents] in G1, G2, G3, G4.
    destruct (popsize e <=? length (c_told s1)) eqn:P.
    - apply Nat.leb_le in P.
      pose proof (Htell e (map snd (c_told s1)) (map (loss_of s1) (map fst (c_told s1)))) as T.
      destruct (es_tell e (map snd (c_told s1)) (map (loss_of s1) (map fst (c_told s1)))) as [e' o]. cbn [snd] in T.
      rewrite G2 in P |- *.
      destruct T as [-> | [-> | ->]]; intros H; injection H as <- <- <-; cbn [c_queue c_told c_loss c_parents];
        (split; [reflexivity|]); (split; [exact G1|]); (split; [exact G3|]); right; (split; [reflexivity|]).
      + exists true. cbn zeta. split; [reflexivity|]. split; [exists e; rewrite map_length; exact P|reflexivity].
      + exists false. cbn zeta. split; [reflexivity|]. split; [exists e; rewrite map_length; exact P|exact G4].
      + exists false. cbn zeta. split; [reflexivity|]. split; [exists e; rewrite map_length; exact P|exact G4].
    - apply Nat.leb_gt in P. intros H. injection H as <- <- <-. split; [reflexivity|]. split; [exact G1|]. split; [exact G3|]. left.
      split; [reflexivity|]. split; [exact G2|]. split; [exact G4|]. exists e. exact P.
  Qed.

  Lemma parents_kept ev s effs s' ex : c_parents s <> [] -> step ev s = (effs, s', ex) -> c_parents s' <> [] /\ ex = None.
  Proof.
    intros N. destruct ev as [n|u x l pen]; cbn [cma_step]; intros H.
    - destruct (ask_step n s effs s' ex N H) as (-> & _ & _ & -> & _). auto.
    - destruct (tell_step _ _ _ _ _ _ _ _ H) as (-> & _ & _ & [(_ & _ & -> & _)|(_ & ok & _ & _ & ->)]); (split; [|reflexivity]); auto.
      destruct ok; [|exact N]. pose proof (k_best_sort nat (loss_of s') (pop / 2) (map fst (c_told s ++ [(u, x)]))) as (K & _).
      rewrite map_length, app_length in K. cbn [length] in K. intros Z. apply map_eq_nil in Z.
      cbn zeta in Z. rewrite Z in K. cbn [length] in K. assert (2 / 2 <= pop / 2) by (apply Nat.div_le_mono; lia). change (2 / 2) with 1 in H0. lia.
  Qed.

  Lemma run_cons ev evs s effs s' exs : run (ev :: evs) s = (effs, s', exs) ->
    exists e1 s1 x1 e2 exs2, step ev s = (e1, s1, x1) /\ run evs s1 = (e2, s', exs2) /\ effs = e1 ++ e2 /\ exs = x1 :: exs2.
  Proof.
    cbn [cma_run]. destruct (step ev s) as [[e1 s1] x1]. destruct (run evs s1) as [[e2 s2] xs2] eqn:R. intros H. injection H as <- <- <-.
    eexists _, _, _, _, _. eauto.
  Qed.

  Lemma run_noexn evs : forall s effs s' exs, c_parents s <> [] -> run evs s = (effs, s', exs) -> Forall (fun x => x = None) exs.
  Proof.
    induction evs as [|ev evs IH]; intros s effs s' exs N H; [cbn in H; injection H as <- <- <-; constructor|].
    apply run_cons in H as (e1 & s1 & x1 & e2 & exs2 & S & R & -> & ->). destruct (parents_kept _ _ _ _ _ N S) as (N1 & ->).
    constructor; eauto.
  Qed.

  (** ** Points given *)
  Lemma drawn_app a b : @drawn X (a ++ b) = drawn a ++ drawn b. Proof. apply flat_map_app. Qed.
  Lemma gave_app a b : @gave X (a ++ b) = gave a ++ gave b. Proof. apply flat_map_app. Qed.
  Lemma learnt_app a b : @learnt X (a ++ b) = learnt a ++ learnt b. Proof. apply flat_map_app. Qed.

  Lemma run_given evs : forall s effs s' exs, c_parents s <> [] -> run evs s = (effs, s', exs) ->
    c_queue s ++ drawn effs = gave effs ++ c_queue s' /\
    (forall l1 xs l2, effs = l1 ++ Drawn xs :: l2 -> c_queue s ++ drawn l1 = gave l1) /\
    length (gave effs) = length (filter (fun ev => match ev with CAsk _ => true | _ => false end) evs).
  Proof.
    induction evs as [|ev evs IH]; intros s effs s' exs N H.
    - cbn in H. injection H as <- <- <-. cbn. split; [apply app_nil_r|]. split; [|reflexivity]. intros [|] xs l2 H; discriminate H.
    - apply run_cons in H as (e1 & s1 & x1 & e2 & exs2 & S & R & -> & ->). destruct (parents_kept _ _ _ _ _ N S) as (N1 & ->).
      destruct (IH _ _ _ _ N1 R) as (A & B & C). destruct ev as [n|u x l pen]; cbn [cma_step] in S.
      + destruct (ask_step n s e1 s1 None N S) as (_ & _ & _ & _ & x & par & [(-> & Q)|(xs & -> & Q & ->)]).
        * rewrite Q. cbn [app drawn gave flat_map filter length]. fold (@drawn X e2) (@gave X e2). rewrite A, C. split; [reflexivity|]. split; [|reflexivity].
          intros l1 ys l2 Hl. destruct l1 as [|h l1]; [discriminate Hl|]. cbn [app] in Hl. injection Hl as <- Hl.
          cbn [app drawn gave flat_map]. fold (@drawn X l1) (@gave X l1). rewrite <- (B _ _ _ Hl). reflexivity.
        * rewrite Q. cbn [app drawn gave flat_map filter length]. fold (@drawn X e2) (@gave X e2). rewrite A, C. split; [reflexivity|]. split; [|reflexivity].
          intros l1 ys l2 Hl. destruct l1 as [|h l1]; [reflexivity|]. cbn [app] in Hl. injection Hl as <- Hl.
          destruct l1 as [|h l1]; [discriminate Hl|]. cbn [app] in Hl. injection Hl as <- Hl.
          cbn [app drawn gave flat_map]. fold (@drawn X l1) (@gave X l1). rewrite <- (B _ _ _ Hl). reflexivity.
      + destruct (tell_step _ _ _ _ _ _ _ _ S) as (_ & Q & _ & D). rewrite <- Q. cbn [filter].
        assert (K2 : drawn e1 = [] /\ gave e1 = [] /\ (forall xs, ~ In (Drawn xs) e1)).
        { destruct D as [(-> & _)|(_ & ok & -> & _)]; cbn; repeat split; auto; intros xs [|[]]; discriminate. }
        destruct K2 as (Kd' & Kg' & Kn'). rewrite drawn_app, gave_app, Kd', Kg'. cbn [app]. split; [exact A|]. split; [|exact C].
        intros l1 xs l2 Hl. 
        assert (exists l1', l1 = e1 ++ l1' /\ e2 = l1' ++ Drawn xs :: l2) as (l1' & -> & Hl').
        { clear - Hl Kn'. revert l1 Hl Kn'. induction e1 as [|h e1 IH]; intros l1 Hl Kn'; [exists l1; auto|].
          destruct l1 as [|h' l1]; cbn [app] in Hl.
          - injection Hl as -> _. exfalso. apply (Kn' xs). left. reflexivity.
          - injection Hl as -> Hl. destruct (IH l1 Hl) as (l1' & -> & Hl'); [intros ys Hy; apply (Kn' ys); right; exact Hy|]. exists l1'. auto. }
        rewrite drawn_app, gave_app, Kd', Kg'. cbn [app]. eauto.
  Qed.

  (** ** Points told *)
  Lemma learnt_batch (l : list (nat * X)) (f : nat -> Q) ok : learnt [Batch (map fst l) (map snd l) (map f (map fst l)) ok] = map (fun ux => (ux, f (fst ux))) l.
  Proof. cbn [learnt flat_map]. rewrite app_nil_r, combine_fst_snd, map_map. rewrite <- combine_map_r. reflexivity. Qed.
  Lemma told_cons u x l p evs : @told X (CTell u x l p :: evs) = (u, x, l) :: told evs. Proof. reflexivity. Qed.
  Lemma told_ask n evs : @told X (CAsk n :: evs) = told evs. Proof. reflexivity. Qed.

  Lemma run_points evs : forall s effs s' exs, c_parents s <> [] -> run evs s = (effs, s', exs) ->
    map fst (learnt effs) ++ c_told s' = c_told s ++ map fst (told evs).
  Proof.
    induction evs as [|ev evs IH]; intros s effs s' exs N H.
    - cbn in H. injection H as <- <- <-. cbn. rewrite app_nil_r. reflexivity.
    - apply run_cons in H as (e1 & s1 & x1 & e2 & exs2 & S & R & -> & ->). destruct (parents_kept _ _ _ _ _ N S) as (N1 & ->).
      specialize (IH _ _ _ _ N1 R). rewrite learnt_app, map_app, <- app_assoc, IH. destruct ev as [n|u x l pen]; cbn [cma_step] in S.
      + destruct (ask_step n s e1 s1 None N S) as (_ & T & _ & _ & x & par & [(-> & Q)|(xs & -> & Q & ->)]); cbn [learnt flat_map map app]; rewrite T; reflexivity.
      + rewrite told_cons. cbn [map fst]. destruct (tell_step _ _ _ _ _ _ _ _ S) as (_ & _ & _ & [(-> & T & _)|(T & ok & -> & _)]).
        * cbn [learnt flat_map map app]. rewrite T, <- app_assoc. reflexivity.
        * rewrite T, learnt_batch, map_map. cbn [fst app]. rewrite map_id, <- app_assoc. reflexivity.
  Qed.

  Lemma waiting_ext s s' : c_told s' = c_told s -> (forall u, In u (map fst (c_told s)) -> c_loss s' u = c_loss s u) -> waiting s' = waiting s.
  Proof.
    intros T L. unfold waiting. rewrite T. apply map_ext_in. intros [u x] Hin. unfold loss_of. cbn [fst].
    rewrite L; [reflexivity|]. apply in_map_iff. exists (u, x). auto.
  Qed.
  Lemma run_learnt evs : forall s effs s' exs, c_parents s <> [] -> run evs s = (effs, s', exs) ->
    NoDup (map fst (c_told s) ++ told_uids evs) -> learnt effs ++ waiting s' = waiting s ++ told evs.
  Proof.
    induction evs as [|ev evs IH]; intros s effs s' exs N H D.
    - cbn in H. injection H as <- <- <-. cbn. rewrite app_nil_r. reflexivity.
    - apply run_cons in H as (e1 & s1 & x1 & e2 & exs2 & S & R & -> & ->). destruct (parents_kept _ _ _ _ _ N S) as (N1 & ->).
      specialize (IH _ _ _ _ N1 R). rewrite learnt_app, <- app_assoc. destruct ev as [n|u x l pen]; cbn [cma_step] in S.
      + destruct (ask_step n s e1 s1 None N S) as (_ & T & L & _ & x & par & K).
        assert (W : waiting s1 = waiting s) by (apply waiting_ext; [exact T|intros; rewrite L; reflexivity]).
        rewrite IH, W by (rewrite T; exact D).
        destruct K as [(-> & Q)|(xs & -> & Q & ->)]; cbn [learnt flat_map app]; reflexivity.
      + unfold told_uids in D. rewrite told_cons in D |- *. cbn [map fst] in D.
        assert (Nu : ~ In u (map fst (c_told s))) by (apply NoDup_remove_2 in D; intros Z; apply D; apply in_or_app; left; exact Z).
        destruct (tell_step _ _ _ _ _ _ _ _ S) as (_ & _ & L & K).
        assert (W : map (fun ux => (ux, loss_of s1 (fst ux))) (c_told s ++ [(u, x)]) = waiting s ++ [(u, x, l)]).
        { rewrite map_app. cbn [map fst]. f_equal.
          - apply map_ext_in. intros [v y] Hin. unfold loss_of. rewrite L. unfold tell_store. cbn [fst].
            destruct (Nat.eqb_spec v u) as [->|]; [|reflexivity]. exfalso. apply Nu. apply in_map_iff. exists (u, y). auto.
          - unfold loss_of. rewrite L. unfold tell_store. rewrite Nat.eqb_refl. reflexivity. }
        destruct K as [(-> & T & _)|(T & ok & -> & _)].
        * cbn [learnt flat_map app]. rewrite IH.
          -- unfold waiting at 1. rewrite T, W, <- app_assoc. reflexivity.
          -- rewrite T, map_app. cbn [map fst]. rewrite <- app_assoc. exact D.
        * rewrite learnt_batch, W, <- app_assoc. cbn [app]. rewrite IH.
          -- unfold waiting at 2. rewrite T. reflexivity.
          -- rewrite T. cbn [map app]. apply NoDup_remove_1 in D. unfold told_uids.
             revert D. generalize (map fst (c_told s)). induction l0 as [|z l0 IHl]; cbn; [auto|]. intros H. inversion H; auto.
  Qed.

  (** ** Sizes of the batches *)
  Lemma run_sizes p evs : (forall e, popsize e = p) -> 1 <= p -> forall s effs s' exs, c_parents s <> [] -> run evs s = (effs, s', exs) ->
    length (c_told s) < p -> length (c_told s') < p /\ forall us xs ys ok, In (Batch us xs ys ok) effs -> length us = p /\ length xs = p /\ length ys = p.
  Proof.
    intros Hp P1. induction evs as [|ev evs IH]; intros s effs s' exs N H Lt.
    - cbn in H. injection H as <- <- <-. split; [exact Lt|]. intros ? ? ? ? [].
    - apply run_cons in H as (e1 & s1 & x1 & e2 & exs2 & S & R & -> & ->). destruct (parents_kept _ _ _ _ _ N S) as (N1 & ->).
      specialize (IH _ _ _ _ N1 R). destruct ev as [n|u x l pen]; cbn [cma_step] in S.
      + destruct (ask_step n s e1 s1 None N S) as (_ & T & L & _ & x & par & K). rewrite T in IH. destruct (IH Lt) as (A & B).
        split; [exact A|]. intros us xs ys ok Hin. apply in_app_iff in Hin as [Hin|Hin]; [|eauto].
        destruct K as [(-> & _)|(xs' & -> & _)]; cbn in Hin; intuition discriminate.
      + destruct (tell_step _ _ _ _ _ _ _ _ S) as (_ & _ & _ & [(-> & T & _ & e & Le)|(T & ok & -> & (e & Le) & _)]).
        * rewrite Hp in Le. destruct (IH Le) as (A & B). split; [exact A|]. intros us xs ys ok [Hin|Hin]%in_app_iff; [destruct Hin|eauto].
        * rewrite Hp, map_length, app_length in Le. cbn [length] in Le. destruct IH as (A & B); [rewrite T; cbn; lia|]. split; [exact A|].
          intros us xs ys ok' [Hin|Hin]%in_app_iff; [|eauto]. destruct Hin as [Hin|[]]. injection Hin as <- <- <- _.
          rewrite !map_length, !app_length. cbn [length]. lia.
  Qed.

  (** ** Parents *)
  Definition accepted (e : effect X) : Prop := match e with Batch _ _ _ ok => ok = true | _ => False end.
  Lemma run_parents evs : forall s effs s' exs, c_parents s <> [] -> run evs s = (effs, s', exs) ->
    (c_parents s' = c_parents s /\ Forall (fun e => ~ accepted e) effs) \/
    exists l1 us xs ys l2 best loss, effs = l1 ++ Batch us xs ys true :: l2 /\ Forall (fun e => ~ accepted e) l2 /\
      c_parents s' = map Some best /\ ys = map loss us /\ k_best (pop / 2) loss us best.
  Proof.
    induction evs as [|ev evs IH]; intros s effs s' exs N H.
    - cbn in H. injection H as <- <- <-. left. auto.
    - apply run_cons in H as (e1 & s1 & x1 & e2 & exs2 & S & R & -> & ->). destruct (parents_kept _ _ _ _ _ N S) as (N1 & ->).
      destruct (IH _ _ _ _ N1 R) as [(P & F)|(l1 & us & xs & ys & l2 & best & loss & -> & F & P & Y & K)].
      2:{ right. exists (e1 ++ l1), us, xs, ys, l2, best, loss. rewrite <- app_assoc. auto. }
      destruct ev as [n|u x l pen]; cbn [cma_step] in S.
      + destruct (ask_step n s e1 s1 None N S) as (_ & T & L & P1 & x & par & K). left. split; [congruence|]. apply Forall_app. split; [|exact F].
        destruct K as [(-> & _)|(xs' & -> & _)]; repeat constructor; cbn; auto.
      + destruct (tell_step _ _ _ _ _ _ _ _ S) as (_ & _ & _ & [(-> & T & P1 & _)|(T & ok & -> & _ & P1)]).
        * left. split; [congruence|exact F].
        * destruct ok.
          -- right. eexists [], _, _, _, e2, _, (loss_of s1). split; [reflexivity|]. split; [exact F|]. split; [rewrite P, P1; reflexivity|].
             split; [reflexivity|]. apply k_best_sort.
          -- left. split; [congruence|]. apply Forall_app. split; [|exact F]. constructor; [cbn; discriminate|constructor].
  Qed.
End Cma.

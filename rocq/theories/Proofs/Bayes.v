(** Proofs about the exchanges with the packages of Bayesian optimization *)
From Coq Require Import List Arith ZArith QArith Qabs Bool Lia Lqa Sorting.Sorted.
From Verif.Model Require Import Prelude MultiValue Layers Nsga2 Bayes.
From Verif.Spec Require Import Bayes.
From Verif.Proofs Require Import MultiValue.
From Verif.Spec Require Tables.
From Verif.Proofs Require Tables.
Import ListNotations.
Open Scope nat_scope.

(** * Keys *)
Fixpoint fixed (w i : nat) : str := match w with 0 => [] | S w => fixed w (i / 10) ++ [48 + i mod 10] end.
Lemma fixed_length : forall w i, length (fixed w i) = w.
Proof. induction w as [|w IH]; intros i; [reflexivity|]. cbn [fixed]. rewrite app_length, IH. cbn. lia. Qed.
Lemma fixed_zero : forall w, fixed w 0 = repeat 48 w.
Proof.
  induction w as [|w IH]; [reflexivity|]. cbn [fixed]. change (0 / 10) with 0. change (0 mod 10) with 0. rewrite IH. clear IH.
  induction w as [|w IH]; [reflexivity|]. cbn [repeat app]. f_equal. exact IH.
Qed.
Lemma digits_fixed : forall w fuel i, i < fuel -> i < 10 ^ w -> 1 <= w ->
  length (digits fuel i) <= w /\ repeat 48 (w - length (digits fuel i)) ++ digits fuel i = fixed w i.
Proof.
  induction w as [|w IH]; intros fuel i Hf Hi Hw; [lia|]. destruct fuel as [|fuel]; [lia|]. cbn [digits].
  pose proof (Nat.div_mod i 10 ltac:(lia)) as DM. pose proof (Nat.mod_upper_bound i 10 ltac:(lia)) as MB.
  destruct (Nat.ltb_spec i 10) as [L|L].
  - cbn [length]. split; [lia|]. cbn [fixed]. rewrite Nat.div_small, Nat.mod_small by lia. rewrite fixed_zero. f_equal. f_equal. lia.
  - destruct w as [|w']; [change (10 ^ 1) with 10 in Hi; lia|]. remember (S w') as w.
    destruct (IH fuel (i / 10)) as (H1 & H2); [lia|rewrite Nat.pow_succ_r' in Hi; apply Nat.div_lt_upper_bound; lia|lia|].
    rewrite app_length. cbn [length]. split; [lia|]. cbn [fixed]. rewrite <- H2, <- app_assoc. f_equal. f_equal. lia.
Qed.
Lemma digits_bound : forall fuel i, i < fuel -> i < 10 ^ length (digits fuel i) /\ 1 <= length (digits fuel i).
Proof.
  induction fuel as [|fuel IH]; intros i H; [lia|]. cbn [digits]. destruct (Nat.ltb_spec i 10) as [L|L]; [cbn; lia|].
  pose proof (Nat.div_mod i 10 ltac:(lia)) as DM. pose proof (Nat.mod_upper_bound i 10 ltac:(lia)) as MB.
  destruct (IH (i / 10)) as (A & B); [lia|]. rewrite app_length. cbn [length]. rewrite Nat.add_1_r, Nat.pow_succ_r'. lia.
Qed.
Lemma key_fixed : forall dim i, i < dim -> key dim i = 120 :: fixed (length (to_str dim)) i.
Proof.
  intros dim i H. unfold key, zfill. f_equal. unfold to_str. destruct (digits_bound (S dim) dim ltac:(lia)) as (A & B).
  apply digits_fixed; lia.
Qed.
Lemma before_app : forall a b, before a b -> length a = length b -> forall x y, before (a ++ [x]) (b ++ [y]).
Proof.
  intros a b H. induction H as [y b|x y a b H|x a b H IH]; intros L u v; cbn in *; [discriminate L|now constructor|].
  apply before_tail, IH. now injection L.
Qed.
Lemma before_snoc : forall a x y, x < y -> before (a ++ [x]) (a ++ [y]).
Proof. induction a as [|z a IH]; intros x y H; cbn; [now apply before_head|apply before_tail; auto]. Qed.
Lemma fixed_before : forall w i j, i < j -> j < 10 ^ w -> before (fixed w i) (fixed w j).
Proof.
  induction w as [|w IH]; intros i j H K; [cbn in K; lia|]. rewrite Nat.pow_succ_r' in K. cbn [fixed].
  pose proof (Nat.div_mod i 10 ltac:(lia)) as DI. pose proof (Nat.mod_upper_bound i 10 ltac:(lia)) as MI.
  pose proof (Nat.div_mod j 10 ltac:(lia)) as DJ. pose proof (Nat.mod_upper_bound j 10 ltac:(lia)) as MJ.
  destruct (Nat.eq_dec (i / 10) (j / 10)) as [E|N].
  - rewrite E. apply before_snoc. lia.
  - apply before_app; [|now rewrite !fixed_length]. apply IH; [lia|]. apply Nat.div_lt_upper_bound; lia.
Qed.
Lemma key_before : forall dim i j, i < j -> j < dim -> before (key dim i) (key dim j).
Proof.
  intros dim i j H K. rewrite !key_fixed by lia. apply before_tail. apply fixed_before; [exact H|].
  unfold to_str. destruct (digits_bound (S dim) dim ltac:(lia)) as (A & _). lia.
Qed.
Lemma before_le : forall a b, before a b -> str_le a b = true /\ str_eqb a b = false /\ str_eqb b a = false.
Proof.
  intros a b H. induction H as [y b|x y a b H|x a b H IH]; cbn.
  - auto.
  - destruct (Nat.eqb_spec x y) as [E|E]; [lia|]. destruct (Nat.eqb_spec y x) as [F|F]; [lia|]. split; [now apply Nat.ltb_lt|auto].
  - rewrite Nat.eqb_refl. exact IH.
Qed.
Lemma sort_id : forall {A} (le : A -> A -> bool) l, StronglySorted (fun a b => le a b = true) l -> stable_sort le l = l.
Proof.
  intros A le l H. induction H as [|x l H IH K]; [reflexivity|]. cbn. fold (stable_sort le l). rewrite IH. destruct l as [|y l]; [reflexivity|].
  cbn. inversion K as [|? ? E]. now rewrite E.
Qed.
Lemma seq_sorted : forall dim n s, s + n <= dim -> StronglySorted (fun a b => str_le a b = true) (map (key dim) (seq s n)).
Proof.
  intros dim. induction n as [|n IH]; intros s H; cbn; constructor; [apply IH; lia|]. apply Forall_forall. intros k I.
  apply in_map_iff in I as (j & <- & I). apply in_seq in I. apply before_le, key_before; lia.
Qed.
Lemma keys_eq : forall dim, keys dim = map (key dim) (seq 0 dim).
Proof. intros dim. apply sort_id, seq_sorted. lia. Qed.
Lemma str_eqb_refl : forall a, str_eqb a a = true.
Proof. induction a as [|x a IH]; [reflexivity|]. cbn. now rewrite Nat.eqb_refl. Qed.
Lemma lookup_key : forall dim n s i xs, s + n <= dim -> length xs = n -> s <= i < s + n ->
  lookup (key dim i) (combine (map (key dim) (seq s n)) xs) = nth_error xs (i - s).
Proof.
  intros dim. induction n as [|n IH]; intros s i xs H L Hi; [lia|]. destruct xs as [|x xs]; [discriminate L|]. cbn [seq map combine]. unfold lookup. cbn [find fst].
  destruct (Nat.eq_dec i s) as [->|N].
  - rewrite str_eqb_refl, Nat.sub_diag. reflexivity.
  - destruct (before_le _ _ (key_before dim s i ltac:(lia) ltac:(lia))) as (_ & E & _). rewrite E.
    fold (lookup (key dim i) (combine (map (key dim) (seq (S s) n)) xs)). rewrite IH by (cbn in L; lia). replace (i - s) with (S (i - S s)) by lia. reflexivity.
Qed.
Lemma reads_spec : forall dim x n i, length x = dim -> i + n = dim ->
  reads dim i n (combine (keys dim) x) = Ok (skipn i x).
Proof.
  intros dim x. induction n as [|n IH]; intros i L H; cbn [reads].
  - rewrite skipn_all2 by lia. reflexivity.
  - rewrite keys_eq, lookup_key by lia. rewrite Nat.sub_0_r. rewrite <- keys_eq. destruct (nth_error x i) as [v|] eqn:E.
    + rewrite IH by lia. cbn. f_equal. clear - E. revert i E. induction x as [|y x IHx]; intros [|i] E; try discriminate E; [injection E as ->; reflexivity|]. cbn. now apply IHx.
    + apply nth_error_None in E. lia.
Qed.
Lemma keys_length : forall dim, length (keys dim) = dim.
Proof. intros dim. now rewrite keys_eq, map_length, seq_length. Qed.
Lemma reads_ok : forall dim x, length x = dim -> reads dim 0 (length (combine (keys dim) x)) (combine (keys dim) x) = Ok x.
Proof. intros dim x L. rewrite combine_length, keys_length, L, Nat.min_id. now rewrite reads_spec by lia. Qed.
Lemma reads_ok' : forall dim x, length x = dim -> reads dim 0 (length x) (combine (keys dim) x) = Ok x.
Proof. intros dim x L. rewrite L. now rewrite reads_spec by lia. Qed.

(** * Points *)
Lemma same_refl : forall x, same_point x x = true.
Proof. intros x. unfold same_point. rewrite Nat.eqb_refl. cbn. induction x as [|a x IH]; [reflexivity|]. cbn. now rewrite Tables.Qeqb_refl. Qed.
Lemma same_cons : forall a x b y, same_point (a :: x) (b :: y) = Qeq_bool a b && same_point x y.
Proof. intros a x b y. unfold same_point. cbn. destruct (length x =? length y); [reflexivity|]. cbn. now rewrite andb_false_r. Qed.
Lemma same_sym : forall x y, same_point x y = same_point y x.
Proof.
  induction x as [|a x IH]; intros [|b y]; try reflexivity. rewrite !same_cons, IH. f_equal. apply Tables.Qeqb_sym.
Qed.
Lemma same_trans : forall x y z, same_point x y = true -> same_point y z = true -> same_point x z = true.
Proof.
  induction x as [|a x IH]; intros [|b y] [|c z] H K; try reflexivity; try discriminate H; try discriminate K.
  rewrite same_cons in *. apply andb_true_iff in H as (H1 & H2). apply andb_true_iff in K as (K1 & K2).
  rewrite (Tables.Qeqb_trans _ _ _ H1 K1). cbn. eauto.
Qed.
Lemma no_gap : forall a, qlt (Qabs (a - a)) (15 # 10000000) = true.
Proof. intros a. apply qlt_iff. assert (E : (a - a == 0)%Q) by ring. rewrite E. reflexivity. Qed.
Lemma almost_refl : forall x, almost_equal x x = true.
Proof.
  intros x. unfold almost_equal. rewrite Nat.eqb_refl. cbn [andb]. induction x as [|a x IH]; [reflexivity|]. cbn [combine forallb fst snd]. now rewrite no_gap.
Qed.
Definition samep (p q : point * Q) : bool := same_point (fst p) (fst q).
Lemma first_firsts : forall l, first_losses l = Spec.Tables.firsts samep l.
Proof. induction l as [|p l IH]; [reflexivity|]. cbn. now rewrite IH. Qed.
Lemma first_snoc : forall l p, first_losses (l ++ [p]) = if existsb (fun q => same_point (fst q) (fst p)) (first_losses l) then first_losses l else first_losses l ++ [p].
Proof.
  intros l p. rewrite !first_firsts. rewrite Tables.firsts_snoc. rewrite <- (Tables.firsts_exists samep); [reflexivity|].
  intros x y z. unfold samep. apply same_trans.
Qed.

(** * BO *)
Section BO.
  Variable dim : nat.
  Variable budget init_budget : option nat.
  Variable middle : bool.
  Variable sample : nat -> point.
  Variable suggest : list (point * Q) -> point.
  Hypothesis suggest_length : forall l, length (suggest l) = dim.
  Let n0 : option nat := match init_budget with Some n => Some n | None => option_map Nat.sqrt budget end.
  Notation brun := (brun dim budget init_budget middle sample suggest).
  Notation bstep := (bstep dim budget init_budget middle sample suggest).
  Notation get_bo := (get_bo dim budget init_budget middle sample).
  Notation design := (design dim middle sample).

  Variable n : nat.
  Hypothesis has_n : n0 = Some n.
  (** the invariant: what is known, what is left of the design *)
  Definition good (es : list bevent) (s : fstate) : Prop :=
    f_registered s = [] /\ (f_created s = false -> f_space s = [] /\ es = []) /\ f_space s = known es /\
    (f_created s = true -> f_queue s = skipn (asks es) (design n)).
  Lemma get_bo_good : forall s, get_bo s = if f_created s then (s, Ok tt) else (FState (f_registered s) [] (design n) true, Ok tt).
  Proof.
    intros s. unfold Bayes.get_bo. destruct (f_created s); [reflexivity|]. subst n0. destruct init_budget as [k|]; [now injection has_n as ->|].
    destruct budget as [b|]; [|discriminate has_n]. cbn in has_n. injection has_n as ->. reflexivity.
  Qed.
  Lemma tells_snoc : forall es y l, tells (es ++ [BTell y l]) = tells es ++ [(y, l)].
  Proof. intros. unfold tells. now rewrite flat_map_app. Qed.
  Lemma tells_ask : forall es, tells (es ++ [BAsk]) = tells es.
  Proof. intros. unfold tells. rewrite flat_map_app. cbn. apply app_nil_r. Qed.
  Lemma asks_snoc : forall es, asks (es ++ [BAsk]) = S (asks es).
  Proof. intros. unfold asks. rewrite filter_app, app_length. cbn. lia. Qed.
  Lemma asks_tell : forall es y l, asks (es ++ [BTell y l]) = asks es.
  Proof. intros. unfold asks. rewrite filter_app, app_length. cbn. lia. Qed.
  Lemma exists_map : forall l y, existsb (fun p => same_point (fst p) y) (map (fun p => (fst p, (- snd p)%Q)) l) = existsb (fun q => same_point (fst q) y) l.
  Proof. induction l as [|p l IH]; intros y; [reflexivity|]. cbn. now rewrite IH. Qed.
  Lemma get_pre : forall es s r, good es s -> get_bo (FState r (f_space s) (f_queue s) (f_created s)) = (FState r (known es) (skipn (asks es) (design n)) true, Ok tt).
  Proof.
    intros es [r0 sp q cr] r (_ & C & K & D). rewrite get_bo_good. cbn [f_registered f_space f_queue f_created] in *. subst sp. destruct cr.
    - now rewrite (D eq_refl).
    - destruct (C eq_refl) as (K & ->). reflexivity.
  Qed.
  Lemma ask_good : forall es s, good es s ->
    exists s', bstep BAsk s = (s', BGiven (match nth_error (design n) (asks es) with Some x => x | None => suggest (known es) end)) /\ good (es ++ [BAsk]) s'.
  Proof.
    intros es s G. assert (E := get_pre es s (f_registered s) G). replace (FState (f_registered s) (f_space s) (f_queue s) (f_created s)) with s in E by (now destruct s).
    cbn [Bayes.bstep]. unfold bo_ask. rewrite E. destruct G as (-> & _). cbn [f_queue f_registered f_space f_created]. clear E.
    remember (skipn (asks es) (design n)) as q eqn:Eq.
    assert (Good : forall q', q' = skipn (S (asks es)) (design n) -> good (es ++ [BAsk]) (FState [] (known es) q' true)).
    { intros q' E. split; [reflexivity|]. split; [discriminate|]. split; [cbn; unfold known; now rewrite tells_ask|]. intros _. cbn. now rewrite asks_snoc. }
    destruct q as [|x q].
    - unfold suggested. cbn [f_space]. rewrite reads_ok' by apply suggest_length.
      assert (N : nth_error (design n) (asks es) = None).
      { apply nth_error_None. assert (L := f_equal (@length _) Eq). rewrite skipn_length in L. cbn in L. lia. }
      rewrite N. eexists. split; [reflexivity|]. apply Good. symmetry. apply skipn_all2. apply nth_error_None in N. lia.
    - assert (E : nth_error (design n) (asks es) = Some x /\ q = skipn (S (asks es)) (design n)).
      { clear - Eq. revert Eq. generalize (asks es) as k. induction (design n) as [|y l IH]; intros [|k] Eq; cbn in Eq; try discriminate Eq.
        - injection Eq as -> ->. now split.
        - cbn [nth_error]. destruct (IH k Eq) as (A & B). split; [exact A|exact B]. }
      destruct E as (-> & ->). eexists. split; [reflexivity|]. now apply Good.
  Qed.
  Lemma tell_good : forall es s (y : point) l, good es s -> length y = dim -> exists s', bstep (BTell y l) s = (s', BDone) /\ good (es ++ [BTell y l]) s'.
  Proof.
    intros es s y l G L. assert (E := get_pre es s [(y, (- l)%Q)] G). destruct G as (R & _). cbn [Bayes.bstep]. unfold bo_tell, register. rewrite R. rewrite E. clear E R.
    unfold probe_now. rewrite L, Nat.eqb_refl. cbn [negb f_space].
    unfold known at 1. rewrite exists_map.
    assert (Good : forall sp, sp = known (es ++ [BTell y l]) -> good (es ++ [BTell y l]) (FState [] sp (skipn (asks es) (design n)) true)).
    { intros sp E. split; [reflexivity|]. split; [discriminate|]. split; [exact E|]. intros _. now rewrite asks_tell. }
    assert (F := first_snoc (tells es) (y, l)). cbn [fst] in F.
    destruct (existsb (fun q => same_point (fst q) y) (first_losses (tells es))).
    - eexists. split; [reflexivity|]. apply Good. cbn. unfold known. now rewrite tells_snoc, F.
    - unfold fake_call. cbn [f_registered]. rewrite reads_ok by exact L. rewrite almost_refl. cbn [f_space f_queue f_created f_registered].
      eexists. split; [reflexivity|]. apply Good. unfold known. rewrite tells_snoc, F, map_app. reflexivity.
  Qed.
  Definition right_size (e : bevent) : Prop := match e with BTell y _ => length y = dim | BAsk => True end.
  Lemma run_good : forall es2 es1 s, good es1 s -> Forall right_size es2 ->
    let (s', os) := brun es2 s in good (es1 ++ es2) s' /\ Forall (fun o => forall e, o <> BRaised e) os.
  Proof.
    induction es2 as [|e es2 IH]; intros es1 s G F; cbn [Bayes.brun]; [rewrite app_nil_r; auto|]. inversion F as [|? ? F1 F2]; subst.
    assert (St : exists s' o, bstep e s = (s', o) /\ (forall e, o <> BRaised e) /\ good (es1 ++ [e]) s').
    { destruct e as [|y l].
      - destruct (ask_good es1 s G) as (s' & E & G'). do 2 eexists. split; [exact E|]. split; [discriminate|exact G'].
      - destruct (tell_good es1 s y l G F1) as (s' & E & G'). do 2 eexists. split; [exact E|]. split; [discriminate|exact G']. }
    destruct St as (s' & o & -> & N & G'). specialize (IH _ s' G' F2). destruct (brun es2 s') as (s2 & os). rewrite <- app_assoc in IH. cbn in IH.
    destruct IH as (A & B). auto.
  Qed.
  Lemma start_good : good [] fstart.
  Proof. repeat split; try discriminate. Qed.
  Lemma run_start : forall es, Forall right_size es -> let (s, os) := brun es fstart in good es s /\ Forall (fun o => forall e, o <> BRaised e) os.
  Proof. intros es F. exact (run_good es [] fstart start_good F). Qed.
End BO.
Lemma best_of_spec : forall l q, exists l1 l2 b, fold_left (fun b p => match b with None => Some p | Some q => if qlt (snd q) (snd p) then Some p else b end) l (Some q) = Some b /\
  q :: l = l1 ++ b :: l2 /\ (forall p : point * Q, In p l1 -> (snd p < snd b)%Q) /\ (forall p, In p l2 -> (snd p <= snd b)%Q).
Proof.
  induction l as [|p l IH]; intros q; [exists [], [], q; repeat split; intros x []|]. cbn [fold_left]. destruct (qlt (snd q) (snd p)) eqn:E.
  - destruct (IH p) as (l1 & l2 & b & F & D & H1 & H2). exists (q :: l1), l2, b. rewrite D. split; [exact F|]. split; [reflexivity|]. split; [|exact H2].
    apply qlt_iff in E. intros x [<-|I]; [|auto]. destruct l1 as [|y l1]; cbn in D; injection D as -> D; [exact E|]. apply Qlt_trans with (snd y); [exact E|]. apply H1. now left.
  - apply qlt_false in E. destruct (IH q) as (l1 & l2 & b & F & D & H1 & H2). destruct l1 as [|y l1]; cbn in D; injection D as Eq D.
    + subst b l2. exists [], (p :: l), q. split; [exact F|]. split; [reflexivity|]. split; [intros x []|]. intros x [<-|I]; auto.
    + subst y. exists (q :: p :: l1), l2, b. split; [exact F|]. rewrite D. split; [reflexivity|]. split; [|exact H2].
      intros x [<-|[<-|I]]; [apply H1; now left| |apply H1; now right]. apply Qle_lt_trans with (snd q); [exact E|]. apply H1. now left.
Qed.

(** * BayesOptim *)
Section BayesOptim.
  Variable P S : Type.
  Variable alg_ask : S -> list P * S.
  Variable alg_tell : list P -> list Q -> S -> S.
  Notation run := (run P S alg_ask alg_tell).
  Notation step := (step P S alg_ask alg_tell).
  Lemma run_snoc : forall es e s, run (es ++ [e]) s = let '(s1, cs, os) := run es s in let '(s2, c, o) := step e s1 in (s2, cs ++ c, os ++ [o]).
  Proof.
    induction es as [|e' es IH]; intros e s; cbn [app Bayes.run].
    - destruct (step e s) as ((s2 & c) & o). cbn. now rewrite app_nil_r.
    - destruct (step e' s) as ((s1 & c1) & o1). rewrite IH. destruct (run es s1) as ((s2 & cs) & os). destruct (step e s2) as ((s3 & c3) & o3).
      now rewrite app_assoc.
  Qed.
  Lemma last_spec : forall (l : list P), match last_and_rest P l with Some (x, r) => l = r ++ [x] | None => l = [] end.
  Proof.
    intros l. unfold last_and_rest. destruct (rev l) as [|x r] eqn:E; rewrite <- (rev_involutive l), E; [reflexivity|]. reflexivity.
  Qed.
  Record inv (s : ostate P S) (cs : list (call P)) (os : list (seen P)) : Prop := Inv {
    i_got : got os ++ rev (b_buffer (o_b s)) = concat (map (@rev P) (batches cs));
    i_len : length (b_newX (o_b s)) = length (b_losses (o_b s));
    i_sent : accepted os = sent cs ++ combine (b_newX (o_b s)) (b_losses (o_b s));
    i_given : forall c, point_of os c = match nth_error (o_given s) c with Some (Some x) => [x] | _ => [] end;
    i_asked : forall c, In c (o_asked s) -> exists x, nth_error (o_given s) c = Some (Some x);
    i_done : forall c l, In (Done c l) os -> c < length (o_given s) }.
  Lemma accepted_given : forall (os : list (seen P)) n x, (forall c l, In (Done c l) os -> c < n) -> accepted (os ++ [Given n x]) = accepted os.
  Proof.
    intros os n x H. unfold accepted. rewrite flat_map_app. cbn [flat_map]. rewrite app_nil_r.
    assert (G : forall os' : list (seen P), (forall c l, In (Done c l) os' -> c < n) ->
      flat_map (fun o => match o with Done c l => map (fun x => (x, l)) (point_of (os ++ [Given n x]) c) | _ => [] end) os' =
      flat_map (fun o => match o with Done c l => map (fun x => (x, l)) (point_of os c) | _ => [] end) os').
    { induction os' as [|o os' IH]; intros K; [reflexivity|]. cbn [flat_map]. rewrite IH by (intros c l I; apply (K c l); now right). f_equal.
      destruct o as [|c l|]; try reflexivity. f_equal. unfold point_of. rewrite flat_map_app. cbn. specialize (K c l (or_introl eq_refl)).
      destruct x; [|now rewrite app_nil_r]. destruct (Nat.eqb_spec n c); [lia|]. now rewrite app_nil_r. }
    now rewrite G.
  Qed.
  Lemma accepted_other : forall (os : list (seen P)) o, (forall c x, o <> Given c x) -> (forall c l, o <> Done c l) -> accepted (os ++ [o]) = accepted os.
  Proof.
    intros os o H K. destruct o as [c x|c l|e]; [now destruct (H c x)|now destruct (K c l)|]. unfold accepted. rewrite flat_map_app. cbn. rewrite app_nil_r.
    assert (E : forall c, point_of (os ++ [Raised e]) c = point_of os c) by (intros c; unfold point_of; rewrite flat_map_app; cbn; apply app_nil_r).
    induction os as [|o os' IH] at 2 4; [reflexivity|]. cbn [flat_map]. rewrite IH. f_equal. destruct o; try reflexivity. now rewrite E.
  Qed.
  Lemma accepted_done : forall (os : list (seen P)) c l, accepted (os ++ [Done c l]) = accepted os ++ map (fun x => (x, l)) (point_of os c).
  Proof.
    intros os c l. unfold accepted. rewrite flat_map_app. cbn [flat_map]. rewrite app_nil_r.
    assert (E : forall c', point_of (os ++ [Done c l]) c' = point_of os c') by (intros c'; unfold point_of; rewrite flat_map_app; cbn; apply app_nil_r).
    rewrite E. f_equal. induction os as [|o os' IH] at 2 4; [reflexivity|]. cbn [flat_map]. rewrite IH. f_equal. destruct o; try reflexivity. now rewrite E.
  Qed.
  Lemma point_given : forall (os : list (seen P)) n x c, point_of (os ++ [Given n x]) c = point_of os c ++ (if n =? c then match x with Some y => [y] | None => [] end else []).
  Proof. intros. unfold point_of. rewrite flat_map_app. cbn. rewrite app_nil_r. destruct x; [reflexivity|]. destruct (n =? c); reflexivity. Qed.
  Lemma combine_snoc : forall (A B : Type) (l : list A) (m : list B) a b, length l = length m -> combine (l ++ [a]) (m ++ [b]) = combine l m ++ [(a, b)].
  Proof. induction l as [|x l IH]; intros [|y m] a b H; try discriminate H; [reflexivity|]. cbn. rewrite IH; [reflexivity|now injection H]. Qed.
  Lemma batches_app : forall (a b : list (call P)), batches (a ++ b) = batches a ++ batches b.
  Proof. intros. unfold batches. apply flat_map_app. Qed.
  Lemma sent_app : forall (a b : list (call P)), sent (a ++ b) = sent a ++ sent b.
  Proof. intros. unfold sent. apply flat_map_app. Qed.
  Lemma got_app : forall (a b : list (seen P)), got (a ++ b) = got a ++ got b.
  Proof. intros. unfold got. apply flat_map_app. Qed.
  Lemma given_step : forall s cs os x, inv s cs os -> forall c,
    point_of (os ++ [Given (length (o_given s)) x]) c = match nth_error (o_given s ++ [x]) c with Some (Some x) => [x] | _ => [] end.
  Proof.
    intros s cs os x H c. rewrite point_given, (i_given _ _ _ H). destruct (Nat.eqb_spec (length (o_given s)) c) as [<-|N].
    - rewrite nth_error_app2, Nat.sub_diag by lia. cbn. rewrite (proj2 (nth_error_None (o_given s) (length (o_given s)))) by lia. now destruct x.
    - rewrite app_nil_r. destruct (Nat.lt_ge_cases c (length (o_given s))) as [L|L]; [now rewrite nth_error_app1|].
      rewrite (proj2 (nth_error_None (o_given s) c)) by lia. rewrite (proj2 (nth_error_None (o_given s ++ [x]) c)); [reflexivity|]. rewrite app_length. cbn. lia.
  Qed.
  Lemma asked_step : forall s cs os x c, inv s cs os -> In c (o_asked s) -> exists y, nth_error (o_given s ++ [x]) c = Some (Some y).
  Proof.
    intros s cs os x c H I. destruct (i_asked _ _ _ H c I) as (y & E). exists y. rewrite nth_error_app1; [exact E|]. apply nth_error_Some. congruence.
  Qed.
  Lemma done_app : forall (os : list (seen P)) o n m, (forall c l, In (Done c l) os -> c < n) -> n <= m -> (forall c l, o = Done c l -> c < m) ->
    forall c l, In (Done (P := P) c l) (os ++ [o]) -> c < m.
  Proof. intros os o n m H L K c l I. apply in_app_or in I as [I|[I|[]]]; [specialize (H c l I); lia|eauto]. Qed.
  Lemma inv_step : forall s cs os e, inv s cs os -> let '(s2, c, o) := step e s in inv s2 (cs ++ c) (os ++ [o]).
  Proof.
    intros s cs os e H. destruct e as [| |c l]; cbn [Bayes.step].
    - unfold internal_ask.
      assert (B : exists b cl, (match b_buffer (o_b s) with [] => let (batch, a) := alg_ask (b_alg (o_b s)) in (BState batch (b_newX (o_b s)) (b_losses (o_b s)) a, [CAsk batch]) | _ => (o_b s, []) end) = (b, cl) /\
        b_newX b = b_newX (o_b s) /\ b_losses b = b_losses (o_b s) /\ sent cl = [] /\ got os ++ rev (b_buffer b) = concat (map (@rev P) (batches (cs ++ cl)))).
      { destruct (b_buffer (o_b s)) as [|y buf] eqn:E.
        - destruct (alg_ask (b_alg (o_b s))) as (batch & a). do 2 eexists. split; [reflexivity|]. cbn [b_newX b_losses b_buffer]. repeat split.
          rewrite batches_app, map_app, concat_app. cbn [batches flat_map map concat app]. rewrite !app_nil_r, <- (i_got _ _ _ H), E. cbn. now rewrite app_nil_r.
        - do 2 eexists. split; [reflexivity|]. repeat split. rewrite app_nil_r. apply (i_got _ _ _ H). }
      destruct B as (b & cl & -> & E1 & E2 & E3 & E4). pose proof (last_spec (b_buffer b)) as La. destruct (last_and_rest P (b_buffer b)) as [(x & r)|].
      + constructor; cbn [o_b o_given o_asked b_buffer b_newX b_losses].
        * rewrite got_app, <- E4, La, rev_app_distr. cbn. now rewrite <- app_assoc.
        * rewrite E1, E2. apply (i_len _ _ _ H).
        * rewrite accepted_given by apply (i_done _ _ _ H). rewrite (i_sent _ _ _ H), sent_app, E3, app_nil_r, E1, E2. reflexivity.
        * apply (given_step _ cs), H.
        * intros c [<-|I]; [|eapply asked_step; eauto]. exists x. rewrite nth_error_app2, Nat.sub_diag by lia. reflexivity.
        * rewrite app_length. cbn [length]. eapply done_app; [apply (i_done _ _ _ H)|lia|discriminate].
      + constructor; cbn [o_b o_given o_asked].
        * rewrite got_app. cbn [got flat_map]. rewrite app_nil_r. exact E4.
        * rewrite E1, E2. apply (i_len _ _ _ H).
        * rewrite accepted_other by discriminate. rewrite (i_sent _ _ _ H), sent_app, E3, app_nil_r, E1, E2. reflexivity.
        * intros c. unfold point_of. rewrite flat_map_app. cbn. rewrite app_nil_r. apply (i_given _ _ _ H).
        * apply (i_asked _ _ _ H).
        * eapply done_app; [apply (i_done _ _ _ H)|lia|discriminate].
    - constructor; cbn [o_b o_given o_asked].
      + rewrite got_app, app_nil_r. cbn [got flat_map]. rewrite app_nil_r. apply (i_got _ _ _ H).
      + apply (i_len _ _ _ H).
      + rewrite accepted_given by apply (i_done _ _ _ H). rewrite app_nil_r. apply (i_sent _ _ _ H).
      + apply (given_step _ cs), H.
      + intros c I. eapply asked_step; eauto.
      + rewrite app_length. cbn [length]. eapply done_app; [apply (i_done _ _ _ H)|lia|discriminate].
    - destruct (existsb (Nat.eqb c) (o_asked s)) eqn:A.
      + apply existsb_exists in A as (c' & I & E). apply Nat.eqb_eq in E. subst c'. destruct (i_asked _ _ _ H c I) as (x & Ex). rewrite Ex. unfold internal_tell.
        assert (Lc : c < length (o_given s)) by (apply nth_error_Some; congruence).
        assert (Pt : point_of os c = [x]) by (rewrite (i_given _ _ _ H), Ex; reflexivity).
        assert (Fi : forall d, In d (filter (fun i => negb (i =? c)) (o_asked s)) -> exists x, nth_error (o_given s) d = Some (Some x)) by (intros d J; apply filter_In in J as (J & _); now apply (i_asked _ _ _ H)).
        assert (Pd : forall d, point_of (os ++ [Done c l]) d = match nth_error (o_given s) d with Some (Some x) => [x] | _ => [] end) by (intros d; unfold point_of; rewrite flat_map_app; cbn; rewrite app_nil_r; apply (i_given _ _ _ H)).
        assert (Dn : forall d m, In (Done d m) (os ++ [Done c l]) -> d < length (o_given s)) by (eapply done_app; [apply (i_done _ _ _ H)|lia|intros d m [= <- _]; exact Lc]).
        destruct (b_buffer (o_b s)) as [|y buf] eqn:E.
        * constructor; cbn [o_b o_given o_asked b_buffer b_newX b_losses]; auto.
          -- rewrite got_app, batches_app. cbn. rewrite !app_nil_r, <- (i_got _ _ _ H), E. cbn. now rewrite app_nil_r.
          -- rewrite accepted_done, (i_sent _ _ _ H), Pt, sent_app. cbn. rewrite !app_nil_r, combine_snoc by apply (i_len _ _ _ H). now rewrite app_assoc.
        * constructor; cbn [o_b o_given o_asked b_buffer b_newX b_losses]; auto.
          -- rewrite got_app. cbn [got flat_map]. rewrite !app_nil_r, <- (i_got _ _ _ H), E. reflexivity.
          -- rewrite !app_length. cbn. rewrite (i_len _ _ _ H). reflexivity.
          -- rewrite accepted_done, (i_sent _ _ _ H), Pt, app_nil_r. cbn [map]. rewrite combine_snoc by apply (i_len _ _ _ H). now rewrite app_assoc.
      + constructor.
        * rewrite got_app, app_nil_r. cbn [got flat_map]. rewrite app_nil_r. apply (i_got _ _ _ H).
        * apply (i_len _ _ _ H).
        * rewrite accepted_other by discriminate. rewrite app_nil_r. apply (i_sent _ _ _ H).
        * intros d. unfold point_of. rewrite flat_map_app. cbn. rewrite app_nil_r. apply (i_given _ _ _ H).
        * apply (i_asked _ _ _ H).
        * eapply done_app; [apply (i_done _ _ _ H)|lia|discriminate].
  Qed.
  Lemma inv_run : forall es a s cs os, run es (start P S a) = (s, cs, os) -> inv s cs os.
  Proof.
    intros es a. induction es as [|e es IH] using rev_ind; intros s cs os E.
    - cbn in E. injection E as <- <- <-. constructor; try reflexivity; cbn; try tauto. intros [|c]; reflexivity.
    - rewrite run_snoc in E. destruct (run es (start P S a)) as ((s1 & cs1) & os1). specialize (IH _ _ _ eq_refl). pose proof (inv_step _ _ _ e IH) as K.
      destruct (step e s1) as ((s2 & c) & o). injection E as <- <- <-. exact K.
  Qed.

  Lemma ask_tell : forall s l x r, o_asked s = [] ->
    (let b := match b_buffer (o_b s) with [] => fst (alg_ask (b_alg (o_b s))) | b => b end in b = r ++ [x]) ->
    exists s' cs, run [Ask; Tell (length (o_given s)) l] s = (s', (match b_buffer (o_b s) with [] => [CAsk (r ++ [x])] | _ => [] end) ++ cs, [Given (length (o_given s)) (Some x); Done (length (o_given s)) l]) /\
      o_asked s' = [] /\ length (o_given s') = Datatypes.S (length (o_given s)) /\
      cs = (match r with [] => [CTell (b_newX (o_b s) ++ [x]) (b_losses (o_b s) ++ [l])] | _ => [] end) /\
      b_buffer (o_b s') = r /\ b_newX (o_b s') = (match r with [] => [] | _ => b_newX (o_b s) ++ [x] end) /\
      b_losses (o_b s') = (match r with [] => [] | _ => b_losses (o_b s) ++ [l] end).
  Proof.
    intros s l x r A B. cbv zeta in B. cbn [Bayes.run Bayes.step]. unfold internal_ask.
    assert (L : forall y q, last_and_rest P (q ++ [y]) = Some (y, q)).
    { intros y q. unfold last_and_rest. rewrite rev_app_distr. cbn. now rewrite rev_involutive. }
    assert (N : forall y : option P, nth_error (o_given s ++ [y]) (length (o_given s)) = Some y) by (intros y; rewrite nth_error_app2, Nat.sub_diag by lia; reflexivity).
    destruct (b_buffer (o_b s)) as [|z buf] eqn:E.
    - destruct (alg_ask (b_alg (o_b s))) as (batch & a). cbn [fst] in B. subst batch. cbn [b_buffer]. rewrite L. cbn [o_asked o_given o_b b_buffer b_newX b_losses existsb].
      rewrite Nat.eqb_refl, N. cbn [orb]. unfold internal_tell. cbn [b_buffer b_newX b_losses b_alg]. rewrite A. cbn [filter]. rewrite Nat.eqb_refl. cbn [negb filter].
      destruct r as [|w r]; do 2 eexists; (split; [reflexivity|]); cbn [o_asked o_given o_b b_buffer b_newX b_losses]; rewrite app_length; cbn [length]; repeat split; lia.
    - rewrite E, B, L. cbn [o_asked o_given o_b b_buffer b_newX b_losses existsb].
      rewrite Nat.eqb_refl, N. cbn [orb]. unfold internal_tell. cbn [b_buffer b_newX b_losses b_alg]. rewrite A. cbn [filter]. rewrite Nat.eqb_refl. cbn [negb filter].
      destruct r as [|w r]; do 2 eexists; (split; [reflexivity|]); cbn [o_asked o_given o_b b_buffer b_newX b_losses]; rewrite app_length; cbn [length]; repeat split; lia.
  Qed.
  Lemma run_app : forall es1 es2 s, run (es1 ++ es2) s = let '(s1, c1, o1) := run es1 s in let '(s2, c2, o2) := run es2 s1 in (s2, c1 ++ c2, o1 ++ o2).
  Proof.
    induction es1 as [|e es1 IH]; intros es2 s; cbn [app Bayes.run].
    - destruct (run es2 s) as ((s2 & c) & o). reflexivity.
    - destruct (step e s) as ((s1 & c1) & o1). rewrite IH. destruct (run es1 s1) as ((s2 & c2) & o2). destruct (run es2 s2) as ((s3 & c3) & o3). now rewrite app_assoc.
  Qed.
  Lemma one_by_one_spec : (forall a, fst (alg_ask a) <> []) -> forall losses s done, o_asked s = [] -> b_newX (o_b s) = rev done -> length (b_losses (o_b s)) = length done ->
    (b_buffer (o_b s) = [] -> done = []) ->
    let '(s', cs, os) := run (one_by_one (length (o_given s)) losses) s in
    by_batches ((match b_buffer (o_b s) with [] => [] | buf => [CAsk (buf ++ done)] end) ++ cs) /\ Forall (fun o => forall e, o <> Raised e) os.
  Proof.
    intros NE. induction losses as [|l losses IH]; intros s done A X Ls D.
    - cbn. split; [|constructor]. destruct (b_buffer (o_b s)); cbn; constructor.
    - cbn [one_by_one]. change (Ask :: Tell ?c ?l :: ?r) with ([Ask; Tell c l] ++ r). rewrite run_app.
      set (b := match b_buffer (o_b s) with [] => fst (alg_ask (b_alg (o_b s))) | b => b end).
      assert (B : exists r x, b = r ++ [x]).
      { destruct (exists_last (l := b)) as (r & x & E); [|eauto]. subst b. destruct (b_buffer (o_b s)); [apply NE|discriminate]. }
      destruct B as (r & x & B). destruct (ask_tell s l x r A B) as (s' & cs & -> & A' & G' & Ec & Bu & Nx & Lo). subst cs.
      specialize (IH s' (match r with [] => [] | _ => x :: done end) A').
      assert (H1 : b_newX (o_b s') = rev (match r with [] => [] | _ => x :: done end)) by (rewrite Nx, X; now destruct r).
      assert (H2 : length (b_losses (o_b s')) = length (match r with [] => [] | _ => x :: done end)) by (rewrite Lo; destruct r; [reflexivity|]; rewrite app_length, Ls; cbn; lia).
      assert (H3 : b_buffer (o_b s') = [] -> (match r with [] => [] | _ => x :: done end) = []) by (rewrite Bu; intros ->; reflexivity).
      specialize (IH H1 H2 H3). rewrite G' in IH. destruct (run (one_by_one (Datatypes.S (length (o_given s))) losses) s') as ((s2 & cs) & os). rewrite Bu in IH.
      destruct IH as (IH1 & IH2). split; [|constructor; [discriminate|constructor; [discriminate|exact IH2]]].
      subst b. destruct (b_buffer (o_b s)) as [|z buf] eqn:E.
      + rewrite (D eq_refl) in *. destruct r as [|w r].
        * cbn in *. rewrite X. cbn. apply (bb_next [x]); [|exact IH1]. rewrite app_length, Ls. reflexivity.
        * cbn in *. exact IH1.
      + rewrite B. destruct r as [|w r].
        * cbn in *. rewrite X. apply (bb_next (x :: done)); [|exact IH1]. rewrite app_length, Ls. cbn. lia.
        * cbn in *. rewrite <- app_assoc. exact IH1.
  Qed.
  Fixpoint pairs (n : nat) (xs : list P) (ls : list Q) : list (seen P) :=
    match xs, ls with x :: xs, l :: ls => Given n (Some x) :: Done n l :: pairs (Datatypes.S n) xs ls | _, _ => [] end.
  Lemma one_by_one_pairs : (forall a, fst (alg_ask a) <> []) -> forall losses s, o_asked s = [] ->
    exists xs, length xs = length losses /\ snd (run (one_by_one (length (o_given s)) losses) s) = pairs (length (o_given s)) xs losses.
  Proof.
    intros NE. induction losses as [|l losses IH]; intros s A; [exists []; auto|].
    cbn [one_by_one]. change (Ask :: Tell ?c ?l :: ?r) with ([Ask; Tell c l] ++ r). rewrite run_app.
    set (b := match b_buffer (o_b s) with [] => fst (alg_ask (b_alg (o_b s))) | b => b end).
    assert (B : exists r x, b = r ++ [x]).
    { destruct (exists_last (l := b)) as (r & x & E); [|eauto]. subst b. destruct (b_buffer (o_b s)); [apply NE|discriminate]. }
    destruct B as (r & x & B). destruct (ask_tell s l x r A B) as (s' & cs & -> & A' & G' & _).
    destruct (IH s' A') as (xs & L & E). rewrite G' in E. destruct (run (one_by_one (Datatypes.S (length (o_given s))) losses) s') as ((s2 & cs2) & os). cbn [snd] in *.
    exists (x :: xs). cbn [length pairs]. rewrite L, E. auto.
  Qed.
  Lemma got_pairs : forall ls xs n, length xs = length ls -> got (pairs n xs ls) = xs.
  Proof. induction ls as [|l ls IH]; intros [|x xs] n L; try discriminate L; [reflexivity|]. cbn. f_equal. apply IH. now injection L. Qed.
  Lemma point_pairs : forall ls xs n c, length xs = length ls -> point_of (pairs n xs ls) c = if n <=? c then match nth_error xs (c - n) with Some x => [x] | None => [] end else [].
  Proof.
    induction ls as [|l ls IH]; intros [|x xs] n c L; try discriminate L.
    - cbn. destruct (n <=? c); [|reflexivity]. now destruct (c - n).
    - cbn [pairs]. unfold point_of. cbn [flat_map]. fold (point_of (pairs (Datatypes.S n) xs ls) c). rewrite IH by (now injection L). cbn [app].
      destruct (Nat.eqb_spec n c) as [E|N].
      + subst c. rewrite Nat.leb_refl, Nat.sub_diag. destruct (Nat.leb_spec (Datatypes.S n) n); [lia|]. reflexivity.
      + destruct (Nat.leb_spec n c) as [M|M]; destruct (Nat.leb_spec (Datatypes.S n) c) as [M'|M']; try lia; [|reflexivity].
        replace (c - n) with (Datatypes.S (c - Datatypes.S n)) by lia. reflexivity.
  Qed.
  Lemma accepted_pairs_gen : forall all ls xs n, length xs = length ls -> (forall i x, nth_error xs i = Some x -> point_of all (n + i) = [x]) ->
    flat_map (fun o => match o with Done c l => map (fun x => (x, l)) (point_of all c) | _ => [] end) (pairs n xs ls) = combine xs ls.
  Proof.
    intros all. induction ls as [|l ls IH]; intros [|x xs] n L H; try discriminate L; [reflexivity|]. cbn [pairs flat_map combine app].
    pose proof (H 0 x eq_refl) as E. rewrite Nat.add_0_r in E. rewrite E. cbn. f_equal. apply IH; [now injection L|]. intros i y K. rewrite <- (H (Datatypes.S i) y K). f_equal. lia.
  Qed.
  Lemma accepted_pairs : forall ls xs n, length xs = length ls -> accepted (pairs n xs ls) = combine xs ls.
  Proof.
    intros ls xs n L. unfold accepted. apply accepted_pairs_gen; [exact L|]. intros i x E. rewrite point_pairs by exact L.
    destruct (Nat.leb_spec n (n + i)); [|lia]. replace (n + i - n) with i by lia. now rewrite E.
  Qed.
End BayesOptim.

(** * The recommendation, and BO without a budget *)
Lemma recommend_known : forall es, tells es <> [] -> exists y, option_map fst (best_of (known es)) = Some y /\ best_first (tells es) y.
Proof.
  intros es T. unfold known, best_first. destruct (tells es) as [|p t]; [now destruct T|]. remember (first_losses (p :: t)) as l eqn:El.
  destruct l as [|q l]; [discriminate El|]. clear El. cbn [map]. unfold best_of. cbn [fold_left].
  destruct (best_of_spec (map (fun p : point * Q => (fst p, (- snd p)%Q)) l) (fst q, (- snd q)%Q)) as (l1 & l2 & b & -> & D & H1 & H2).
  exists (fst b). split; [reflexivity|].
  change ((fst q, (- snd q)%Q) :: map (fun p : point * Q => (fst p, (- snd p)%Q)) l) with (map (fun p : point * Q => (fst p, (- snd p)%Q)) (q :: l)) in D.
  apply map_eq_app in D as (m1 & m' & -> & <- & D). apply map_eq_cons in D as (c & m2 & -> & <- & <-). cbn [fst snd] in *. exists m1, m2, (snd c).
  split; [now destruct c|]. split; intros x I.
  - specialize (H1 (fst x, (- snd x)%Q)). cbn in H1. assert (In (fst x, (- snd x)%Q) (map (fun p : point * Q => (fst p, (- snd p)%Q)) m1)) as J by (now apply (in_map (fun p : point * Q => (fst p, (- snd p)%Q)))). specialize (H1 J). lra.
  - specialize (H2 (fst x, (- snd x)%Q)). cbn in H2. assert (In (fst x, (- snd x)%Q) (map (fun p : point * Q => (fst p, (- snd p)%Q)) m2)) as J by (now apply (in_map (fun p : point * Q => (fst p, (- snd p)%Q)))). specialize (H2 J). lra.
Qed.
Section NoBudget.
  Variable dim : nat.
  Variable middle : bool.
  Variable sample : nat -> point.
  Variable suggest : list (point * Q) -> point.
  Hypothesis suggest_length : forall l, length (suggest l) = dim.
  Lemma no_budget_ask_gen : forall es sp, Forall (right_size dim) es ->
    Forall (fun o => forall e, o <> BRaised e) (snd (brun dim None None middle sample suggest es (FState [] sp [] true))).
  Proof.
    induction es as [|e es IH]; intros sp F; [constructor|]. inversion F as [|? ? F1 F2]; subst. cbn [brun]. destruct e as [|y l]; cbn [bstep].
    - unfold bo_ask. cbn. unfold suggested. cbn [f_space]. rewrite reads_ok' by apply suggest_length. specialize (IH sp F2).
      destruct (brun dim None None middle sample suggest es (FState [] sp [] true)) as (s & os). constructor; [discriminate|exact IH].
    - unfold bo_tell. cbn [register f_registered f_space f_queue f_created get_bo]. unfold probe_now. cbn in F1. rewrite F1, Nat.eqb_refl. cbn [negb f_space].
      destruct (existsb (fun p => same_point (fst p) y) sp).
      + cbn [f_space f_queue f_created]. specialize (IH sp F2). destruct (brun dim None None middle sample suggest es (FState [] sp [] true)) as (s & os). constructor; [discriminate|exact IH].
      + unfold fake_call. cbn [f_registered f_space f_queue f_created]. rewrite reads_ok by exact F1. rewrite almost_refl. cbn [f_registered f_space f_queue f_created].
        specialize (IH (sp ++ [(y, (- l)%Q)]) F2). destruct (brun dim None None middle sample suggest es (FState [] (sp ++ [(y, (- l)%Q)]) [] true)) as (s & os). constructor; [discriminate|exact IH].
  Qed.
  Lemma no_budget_ask : forall es, Forall (right_size dim) es ->
    let (s, os) := brun dim None None middle sample suggest es (FState [] [] [] true) in Forall (fun o => forall e, o <> BRaised e) os.
  Proof. intros es F. pose proof (no_budget_ask_gen es [] F) as H. destruct (brun dim None None middle sample suggest es (FState [] [] [] true)). exact H. Qed.
  Lemma no_budget_tell : forall es r, let (s, os) := brun dim None None middle sample suggest es (FState [r] [] [] true) in
    Forall2 (fun e o => match e with BAsk => o = BGiven (suggest []) | BTell _ _ => o = BRaised RuntimeError end) es os.
  Proof.
    induction es as [|e es IH]; intros r; [constructor|]. cbn [brun]. destruct e as [|y l]; cbn [bstep].
    - unfold bo_ask. cbn. unfold suggested. cbn [f_space]. rewrite reads_ok' by apply suggest_length. specialize (IH r).
      destruct (brun dim None None middle sample suggest es (FState [r] [] [] true)) as (s & os). constructor; [reflexivity|exact IH].
    - unfold bo_tell. cbn [register f_registered]. specialize (IH r).
      destruct (brun dim None None middle sample suggest es (FState [r] [] [] true)) as (s & os). constructor; [reflexivity|exact IH].
  Qed.
End NoBudget.

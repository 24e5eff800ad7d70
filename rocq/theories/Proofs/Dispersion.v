From Coq Require Import Bool Arith List QArith Lia Lqa.
From Verif Require Import Model.Prelude Model.MultiValue Model.Dispersion Spec.Dispersion Proofs.MultiValue.
Import ListNotations.
Open Scope nat_scope.
Open Scope list_scope.

Lemma fold_min l : forall q r, (r <= fold_left qmin l q <-> r <= q /\ (forall p, In p l -> r <= p))%Q.
Proof.
  induction l as [|a l IH]; intros q r; cbn [fold_left]; [cbn; tauto|]. rewrite IH. cbn [In].
  assert (M : (r <= qmin q a <-> r <= q /\ r <= a)%Q).
  { pose proof (qmin_le_l q a). pose proof (qmin_le_r q a). destruct (qmin_or q a) as [E|E]; rewrite E in *; split; intros; try split; lra. }
  rewrite M. split.
  - intros [[A B] C]. split; [assumption|]. intros p [<-|I]; auto.
  - intros [A B]. auto.
Qed.
Lemma nearest_away {P} (dist : P -> P -> Q) x y q : nearest P dist x y = Ok q -> forall r, (r <= q)%Q <-> away dist r x y.
Proof.
  unfold nearest. intros H r. destruct x as [|z x]; [discriminate|]. cbn [map] in H. injection H as <-. rewrite fold_min. unfold away. split.
  - intros [A B] w [<-|I]; [assumption|]. apply B. now apply in_map.
  - intros A. split; [apply A; now left|]. intros p I. apply in_map_iff in I. destruct I as (w & <- & I). apply A. now right.
Qed.
Lemma scored_ok {P} (dist : P -> P -> Q) x cs : forall l, scored P dist x cs = Ok l -> map fst l = cs /\ Forall (fun c => nearest P dist x (fst c) = Ok (snd c)) l.
Proof.
  induction cs as [|c cs IH]; intros l H; cbn [scored] in H; [injection H as <-; now split|].
  destruct (nearest P dist x c) as [q|] eqn:N; [|discriminate]. cbn [bind] in H. destruct (scored P dist x cs) as [l'|]; [|discriminate].
  cbn [bind] in H. injection H as <-. destruct (IH _ eq_refl) as [<- F]. split; [reflexivity|]. now constructor.
Qed.
Lemma best_ok {P} (l : list (P * Q)) : forall cur, exists q, In (best P cur l, q) (cur :: l) /\ forall c, In c (cur :: l) -> (snd c <= q)%Q.
Proof.
  induction l as [|c l IH]; intros cur; cbn [best].
  - exists (snd cur). split; [left; now destruct cur|]. intros c [<-|[]]. lra.
  - destruct (IH (if qlt (snd cur) (snd c) then c else cur)) as (q & I & M). exists q. split.
    + destruct I as [I|I]; [|right; now right]. destruct (qlt (snd cur) (snd c)); [right; left; exact I|left; exact I].
    + pose proof (M _ (or_introl eq_refl)) as M0. intros d [<-|[<-|D]]; [| |apply M; now right]; destruct (qlt_spec (snd cur) (snd c)); cbn in M0; lra.
Qed.
Lemma choose_ok {P} (dist : P -> P -> Q) x cs y : choose P dist x cs = Ok y ->
  In y cs /\ forall c r, In c cs -> away dist r x c -> away dist r x y.
Proof.
  unfold choose. intros H. destruct (scored P dist x cs) as [l|] eqn:E; [|discriminate]. cbn [bind] in H. destruct (scored_ok _ _ _ _ E) as [M F].
  destruct l as [|c0 l]; [discriminate|]. injection H as <-. destruct (best_ok l c0) as (q & I & B). subst cs. split.
  - change (best P c0 l) with (fst (best P c0 l, q)). now apply in_map.
  - intros c r Ic A. apply in_map_iff in Ic. destruct Ic as ([c' p] & E' & Ic). cbn in E'. subst c'. rewrite Forall_forall in F.
    pose proof (F _ Ic) as N1. pose proof (F _ I) as N2. cbn [fst snd] in N1, N2. apply (nearest_away _ _ _ _ N2).
    apply (nearest_away _ _ _ _ N1) in A. specialize (B _ Ic). cbn in B. lra.
Qed.
Lemma nth_error_other {P} (a : list P) : forall b u v i, i <> length a -> nth_error (a ++ u :: b) i = nth_error (a ++ v :: b) i.
Proof. induction a as [|w a IH]; intros b u v [|i] H; cbn in *; try reflexivity; try lia. apply IH. lia. Qed.
Lemma nth_error_here {P} (a : list P) b u : nth_error (a ++ u :: b) (length a) = Some u.
Proof. induction a; [reflexivity|assumption]. Qed.
Lemma nth_error_rest {P} (a : list P) : forall b u i z, i <> length a -> nth_error (a ++ u :: b) i = Some z -> In z (a ++ b).
Proof.
  induction a as [|w a IH]; intros b u [|i] z H E; cbn in *; try lia.
  - eapply nth_error_In. eassumption.
  - injection E as <-. now left.
  - right. eapply IH; [|eassumption]. lia.
Qed.
Lemma replace_separated {P} (dist : P -> P -> Q) r a b u y : (forall p q, dist p q == dist q p)%Q ->
  separated dist r (a ++ u :: b) -> away dist r (a ++ b) y -> separated dist r (a ++ y :: b).
Proof.
  intros Sy S A i j p q N Ei Ej. destruct (Nat.eq_dec i (length a)) as [->|Hi].
  - rewrite nth_error_here in Ei. injection Ei as <-. apply A. eapply nth_error_rest; [|exact Ej]. lia.
  - destruct (Nat.eq_dec j (length a)) as [->|Hj].
    + rewrite nth_error_here in Ej. injection Ej as <-. rewrite Sy. apply A. eapply nth_error_rest; [|exact Ei]. lia.
    + rewrite (nth_error_other a b y u i Hi) in Ei. rewrite (nth_error_other a b y u j Hj) in Ej. exact (S i j p q N Ei Ej).
Qed.
Lemma separated_away {P} (dist : P -> P -> Q) r a b u : separated dist r (a ++ u :: b) -> away dist r (a ++ b) u.
Proof.
  intros S z I. apply in_app_iff in I. destruct I as [I|I]; apply In_nth_error in I; destruct I as [k E].
  - assert (L : k < length a) by (apply nth_error_Some; congruence). apply (S (length a) k); [lia|apply nth_error_here|]. now rewrite nth_error_app1.
  - apply (S (length a) (length a + Datatypes.S k)); [lia|apply nth_error_here|]. rewrite nth_error_app2 by lia.
    replace (length a + Datatypes.S k - length a) with (Datatypes.S k) by lia. exact E.
Qed.
Lemma split_nth {P} (x : list P) j u : nth_error x j = Some u -> x = firstn j x ++ u :: skipn (S j) x.
Proof.
  revert j. induction x as [|w x IH]; intros [|j] H; cbn in *; try discriminate; [now injection H as ->|]. f_equal. now apply IH.
Qed.
Lemma improve_ok {P} (dist : P -> P -> Q) : (forall p q, dist p q == dist q p)%Q -> forall draws t x x', improve P dist t draws x = Ok x' ->
  length x' = length x /\ (forall r, separated dist r x -> separated dist r x') /\ (forall p, In p x' -> In p x \/ exists cs, In cs draws /\ In p cs).
Proof.
  intros Sy. induction draws as [|cs draws IH]; intros t x x' H; cbn [improve] in H; [injection H as <-; auto|].
  destruct (nth_error x (t mod length x)) as [u|] eqn:E; [|discriminate]. cbn zeta in H.
  set (j := t mod length x) in *. pose proof (split_nth _ _ _ E) as Ex. set (a := firstn j x) in *. set (b := skipn (S j) x) in *. clearbody a b. subst x.
  destruct (choose P dist (a ++ b) (u :: cs)) as [y|] eqn:C; [|discriminate]. cbn [bind] in H. apply choose_ok in C. destruct C as [Iy A].
  destruct (IH _ _ _ H) as (L & S & M). split; [|split].
  - rewrite L, !app_length. reflexivity.
  - intros r Sr. apply S. eapply replace_separated; [assumption|exact Sr|]. apply (A u); [now left|]. now apply separated_away.
  - intros p I. destruct (M p I) as [I'|(c & Ic & Ip)]; [|right; exists c; split; [now right|assumption]].
    apply in_app_iff in I'. destruct I' as [I'|[<-|I']].
    + left. apply in_app_iff. now left.
    + destruct Iy as [<-|Iy]; [left; apply in_app_iff; right; now left|]. right. exists cs. split; [now left|assumption].
    + left. apply in_app_iff. right. now right.
Qed.
Lemma batches_last {P} (dist : P -> P -> Q) x bs : forall newy b, batches P dist x (bs ++ [b]) newy = bind (batches P dist x bs newy) (fun _ => bind (choose P dist x b) (fun y => Ok (Some y))).
Proof.
  induction bs as [|c bs IH]; intros newy b; cbn [batches app bind]; [reflexivity|]. destruct (choose P dist x c); [|reflexivity]. cbn [bind]. apply IH.
Qed.
Lemma greedy_prefix {P} (dist : P -> P -> Q) rounds : forall x newy x', greedy P dist rounds x newy = Ok x' ->
  length x' = length x + length rounds /\ exists t, x' = x ++ t.
Proof.
  induction rounds as [|bs rounds IH]; intros x newy x' H; cbn [greedy] in H; [injection H as <-; split; [cbn; lia|exists []; now rewrite app_nil_r]|].
  destruct (batches P dist x bs newy) as [[y|]|]; try discriminate. cbn [bind] in H. destruct (IH _ _ _ H) as [L [t ->]].
  rewrite !app_length in *. cbn [length] in *. split; [lia|]. exists (y :: t). now rewrite <- app_assoc.
Qed.
Lemma greedy_round {P} (dist : P -> P -> Q) rounds : forall x newy x' k bs, greedy P dist rounds x newy = Ok x' -> nth_error rounds k = Some bs ->
  exists y old, nth_error x' (length x + k) = Some y /\ batches P dist (firstn (length x + k) x') bs old = Ok (Some y) /\
    (k = 0 -> old = newy) /\ (forall k', k = S k' -> old = nth_error x' (length x + k')).
Proof.
  induction rounds as [|b0 rounds IH]; intros x newy x' k bs H E; [now destruct k|]. cbn [greedy] in H.
  destruct (batches P dist x b0 newy) as [[y|]|] eqn:B; try discriminate. cbn [bind] in H.
  destruct (greedy_prefix _ _ _ _ _ H) as [_ [t Ex]].
  assert (Hy : nth_error x' (length x) = Some y) by (rewrite Ex, <- app_assoc; apply nth_error_here).
  destruct k as [|k]; cbn in E.
  - injection E as ->. exists y, newy. rewrite Nat.add_0_r. split; [assumption|]. split; [|split; [reflexivity|lia]].
    rewrite Ex, <- app_assoc. now rewrite firstn_app, Nat.sub_diag, firstn_all, app_nil_r.
  - destruct (IH _ _ _ k bs H E) as (z & old & A & C & D & F). rewrite app_length in *. cbn [length] in *.
    exists z, old. replace (length x + S k) with (length x + 1 + k) by lia. split; [assumption|]. split; [assumption|]. split; [lia|].
    intros k' K. injection K as <-. destruct k as [|k].
    + rewrite (D eq_refl), Nat.add_0_r. now symmetry.
    + rewrite (F k eq_refl). f_equal. lia.
Qed.

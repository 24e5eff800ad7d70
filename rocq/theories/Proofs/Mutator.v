From Coq Require Import Arith ZArith QArith Bool Lia Lqa List.
From Verif.Model Require Import Prelude MultiValue Crossover Mutator.
From Verif.Spec Require Import Mutator.
From Verif.Proofs Require Import MultiValue.
Import ListNotations.
Open Scope nat_scope.

Section S.
Variable bin : nat -> Z -> Z.

Lemma rbind_ok {A B} (x : random A) (f : A -> random B) ds b ds' : rbind x f ds = (Ok b, ds') ->
  exists a ds1, x ds = (Ok a, ds1) /\ f a ds1 = (Ok b, ds').
Proof. unfold rbind. destruct (x ds) as [[a|e] d]; intros E; [eauto|discriminate]. Qed.
Lemma rbind_err {A B} (x : random A) (f : A -> random B) ds e ds' : rbind x f ds = (Err e, ds') ->
  x ds = (Err e, ds') \/ exists a ds1, x ds = (Ok a, ds1) /\ f a ds1 = (Err e, ds').
Proof. unfold rbind. destruct (x ds) as [[a|e'] d]; intros E; [right; eauto|left; congruence]. Qed.

Lemma redraw_ok arity b ds w ds' : redraw bin arity b ds = (Ok w, ds') -> bin arity w <> b.
Proof.
  induction ds as [|[v|u|k] ds IH]; cbn; try discriminate.
  destruct (Z.eqb_spec (bin arity v) b) as [E|E]; [exact IH|]. intros H; injection H as <- <-; exact E.
Qed.
Lemma redraw_err arity b ds e ds' : redraw bin arity b ds = (Err e, ds') -> e = OutOfFuel.
Proof.
  induction ds as [|[v|u|k] ds IH]; cbn; try congruence.
  destruct (Z.eqb_spec (bin arity v) b) as [E|E]; [exact IH|discriminate].
Qed.
Lemma significantly_ok v arity ds w ds' : 2 <= arity <= 499 -> significantly_mutate bin v arity ds = (Ok w, ds') ->
  bin arity w <> bin arity v.
Proof.
  intros H. unfold significantly_mutate.
  destruct (Nat.ltb_spec 499 arity); [lia|]. destruct (Nat.ltb_spec 1 arity); [|lia]. apply redraw_ok.
Qed.
Lemma normal_err ds e ds' : normal ds = (Err e, ds') -> e = OutOfFuel.
Proof. destruct ds as [|[v|u|k] ds]; cbn; congruence. Qed.
Lemma significantly_err v arity ds e ds' : 2 <= arity -> significantly_mutate bin v arity ds = (Err e, ds') -> e = OutOfFuel.
Proof.
  intros H. unfold significantly_mutate.
  destruct (Nat.ltb_spec 499 arity); [apply normal_err|]. destruct (Nat.ltb_spec 1 arity); [|lia]. apply redraw_err.
Qed.
Lemma significantly_low v arity ds w ds' : arity <= 1 -> significantly_mutate bin v arity ds <> (Ok w, ds').
Proof.
  intros H. unfold significantly_mutate.
  destruct (Nat.ltb_spec 499 arity); [lia|]. destruct (Nat.ltb_spec 1 arity); [lia|].
  intros E. apply rbind_ok in E as (a & d1 & _ & E). discriminate.
Qed.

Lemma mutate_where_length arity keep : forall parent ds out ds', length keep = length parent ->
  mutate_where bin arity keep parent ds = (Ok out, ds') -> length out = length parent.
Proof.
  induction keep as [|b keep IH]; intros [|s parent] ds out ds' L E; cbn in E, L; try discriminate.
  - injection E as <- _; reflexivity.
  - apply rbind_ok in E as (w & d1 & E1 & E). apply rbind_ok in E as (o & d2 & E2 & E). injection E as <- _. cbn.
    rewrite (IH parent d1 o d2); [reflexivity|lia|exact E2].
Qed.
Lemma mutate_where_kept arity keep : forall parent ds out ds' i, length keep = length parent ->
  mutate_where bin arity keep parent ds = (Ok out, ds') -> nth i keep false = true -> nth i out 0%Z = nth i parent 0%Z.
Proof.
  induction keep as [|b keep IH]; intros [|s parent] ds out ds' i L E K; cbn in E, L; try discriminate.
  - destruct i; discriminate.
  - apply rbind_ok in E as (w & d1 & E1 & E). apply rbind_ok in E as (o & d2 & E2 & E). injection E as <- _.
    destruct i as [|i]; cbn in K |- *.
    + subst b. injection E1 as <- _. reflexivity.
    + apply (IH parent d1 o d2); [lia|exact E2|exact K].
Qed.
Lemma mutate_where_moved arity keep : 2 <= arity <= 499 -> forall parent ds out ds' i, length keep = length parent ->
  mutate_where bin arity keep parent ds = (Ok out, ds') -> i < length parent -> nth i keep false = false ->
  bin arity (nth i out 0%Z) <> bin arity (nth i parent 0%Z).
Proof.
  intros Ha. induction keep as [|b keep IH]; intros [|s parent] ds out ds' i L E Hi K; cbn in E, L, Hi; try discriminate; try lia.
  apply rbind_ok in E as (w & d1 & E1 & E). apply rbind_ok in E as (o & d2 & E2 & E). injection E as <- _.
  destruct i as [|i]; cbn in K |- *.
  - subst b. exact (significantly_ok _ _ _ _ _ Ha E1).
  - apply (IH parent d1 o d2); [lia|exact E2|lia|exact K].
Qed.
Lemma mutate_where_err arity keep : 2 <= arity -> forall parent ds e ds',
  mutate_where bin arity keep parent ds = (Err e, ds') -> e = OutOfFuel.
Proof.
  intros Ha. induction keep as [|b keep IH]; intros [|s parent] ds e ds' E; cbn in E; try discriminate.
  apply rbind_err in E as [E|(w & d1 & E1 & E)].
  - destruct b; [discriminate|]. exact (significantly_err _ _ _ _ _ Ha E).
  - apply rbind_err in E as [E|(o & d2 & E2 & E)]; [exact (IH _ _ _ _ E)|discriminate].
Qed.
Lemma mutate_where_low arity keep : arity <= 1 -> forall parent ds out ds' i, length keep = length parent ->
  i < length parent -> nth i keep false = false -> mutate_where bin arity keep parent ds <> (Ok out, ds').
Proof.
  intros Ha. induction keep as [|b keep IH]; intros [|s parent] ds out ds' i L Hi K E; cbn in E, L, Hi; try discriminate; try lia.
  apply rbind_ok in E as (w & d1 & E1 & E). apply rbind_ok in E as (o & d2 & E2 & E).
  destruct i as [|i]; cbn in K.
  - subst b. exact (significantly_low _ _ _ _ _ Ha E1).
  - apply (IH parent d1 o d2 i); [lia|lia|exact K|exact E2].
Qed.

Lemma uniforms_iff n u : (length u =? n) && forallb unit_interval u = true <-> uniforms n u.
Proof.
  unfold uniforms. rewrite andb_true_iff, Nat.eqb_eq, forallb_forall, Forall_forall.
  split; intros [H1 H2]; (split; [exact H1|]); intros x Hx; specialize (H2 x Hx);
    unfold unit_interval in *; rewrite andb_true_iff, qle_iff, qlt_iff in *; exact H2.
Qed.
Lemma draw_mask_ok n rate ds mask ds' : draw_mask n rate ds = (Ok mask, ds') ->
  exists rejected u, ds = rejected ++ DRand u :: ds' /\ uniforms n u /\ mask = map (fun x => qlt rate x) u /\
    (exists x, In x u /\ (x <= rate)%Q) /\
    Forall (fun d => exists u, d = DRand u /\ uniforms n u /\ Forall (fun x => rate < x)%Q u) rejected.
Proof.
  induction ds as [|[v|u|k] ds IH]; cbn; try discriminate.
  destruct ((length u =? n) && forallb unit_interval u) eqn:U; [|discriminate]. apply uniforms_iff in U.
  destruct (forallb (fun b => b) (map (fun x => qlt rate x) u)) eqn:M; intros E.
  - destruct (IH E) as (rej & u' & -> & H2 & H3 & H4 & H5). exists (DRand u :: rej), u'. repeat (split; [easy|]).
    constructor; [|exact H5]. exists u. split; [reflexivity|]. split; [exact U|].
    rewrite forallb_forall in M. apply Forall_forall. intros x Hx. apply qlt_iff, M, in_map_iff. eauto.
  - injection E as <- <-. exists [], u. split; [reflexivity|]. split; [exact U|]. split; [reflexivity|]. split; [|constructor].
    assert (existsb negb (map (fun x => qlt rate x) u) = true) as X.
    { clear -M. induction u as [|x u IH]; cbn in *; [discriminate|]. destruct (qlt rate x); cbn in *; auto. }
    apply existsb_exists in X as (b & Hb & Nb). apply in_map_iff in Hb as (x & <- & Hx). exists x. split; [exact Hx|].
    apply negb_true_iff in Nb. apply Qnot_lt_le. intros C. apply qlt_iff in C. congruence.
Qed.
Lemma draw_mask_err n rate ds e ds' : draw_mask n rate ds = (Err e, ds') -> e = OutOfFuel.
Proof.
  induction ds as [|[v|u|k] ds IH]; cbn; try congruence.
  destruct ((length u =? n) && forallb unit_interval u); [|congruence].
  destruct (forallb (fun b => b) _); [exact IH|discriminate].
Qed.
Lemma mask_nth rate u i : i < length u -> nth i (map (fun x => qlt rate x) u) false = qlt rate (nth i u 0%Q).
Proof. intros H. rewrite (nth_indep _ false (qlt rate 0%Q)) by (rewrite map_length; exact H). exact (map_nth (fun x => qlt rate x) u 0%Q i). Qed.
Lemma qlt_false a b : qlt a b = false <-> (b <= a)%Q.
Proof. split; intros H. - apply Qnot_lt_le. intros C. apply qlt_iff in C. congruence.
  - destruct (qlt a b) eqn:E; [|reflexivity]. apply qlt_iff in E. lra. Qed.

Lemma draw_some_ok n rate ds mask ds' : draw_some n rate ds = (Ok mask, ds') ->
  exists rejected u, ds = rejected ++ DRand u :: ds' /\ uniforms n u /\ mask = map (fun x => qlt x rate) u /\
    (exists x, In x u /\ (x < rate)%Q).
Proof.
  induction ds as [|[v|u|k] ds IH]; cbn; try discriminate.
  destruct ((length u =? n) && forallb unit_interval u) eqn:U; [|discriminate]. apply uniforms_iff in U.
  destruct (existsb (fun b => b) (map (fun x => qlt x rate) u)) eqn:M; intros E.
  - injection E as <- <-. exists [], u. split; [reflexivity|]. split; [exact U|]. split; [reflexivity|].
    apply existsb_exists in M as (b & Hb & ->). apply in_map_iff in Hb as (x & Ex & Hx). exists x. split; [exact Hx|].
    apply qlt_iff; exact Ex.
  - destruct (IH E) as (rej & u' & -> & H2 & H3 & H4). exists (DRand u :: rej), u'. repeat (split; [easy|]). exact H4.
Qed.

(** masks drawn, then coordinates mutated *)
Definition masked (rate : Q) (arity : nat) (parent : list Z) : random (list Z) :=
  rbind (draw_mask (length parent) rate) (fun keep => mutate_where bin arity keep parent).
Lemma masked_ok rate arity parent ds child ds' : 2 <= arity <= 499 -> masked rate arity parent ds = (Ok child, ds') ->
  exists u, In (DRand u) ds /\ uniforms (length parent) u /\ mutated_some bin arity parent child (drawn_below u rate).
Proof.
  intros Ha E. apply rbind_ok in E as (keep & d1 & E1 & E).
  apply draw_mask_ok in E1 as (rej & u & -> & U & -> & (x & Hx & Lx) & _).
  exists u. split; [apply in_app_iff; right; left; reflexivity|]. split; [exact U|].
  assert (length (map (fun x => qlt rate x) u) = length parent) as L by (rewrite map_length; exact (proj1 U)).
  split; [split|].
  - exact (mutate_where_length _ _ _ _ _ _ L E).
  - intros i Hi. unfold drawn_below. destruct (Qlt_le_dec rate (nth i u 0%Q)) as [G|G].
    + right. split; [apply Qlt_not_le; exact G|]. unfold untouched. apply (mutate_where_kept _ _ _ _ _ _ _ L E).
      rewrite mask_nth by (rewrite (proj1 U); exact Hi). apply qlt_iff; exact G.
    + left. split; [exact G|]. unfold moved. apply (mutate_where_moved _ _ Ha _ _ _ _ _ L E Hi).
      rewrite mask_nth by (rewrite (proj1 U); exact Hi). apply qlt_false; exact G.
  - apply (In_nth _ _ 0%Q) in Hx as (i & Hi & Ei). exists i. rewrite <- (proj1 U). split; [exact Hi|].
    unfold drawn_below. rewrite Ei. exact Lx.
Qed.
Lemma masked_kept rate arity parent ds child ds' : masked rate arity parent ds = (Ok child, ds') ->
  exists u, In (DRand u) ds /\ uniforms (length parent) u /\ length child = length parent /\
    forall i, i < length parent -> ~ drawn_below u rate i -> untouched parent child i.
Proof.
  intros E. apply rbind_ok in E as (keep & d1 & E1 & E).
  apply draw_mask_ok in E1 as (rej & u & -> & U & -> & _).
  exists u. split; [apply in_app_iff; right; left; reflexivity|]. split; [exact U|].
  assert (length (map (fun x => qlt rate x) u) = length parent) as L by (rewrite map_length; exact (proj1 U)).
  split; [exact (mutate_where_length _ _ _ _ _ _ L E)|].
  intros i Hi N. apply (mutate_where_kept _ _ _ _ _ _ _ L E).
  rewrite mask_nth by (rewrite (proj1 U); exact Hi). apply qlt_iff. apply Qnot_le_lt. exact N.
Qed.
Lemma masked_err rate arity parent ds e ds' : 2 <= arity -> masked rate arity parent ds = (Err e, ds') -> e = OutOfFuel.
Proof.
  intros Ha E. apply rbind_err in E as [E|(keep & d1 & E1 & E)]; [exact (draw_mask_err _ _ _ _ _ E)|].
  exact (mutate_where_err _ _ Ha _ _ _ _ E).
Qed.
Lemma masked_low rate arity parent ds child ds' : arity <= 1 -> masked rate arity parent ds <> (Ok child, ds').
Proof.
  intros Ha E. apply rbind_ok in E as (keep & d1 & E1 & E).
  apply draw_mask_ok in E1 as (rej & u & -> & U & -> & (x & Hx & Lx) & _).
  assert (length (map (fun x => qlt rate x) u) = length parent) as L by (rewrite map_length; exact (proj1 U)).
  apply (In_nth _ _ 0%Q) in Hx as (i & Hi & Ei).
  refine (mutate_where_low _ _ Ha _ _ _ _ i L _ _ E); [rewrite <- (proj1 U); exact Hi|].
  rewrite mask_nth by exact Hi. apply qlt_false. rewrite Ei; exact Lx.
Qed.

Lemma randint_ok lo hi ds k ds' : randint lo hi ds = (Ok k, ds') -> lo <= k < hi /\ ds = DInt k :: ds'.
Proof.
  unfold randint. destruct (Nat.leb_spec hi lo); [discriminate|]. destruct ds as [|[v|u|j] ds]; try discriminate.
  destruct (Nat.leb_spec lo j), (Nat.ltb_spec j hi); cbn; try discriminate. intros E; injection E as <- <-. split; [lia|reflexivity].
Qed.
Lemma randint_err lo hi ds e ds' : lo < hi -> randint lo hi ds = (Err e, ds') -> e = OutOfFuel.
Proof.
  intros H. unfold randint. destruct (Nat.leb_spec hi lo); [lia|]. destruct ds as [|[v|u|j] ds]; try congruence.
  destruct ((lo <=? j) && (j <? hi)); congruence.
Qed.
Lemma rand_err n ds e ds' : rand n ds = (Err e, ds') -> e = OutOfFuel.
Proof. unfold rand. destruct ds as [|[v|u|j] ds]; try congruence. destruct ((length u =? n) && forallb unit_interval u); congruence. Qed.

Lemma discrete_masked parent arity : parent <> [] ->
  discrete_mutation bin parent arity = masked (1 / inject_Z (Z.of_nat (length parent))) arity parent.
Proof. intros H. unfold discrete_mutation. destruct parent; [contradiction|reflexivity]. Qed.
Lemma portfolio_masked parent i arity : 2 <= length parent ->
  portfolio_mutation bin parent (Some i) arity = masked (i / inject_Z (Z.of_nat (length parent))) arity parent.
Proof. intros H. unfold portfolio_mutation. destruct parent as [|a [|b parent]]; cbn in H; try lia. reflexivity. Qed.
End S.

Section Roulette.
Context {K : Type}.
Implicit Types (x : K * Q) (l : list (K * Q)).
Lemma min_by_in l : forall x, In (min_by x l) (x :: l).
Proof.
  induction l as [|y l IH]; intros x; cbn; [tauto|]. destruct (qlt (snd y) (snd x)).
  - destruct (IH y) as [E|E]; [right; left; exact E|right; right; exact E].
  - destruct (IH x) as [E|E]; [left; exact E|right; right; exact E].
Qed.
Lemma min_by_le l : forall x y, In y (x :: l) -> (snd (min_by x l) <= snd y)%Q.
Proof.
  induction l as [|z l IH]; intros x y H; cbn.
  - destruct H as [->|[]]. lra.
  - destruct (qlt (snd z) (snd x)) eqn:C.
    + apply qlt_iff in C. assert (G := IH z z (or_introl eq_refl)).
      destruct H as [->|[->|H]]; [lra|exact G|apply IH; right; exact H].
    + apply qlt_false in C. assert (G := IH x x (or_introl eq_refl)).
      destruct H as [->|[->|H]]; [exact G|lra|apply IH; right; exact H].
Qed.
Definition select_all (archive : list (K * Q)) : list nat -> result (list (K * Q)) :=
  fix sel (is : list nat) : result (list (K * Q)) :=
    match is with
    | [] => Ok []
    | i :: is => match nth_error archive i with Some x => bind (sel is) (fun l => Ok (x :: l)) | None => Err OutOfFuel end
    end.
Lemma select_all_ok archive is : forall l, select_all archive is = Ok l -> Forall2 (fun i x => nth_error archive i = Some x) is l.
Proof.
  induction is as [|i is IH]; cbn; intros l E.
  - injection E as <-; constructor.
  - destruct (nth_error archive i) as [x|] eqn:N; [|discriminate]. unfold bind in E.
    destruct (select_all archive is) as [l'|] eqn:El; [|discriminate]. injection E as <-. constructor; [exact N|exact (IH _ eq_refl)].
Qed.
Lemma nodup_length_eq (l : list nat) : length (nodup Nat.eq_dec l) = length l -> NoDup l.
Proof.
  induction l as [|a l IH]; cbn; intros E; [constructor|].
  assert (length (nodup Nat.eq_dec l) <= length l) as Hl.
  { clear. induction l as [|b l IH]; cbn; [lia|]. destruct (in_dec Nat.eq_dec b l); cbn; lia. }
  destruct (in_dec Nat.eq_dec a l) as [I|I]; cbn in E; [lia|]. constructor; [exact I|apply IH; lia].
Qed.
Lemma roulette_ok (archive : list (K * Q)) num indices k : get_roulette archive num indices = Ok k ->
  length indices = min (match num with Some n => n | None => default_num (length archive) end) (length archive) /\
  NoDup indices /\ exists x l, Forall2 (fun i x => nth_error archive i = Some x) indices (x :: l) /\ k = fst (min_by x l).
Proof.
  unfold get_roulette. destruct (match archive with [] => true | _ => false end); [discriminate|].
  set (n := match num with Some n => n | None => _ end). cbv zeta.
  destruct ((length indices =? min n (length archive)) && (length (nodup Nat.eq_dec indices) =? length indices)) eqn:B; [|discriminate].
  apply andb_true_iff in B as [B1 B2]. apply Nat.eqb_eq in B1, B2.
  change (bind (select_all archive indices) (fun chosen => match chosen with [] => Err ValueError | x :: l => Ok (fst (min_by x l)) end) = Ok k -> 
    length indices = min n (length archive) /\
  NoDup indices /\ exists x l, Forall2 (fun i x => nth_error archive i = Some x) indices (x :: l) /\ k = fst (min_by x l)).
  destruct (select_all archive indices) as [[|x l]|] eqn:Es; cbn [bind]; try discriminate.
  intros E. injection E as <-. split; [exact B1|]. split; [apply nodup_length_eq; exact B2|].
  exists x, l. split; [apply select_all_ok; exact Es|reflexivity].
Qed.
End Roulette.

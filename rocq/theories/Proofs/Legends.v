(** Lemmas about the placement of the legends *)
From Coq Require Import List Arith QArith Lia Lqa Bool.
From Verif.Model Require Import Prelude MultiValue Legends.
From Verif.Spec Require Import Legends.
From Verif.Proofs Require Import MultiValue.
Import ListNotations.
Open Scope Q_scope.

(** * Sums *)
Lemma qnat_S n : qnat (S n) == qnat n + 1.
Proof. unfold qnat. rewrite Nat2Z.inj_succ. unfold Z.succ. rewrite inject_Z_plus. reflexivity. Qed.
Lemma qnat_nonneg n : 0 <= qnat n.
Proof. unfold qnat. change 0 with (inject_Z 0). rewrite <- Zle_Qle. lia. Qed.
Lemma qnat_pos n : (1 <= n)%nat -> 1 <= qnat n.
Proof. intros H. unfold qnat. change 1 with (inject_Z 1). rewrite <- Zle_Qle. lia. Qed.
Lemma qnat_add a b : qnat (a + b) == qnat a + qnat b.
Proof. unfold qnat. rewrite Nat2Z.inj_add, inject_Z_plus. reflexivity. Qed.
Lemma qsum_app a b : qsum (a ++ b) == qsum a + qsum b.
Proof. induction a as [|x a IH]; cbn; fold (qsum b); [|fold (qsum (a ++ b)); fold (qsum a); rewrite IH]; ring. Qed.
(** the moves of the members of a group whose first member goes to [c] *)
Fixpoint diffs (d c : Q) (l : list Q) : list Q := match l with [] => [] | x :: l => (x - c) :: diffs d (c + d) l end.
Fixpoint prefix_ok (s : Q) (l : list Q) : Prop := match l with [] => True | x :: l => 0 <= s + x /\ prefix_ok (s + x) l end.
Lemma prefix_shift d l : forall s s' c c', prefix_ok s (diffs d c l) -> s <= s' -> s <= s' + qnat (length l) * (c - c') -> prefix_ok s' (diffs d c' l).
Proof.
  induction l as [|x l IH]; intros s s' c c' H A B; [exact I|]. cbn [diffs prefix_ok length] in *. destruct H as (H1 & H2). rewrite qnat_S in B. pose proof (qnat_nonneg (length l)) as N.
  assert (K : s <= s' + (c - c')).
  { destruct (Qlt_le_dec c c') as [L|L]; [|lra]. nra. }
  split; [lra|]. apply IH with (s := s + (x - c)) (c := c + d); [exact H2|lra|]. setoid_replace (c + d - (c' + d)) with (c - c') by ring. lra.
Qed.
Lemma diffs_app d a b : forall c, exists c', c' == c + qnat (length a) * d /\ diffs d c (a ++ b) = diffs d c a ++ diffs d c' b.
Proof.
  induction a as [|x a IH]; intros c; [exists c; split; [cbn; unfold qnat; cbn; ring|reflexivity]|]. destruct (IH (c + d)) as (c' & E & F). exists c'. cbn [length app diffs]. rewrite qnat_S, F. split; [rewrite E; ring|reflexivity].
Qed.
Lemma prefix_mono l : forall s s', s <= s' -> prefix_ok s l -> prefix_ok s' l.
Proof. induction l as [|x l IH]; intros s s' L H; [exact I|]. cbn [prefix_ok] in *. destruct H as (H1 & H2). split; [lra|]. apply (IH (s + x)); [lra|exact H2]. Qed.
Lemma prefix_app a b : forall s, prefix_ok s a -> prefix_ok (s + qsum a) b -> prefix_ok s (a ++ b).
Proof.
  induction a as [|x a IH]; intros s H K; cbn [app prefix_ok] in *; [apply (prefix_mono b (s + qsum [])); [cbn; lra|exact K]|].
  destruct H as (H1 & H2). split; [exact H1|]. apply IH; [exact H2|]. apply (prefix_mono b (s + qsum (x :: a))); [|exact K]. cbn. fold (qsum a). lra.
Qed.
Lemma qsum_diffs_shift d l : forall c c', qsum (diffs d c' l) == qsum (diffs d c l) + qnat (length l) * (c - c').
Proof.
  induction l as [|x l IH]; intros c c'; cbn [diffs length]; [cbn; unfold qnat; cbn; ring|]. rewrite qnat_S. cbn. fold (qsum (diffs d (c' + d) l)) (qsum (diffs d (c + d) l)). rewrite (IH (c + d) (c' + d)). ring.
Qed.
Lemma qsum_diffs d l : forall c, 2 * qsum (diffs d c l) == 2 * qsum l - 2 * qnat (length l) * c - d * qnat (length l) * (qnat (length l) - 1).
Proof.
  induction l as [|x l IH]; intros c; cbn [diffs length]; [cbn; unfold qnat; cbn; ring|]. rewrite qnat_S. cbn. fold (qsum (diffs d (c + d) l)) (qsum l). rewrite Qmult_plus_distr_r, (IH (c + d)). ring.
Qed.
(** * Abel's summation *)
Fixpoint dot (l m : list Q) : Q := match l, m with x :: l, y :: m => x * y + dot l m | _, _ => 0 end.
Fixpoint falling (l : list Q) : Prop := match l with x :: (y :: _) as l' => y <= x /\ falling l' | _ => True end.
Lemma abel l : forall e s x0, length e = length l -> prefix_ok s l -> falling (x0 :: e) -> s + qsum l == 0 -> 0 <= s -> 0 <= s * x0 + dot l e.
Proof.
  induction l as [|x l IH]; intros [|y e] s x0 L H F Z P; try discriminate L.
  - cbn in *. assert (E : s == 0) by lra. rewrite E. lra.
  - cbn [prefix_ok dot] in *. destruct H as (H1 & H2). destruct F as (F1 & F2). specialize (IH e (s + x) y ltac:(now injection L) H2 F2). cbn in Z. fold (qsum l) in Z. specialize (IH ltac:(lra) H1). nra.
Qed.
Lemma abel0 l e : length e = length l -> prefix_ok 0 l -> falling e -> qsum l == 0 -> 0 <= dot l e.
Proof.
  intros L H F Z. destruct e as [|y e]; [destruct l; cbn; lra|]. assert (A : 0 <= 0 * y + dot l (y :: e)); [|lra]. apply abel; try assumption; try lra. cbn. split; [lra|exact F].
Qed.

(** * The groups *)
Definition first_of (d : Q) (g : group) : Q := lower d g + d / 2.
Definition good (d : Q) (g : group) : Prop :=
  g_init g <> [] /\ length (g_indices g) = length (g_init g) /\ qsum (diffs d (first_of d g) (g_init g)) == 0 /\ prefix_ok 0 (diffs d (first_of d g) (g_init g)).
Lemma mean_balanced d g : g_init g <> [] -> length (g_indices g) = length (g_init g) -> g_position g = qsum (g_init g) / qnat (length (g_init g)) ->
  qsum (diffs d (first_of d g) (g_init g)) == 0.
Proof.
  intros N L P. pose proof (qsum_diffs d (g_init g) (first_of d g)) as E. assert (A : 1 <= qnat (length (g_init g))) by (apply qnat_pos; destruct (g_init g); [now elim N|cbn; lia]).
  assert (B : qnat (length (g_init g)) * g_position g == qsum (g_init g)) by (rewrite P; field; lra).
  assert (C : 2 * qnat (length (g_init g)) * first_of d g == 2 * qsum (g_init g) - d * qnat (length (g_init g)) * (qnat (length (g_init g)) - 1)).
  { rewrite <- B. unfold first_of, lower, half_span. rewrite L. field. }
  rewrite C in E. lra.
Qed.
Lemma forallb_pairs {A} (p : A * A -> bool) l : forallb p (pairs l) = true <-> forall k a b, nth_error l k = Some a -> nth_error l (S k) = Some b -> p (b, a) = true.
Proof.
  unfold pairs. destruct l as [|x l]; [split; [intros _ [|k] ? ? H; discriminate H|reflexivity]|]. cbn [tl]. revert x. induction l as [|y l IH]; intros x; cbn [removelast combine forallb].
  - split; [intros _ [|k] ? ? _ H; [discriminate H|destruct k; discriminate H]|reflexivity].
  - change (combine l (removelast (y :: l))) with (combine l (removelast (y :: l))). rewrite andb_true_iff. cbn [removelast]. specialize (IH y). split.
    + intros (E & F) [|k] a b H K; [cbn in *; congruence|]. cbn [nth_error] in H, K. rewrite IH in F. eapply F; eassumption.
    + intros H. split; [apply (H 0%nat); reflexivity|]. apply IH. intros k a b E F. apply (H (S k)); assumption.
Qed.

Section Merging.
  Variable d : Q.
  Lemma merge_good g h c : good d g -> good d h -> combine_with g h = Ok c -> lower d h < upper d g -> good d c.
  Proof.
    intros (Ng & Lg & Zg & Pg) (Nh & Lh & Zh & Ph) E O. unfold combine_with, new_group in E.
    destruct (negb (forallb _ (pairs (g_indices g ++ _)))); [discriminate E|]. destruct (negb (forallb _ _)); [discriminate E|]. destruct (negb _) eqn:LL; [discriminate E|].
    apply negb_false_iff, Nat.eqb_eq in LL. injection E as <-. cbn [g_indices g_init g_position].
    set (cc := Group (g_indices g ++ g_indices h) (g_init g ++ g_init h) (qsum (g_init g ++ g_init h) / qnat (length (g_init g ++ g_init h)))).
    assert (Nc : g_init cc <> []) by (cbn; destruct (g_init g); [now elim Ng|discriminate]).
    pose proof (mean_balanced d cc Nc LL eq_refl) as Zc. split; [exact Nc|]. split; [exact LL|]. split; [exact Zc|].
    set (c := first_of d cc) in *. change (g_init cc) with (g_init g ++ g_init h) in *. destruct (diffs_app d (g_init g) (g_init h) c) as (c' & Ec & Ed). rewrite Ed in *.
    set (a := first_of d g) in *. set (b := first_of d h) in *. set (n1 := qnat (length (g_init g))) in *. set (n2 := qnat (length (g_init h))).
    assert (A1 : 1 <= n1) by (apply qnat_pos; destruct (g_init g); [now elim Ng|cbn; lia]). assert (A2 : 1 <= n2) by (apply qnat_pos; destruct (g_init h); [now elim Nh|cbn; lia]).
    rewrite qsum_app, (qsum_diffs_shift d (g_init g) a c), (qsum_diffs_shift d (g_init h) b c'), Zg, Zh in Zc. fold n1 n2 in Zc.
    assert (O' : b - n1 * d < a).
    { unfold a, b, first_of. unfold lower, upper, half_span in O |- *.
      rewrite Lg, Lh in O. rewrite Lg, Lh. fold n1 n2 in O. fold n1 n2.
      clear - O. clearbody n1 n2. assert (E : n1 * d == n1 * d / 2 + n1 * d / 2) by field. generalize dependent (n2 * d / 2). generalize dependent (n1 * d / 2). intros v E u O. lra. }
    assert (Be : b - c' < a - c) by (rewrite Ec; fold n1; lra).
    assert (Zc' : n1 * (a - c) + n2 * (b - c') == 0) by lra.
    assert (Al : 0 <= a - c) by (destruct (Qlt_le_dec (a - c) 0) as [K|K]; [exfalso; assert (n2 * (b - c') < 0) by nra; nra|exact K]).
    apply prefix_app.
    - apply prefix_shift with (s := 0) (c := a); [exact Pg|lra|]. fold n1. nra.
    - rewrite (Qplus_0_l (qsum _)) || idtac. apply prefix_shift with (s := 0) (c := b); [exact Ph| |].
      + rewrite (qsum_diffs_shift d (g_init g) a c), Zg. fold n1. nra.
      + rewrite (qsum_diffs_shift d (g_init g) a c), Zg. fold n1 n2. lra.
  Qed.
  (** the groups cut the positions *)
  Definition cut (positions : list Q) (gs : list group) : Prop :=
    concat (map g_indices gs) = seq 0 (length positions) /\ concat (map g_init gs) = positions /\ Forall (good d) gs.
  Definition rising (l : list Q) : Prop := forall k a b, nth_error l k = Some a -> nth_error l (S k) = Some b -> a <= b.
  Lemma rising_part a b c : rising (a ++ b ++ c) -> rising b.
  Proof.
    intros H k x y E F. apply (H (length a + k)%nat).
    - rewrite nth_error_app2, Nat.add_comm, Nat.add_sub by lia. rewrite nth_error_app1; [exact E|]. apply nth_error_Some. congruence.
    - rewrite nth_error_app2 by lia. replace (S (length a + k) - length a)%nat with (S k) by lia. rewrite nth_error_app1; [exact F|]. apply nth_error_Some. congruence.
  Qed.
  Lemma seq_part a b c s n : a ++ b ++ c = seq s n -> forall k x y, nth_error b k = Some x -> nth_error b (S k) = Some y -> y = S x.
  Proof.
    intros H k x y E F.
    assert (A : nth_error (seq s n) (length a + k) = Some x) by (rewrite <- H, nth_error_app2, Nat.add_comm, Nat.add_sub by lia; rewrite nth_error_app1; [exact E|]; apply nth_error_Some; congruence).
    assert (B : nth_error (seq s n) (length a + S k) = Some y) by (rewrite <- H, nth_error_app2, Nat.add_comm, Nat.add_sub by lia; rewrite nth_error_app1; [exact F|]; apply nth_error_Some; congruence).
    assert (LA : (length a + k < n)%nat) by (rewrite <- (seq_length n s); apply nth_error_Some; congruence). assert (LB : (length a + S k < n)%nat) by (rewrite <- (seq_length n s); apply nth_error_Some; congruence).
    rewrite (nth_error_nth' _ 0%nat) in A by (rewrite seq_length; assumption). rewrite (nth_error_nth' _ 0%nat) in B by (rewrite seq_length; assumption). rewrite seq_nth in A by assumption. rewrite seq_nth in B by assumption. assert (A' : (s + (length a + k))%nat = x) by congruence. assert (B' : (s + (length a + S k))%nat = y) by congruence. lia.
  Qed.
  Lemma combine_ok acc g h rest positions : rising positions -> cut positions (acc ++ g :: h :: rest) -> exists c, combine_with g h = Ok c /\ g_indices c = g_indices g ++ g_indices h /\ g_init c = g_init g ++ g_init h.
  Proof.
    intros R0 (I0 & P0 & G0). rewrite map_app, concat_app in I0, P0. cbn [map concat] in I0, P0. rewrite (app_assoc (g_indices g)) in I0. rewrite (app_assoc (g_init g)) in P0.
    apply Forall_app in G0. destruct G0 as (_ & G0). inversion G0 as [|? ? Gg G1]. inversion G1 as [|? ? Gh _]. subst.
    unfold combine_with, new_group.
    destruct (forallb _ (pairs (g_indices g ++ g_indices h))) eqn:E1.
    2:{ exfalso. apply not_true_iff_false in E1. apply E1. apply forallb_pairs. intros k a b A B. cbn. apply Nat.eqb_eq. eapply seq_part; eassumption. }
    destruct (forallb _ (pairs (g_init g ++ g_init h))) eqn:E2.
    2:{ exfalso. apply not_true_iff_false in E2. apply E2. apply forallb_pairs. intros k a b A B. cbn. apply qle_iff. eapply rising_part; eassumption. }
    destruct Gg as (_ & Lg & _). destruct Gh as (_ & Lh & _). rewrite !app_length, Lg, Lh, Nat.eqb_refl. cbn. eexists. split; [reflexivity|]. cbn. auto.
  Qed.
  (** no two neighbours overlap *)
  Fixpoint clear_of (gs : list group) : Prop := match gs with g :: (h :: _) as gs' => upper d g <= lower d h /\ clear_of gs' | _ => True end.
  Lemma scan_none gs : forall acc, scan d acc gs = None -> clear_of gs.
  Proof.
    induction gs as [|g [|h gs] IH]; intros acc H; [exact I|exact I|]. cbn [scan] in H. destruct (qlt _ _) eqn:E; [discriminate H|]. apply qlt_false in E. split; [exact E|]. eapply IH, H.
  Qed.
  Lemma scan_some positions gs : rising positions -> forall acc r, cut positions (acc ++ gs) -> scan d acc gs = Some r -> exists gs', r = Ok gs' /\ cut positions gs' /\ S (length gs') = length (acc ++ gs).
  Proof.
    intros R0. induction gs as [|g [|h gs] IH]; intros acc r C H; [discriminate H|discriminate H|]. cbn [scan] in H. destruct (qlt _ _) eqn:E.
    - injection H as <-. apply qlt_iff in E. destruct (combine_ok acc g h gs positions R0 C) as (c & Ec & Ei & Ep). rewrite Ec. cbn [bind]. eexists. split; [reflexivity|]. split; [|rewrite !app_length; cbn; lia].
      destruct C as (C1 & C2 & C3). rewrite map_app, concat_app in C1, C2. cbn [map concat] in C1, C2. apply Forall_app in C3. destruct C3 as (C3 & C4). inversion C4 as [|? ? G1 C5]. inversion C5 as [|? ? G2 C6]. subst.
      repeat split.
      + rewrite map_app, concat_app. cbn [map concat]. rewrite Ei, <- app_assoc. exact C1.
      + rewrite map_app, concat_app. cbn [map concat]. now rewrite Ep, <- app_assoc.
      + apply Forall_app. split; [exact C3|]. constructor; [|exact C6]. exact (merge_good g h c G1 G2 Ec E).
    - apply (IH (acc ++ [g])) in H; [|now rewrite <- app_assoc]. destruct H as (gs' & A & B & L). exists gs'. split; [exact A|]. split; [exact B|]. rewrite L, <- app_assoc. reflexivity.
  Qed.
  Lemma merge_spec positions : rising positions -> forall fuel gs, cut positions gs -> (length gs < fuel)%nat -> exists gs', merge d fuel gs = Ok gs' /\ cut positions gs' /\ clear_of gs'.
  Proof.
    intros R0. induction fuel as [|fuel IH]; intros gs C L; [lia|]. cbn [merge]. destruct (scan d [] gs) as [r|] eqn:E.
    - destruct (scan_some positions gs R0 [] r C E) as (gs' & -> & C' & L'). cbn [bind]. apply IH; [exact C'|]. cbn in L'. lia.
    - exists gs. split; [reflexivity|]. split; [exact C|]. eapply scan_none, E.
  Qed.
  Lemma singles_spec l : forall k, exists gs, singles k l = Ok gs /\ length gs = length l /\ concat (map g_indices gs) = seq k (length l) /\ concat (map g_init gs) = l /\ Forall (good d) gs.
  Proof.
    induction l as [|x l IH]; intros k; [exists []; cbn; auto|]. destruct (IH (S k)) as (gs & E & L & A & B & C). cbn [singles]. unfold new_group. cbn [pairs tl removelast combine forallb negb length Nat.eqb bind]. rewrite E. cbn [bind].
    eexists. split; [reflexivity|]. cbn [length map concat g_indices g_init app seq]. rewrite L, A, B. repeat split. constructor; [|exact C].
    set (g := Group _ _ _). assert (N : g_init g <> []) by discriminate. pose proof (mean_balanced d g N eq_refl eq_refl) as Z. split; [exact N|]. split; [reflexivity|]. split; [exact Z|].
    cbn [g_init g diffs prefix_ok] in *. split; [|exact I]. cbn in Z. lra.
  Qed.
  (** * The positions which the groups give *)
  Definition placed (gs : list group) : list Q := concat (map (get_positions d) gs).
  Lemma get_positions_length g : length (get_positions d g) = length (g_indices g).
  Proof. unfold get_positions. now rewrite map_length, seq_length. Qed.
  Lemma set_at_app a x b v : set_at (a ++ x :: b) (length a) v = Ok (a ++ v :: b).
  Proof. induction a as [|y a IH]; [reflexivity|]. cbn [app set_at length]. rewrite IH. reflexivity. Qed.
  Lemma set_all_seq vs : forall a b, (length b = length vs)%nat -> set_all (a ++ b) (combine (seq (length a) (length vs)) vs) = Ok (a ++ vs).
  Proof.
    induction vs as [|v vs IH]; intros a [|x b] L; try discriminate L; [reflexivity|]. cbn [length seq combine set_all]. rewrite set_at_app. cbn [bind].
    replace (a ++ v :: b) with ((a ++ [v]) ++ b) by now rewrite <- app_assoc. replace (S (length a)) with (length (a ++ [v])) by (rewrite app_length; cbn; lia). rewrite IH by now injection L. now rewrite <- app_assoc.
  Qed.
  Lemma set_all_app a b : forall l, set_all l (a ++ b) = bind (set_all l a) (fun l => set_all l b).
  Proof. induction a as [|(i, v) a IH]; intros l; [reflexivity|]. cbn [app set_all]. destruct (set_at l i v); cbn [bind]; [apply IH|reflexivity]. Qed.
  Lemma combine_app {A B} (a : list A) (b : list B) a' b' : length a = length b -> combine (a ++ a') (b ++ b') = combine a b ++ combine a' b'.
  Proof. revert b. induction a as [|x a IH]; intros [|y b] L; try discriminate L; [reflexivity|]. cbn. now rewrite IH by now injection L. Qed.
  Lemma place_spec gs : forall l, place d l gs = set_all l (combine (concat (map g_indices gs)) (placed gs)).
  Proof.
    induction gs as [|g gs IH]; intros l; [reflexivity|]. cbn [place map concat]. unfold placed. cbn [map concat]. rewrite combine_app by (symmetry; apply get_positions_length). rewrite set_all_app.
    destruct (set_all l _); cbn [bind]; [apply IH|reflexivity].
  Qed.
  Lemma placed_length gs : length (placed gs) = length (concat (map g_indices gs)).
  Proof. unfold placed. induction gs as [|g gs IH]; [reflexivity|]. cbn [map concat]. now rewrite !app_length, IH, get_positions_length. Qed.
  Lemma place_cut positions gs : cut positions gs -> place d positions gs = Ok (placed gs) /\ length (placed gs) = length positions.
  Proof.
    intros (A & _ & _). assert (L : length (placed gs) = length positions) by (rewrite placed_length, A; apply seq_length). split; [|exact L]. rewrite place_spec, A, <- L.
    apply (set_all_seq (placed gs) [] positions). now symmetry.
  Qed.
End Merging.

Section Optimal.
  Variable d : Q.
  Definition line (c : Q) (s n : nat) : list Q := map (fun k => c + qnat k * d) (seq s n).
  Lemma line_S c s n : line c s (S n) = (c + qnat s * d) :: line c (S s) n.
  Proof. reflexivity. Qed.
  Lemma apart_line c l : apart d l -> forall n s, (forall y m, l = y :: m -> c + qnat (s + n) * d <= y) -> apart d (line c s n ++ l).
  Proof.
    intros A. induction n as [|n IH]; intros s H; [exact A|]. rewrite line_S. specialize (IH (S s)). replace (S s + n)%nat with (s + S n)%nat in IH by lia. specialize (IH H).
    destruct n as [|n].
    - cbn [line seq map app] in *. destruct l as [|y l]; [exact I|]. split; [|exact IH]. specialize (H y l eq_refl). rewrite Nat.add_1_r, qnat_S in H. lra.
    - rewrite line_S in IH |- *. cbn [app apart] in *. split; [|exact IH]. rewrite qnat_S. lra.
  Qed.
  Lemma placed_apart gs : Forall (good d) gs -> clear_of d gs -> apart d (placed d gs).
  Proof.
    induction gs as [|g gs IH]; intros G C; [exact I|]. inversion G as [|? ? Gg Gs]; subst. unfold placed. cbn [map concat]. fold (placed d gs).
    change (get_positions d g) with (line (lower d g + d / 2) 0 (length (g_indices g))). apply apart_line.
    - apply IH; [exact Gs|]. destruct gs; [exact I|apply C].
    - intros y m E. destruct gs as [|h gs]; [discriminate E|]. inversion Gs as [|? ? Gh _]; subst. destruct C as (C & _). destruct Gh as (Nh & Lh & _). unfold placed in E. cbn [map concat] in E. unfold get_positions in E.
      destruct (length (g_indices h)) eqn:En; [destruct (g_init h); [now elim Nh|discriminate Lh]|]. cbn [seq map app] in E. injection E as <- _. cbn [Nat.add]. unfold upper, lower, half_span in *.
      rewrite En in *. set (u := qnat (length (g_indices g))) in *.
      assert (E1 : u * d == u * d / 2 + u * d / 2) by field. change (qnat 0) with 0. clear - C E1.
      rewrite Qmult_0_l. generalize dependent (u * d / 2). generalize (u * d). generalize dependent (qnat (S n) * d / 2). generalize (d / 2). intros. lra.
  Qed.
  Fixpoint cross (p r q : list Q) : Q := match p, r, q with x :: p, y :: r, z :: q => (x - y) * (y - z) + cross p r q | _, _, _ => 0 end.
  Lemma cross_app p r q : forall p' r' q', length p = length r -> length r = length q -> cross (p ++ p') (r ++ r') (q ++ q') == cross p r q + cross p' r' q'.
  Proof.
    revert r q. induction p as [|x p IH]; intros [|y r] [|z q] p' r' q' A B; try discriminate A; try discriminate B; cbn [app cross]; [ring|].
    assert (A' : length p = length r) by now injection A. assert (B' : length r = length q) by now injection B. rewrite (IH r q p' r' q' A' B'). ring.
  Qed.
  Lemma cross_moves p : forall r q, length p = length r -> length r = length q -> moves q p == moves r p + moves q r + 2 * cross p r q.
  Proof.
    induction p as [|x p IH]; intros [|y r] [|z q] A B; try discriminate A; try discriminate B; cbn [moves cross]; [ring|].
    assert (A' : length p = length r) by now injection A. assert (B' : length r = length q) by now injection B. rewrite (IH r q A' B'). ring.
  Qed.
  Fixpoint subs (r q : list Q) : list Q := match r, q with y :: r, z :: q => (y - z) :: subs r q | _, _ => [] end.
  Lemma subs_length r : forall q, length r = length q -> length (subs r q) = length r.
  Proof. induction r as [|y r IH]; intros [|z q] L; try discriminate L; [reflexivity|]. cbn. now rewrite IH by now injection L. Qed.
  Lemma cross_dot c init : forall s c' q, c' == c + qnat s * d -> length q = length init -> cross init (line c s (length init)) q == dot (diffs d c' init) (subs (line c s (length init)) q).
  Proof.
    induction init as [|x init IH]; intros s c' [|z q] E L; try discriminate L; [reflexivity|]. cbn [length]. rewrite line_S. cbn [cross diffs subs dot]. rewrite (IH (S s) (c' + d)); [|rewrite E, qnat_S; ring|now injection L]. generalize (dot (diffs d (c' + d) init) (subs (line c (S s) (length init)) q)). intros t. rewrite E. ring.
  Qed.
  Lemma subs_falling c q : apart d q -> forall s, falling (subs (line c s (length q)) q).
  Proof.
    induction q as [|z q IH]; intros A s; [exact I|]. cbn [length]. rewrite line_S. cbn [subs]. destruct q as [|w q]; [exact I|]. destruct A as (A1 & A2). specialize (IH A2 (S s)). cbn [length] in *. rewrite line_S in *. cbn [subs falling] in *. split; [rewrite qnat_S; lra|exact IH].
  Qed.
  Lemma apart_app a : forall b, apart d (a ++ b) -> apart d a /\ apart d b.
  Proof.
    induction a as [|x a IH]; intros b A; [split; [exact I|exact A]|]. destruct a as [|y a].
    - split; [exact I|]. cbn in A. destruct b; [exact I|apply A].
    - cbn [app] in *. destruct A as (A1 & A2). destruct (IH b A2) as (B1 & B2). split; [split; assumption|exact B2].
  Qed.
  Lemma cross_group g q : good d g -> length q = length (g_init g) -> apart d q -> 0 <= cross (g_init g) (get_positions d g) q.
  Proof.
    intros (N & L & Z & P) Lq A. change (get_positions d g) with (line (first_of d g) 0 (length (g_indices g))). rewrite L, (cross_dot (first_of d g) (g_init g) 0 (first_of d g) q); [|unfold qnat; cbn; ring|exact Lq].
    assert (Ll : length (line (first_of d g) 0 (length (g_init g))) = length (g_init g)) by (unfold line; now rewrite map_length, seq_length).
    assert (Ld : forall l c, length (diffs d c l) = length l) by (induction l; intros; cbn; [reflexivity|now rewrite IHl]).
    apply abel0; [rewrite subs_length by congruence; now rewrite Ll, Ld|exact P| |exact Z]. rewrite <- Lq. apply subs_falling, A.
  Qed.
  Lemma cross_all gs : Forall (good d) gs -> forall q, length q = length (concat (map g_init gs)) -> apart d q -> 0 <= cross (concat (map g_init gs)) (placed d gs) q.
  Proof.
    induction gs as [|g gs IH]; intros G q L A; [cbn; lra|]. inversion G as [|? ? Gg Gs]; subst. unfold placed. cbn [map concat] in *. fold (placed d gs). rewrite app_length in L.
    assert (Eq : q = firstn (length (g_init g)) q ++ skipn (length (g_init g)) q) by now rewrite firstn_skipn. rewrite Eq in A |- *. apply apart_app in A. destruct A as (A1 & A2).
    assert (L1 : length (firstn (length (g_init g)) q) = length (g_init g)) by (rewrite firstn_length; lia).
    assert (Lg : length (get_positions d g) = length (g_init g)) by (rewrite get_positions_length; apply Gg).
    assert (Lf : length (get_positions d g) = length (firstn (length (g_init g)) q)) by congruence. rewrite (cross_app _ _ _ _ _ _ (eq_sym Lg) Lf). pose proof (cross_group g _ Gg L1 A1) as C1. assert (L2 : length (skipn (length (g_init g)) q) = length (concat (map g_init gs))) by (rewrite skipn_length; lia).
    specialize (IH Gs _ L2 A2). lra.
  Qed.
  Lemma rising_pairs l : forallb (fun p => qle (snd p) (fst p)) (pairs l) = true <-> rising l.
  Proof. rewrite forallb_pairs. unfold rising. split; intros H k a b A B; apply qle_iff; [|apply (H k a b A B)]. exact (H k a b A B). Qed.
  Lemma placements_spec positions : rising positions -> exists r, compute_best_placements d positions = Ok r /\ length r = length positions /\ apart d r /\
    forall q, length q = length positions -> apart d q -> moves r positions + moves q r <= moves q positions.
  Proof.
    intros R0. unfold compute_best_placements. rewrite (proj2 (rising_pairs positions) R0). cbn [negb]. destruct (singles_spec d positions 0) as (gs & E & L & A & B & C). rewrite E. cbn [bind].
    destruct (merge_spec d positions R0 (S (length gs)) gs (conj A (conj B C)) ltac:(lia)) as (gs' & E' & C' & F). rewrite E'. cbn [bind]. destruct (place_cut d positions gs' C') as (P & Lp). rewrite P. exists (placed d gs').
    split; [reflexivity|]. split; [exact Lp|]. destruct C' as (C1 & C2 & C3). split; [now apply placed_apart|]. intros q Lq Aq.
    rewrite (cross_moves positions (placed d gs') q (eq_sym Lp) ltac:(congruence)). pose proof (cross_all gs' C3 q ltac:(congruence) Aq) as K. rewrite C2 in K. lra.
  Qed.
End Optimal.
Lemma apart0_rising l : apart 0 l <-> rising l.
Proof.
  induction l as [|x [|y l] IH].
  - split; [intros _ [|k] a b H; discriminate H|intros _; exact I].
  - split; [intros _ [|[|k]] a b H K; discriminate K|intros _; exact I].
  - change (apart 0 (x :: y :: l)) with (x + 0 <= y /\ apart 0 (y :: l)). rewrite IH. split.
    + intros (A & B) [|k] a b H K; [cbn in H, K; assert (a = x) by congruence; assert (b = y) by congruence; subst; lra|]. exact (B k a b H K).
    + intros H. split; [specialize (H 0%nat x y eq_refl eq_refl); lra|]. intros k a b A B. exact (H (S k) a b A B).
Qed.
Lemma sq_nonneg x : 0 <= x * x.
Proof. destruct (Qlt_le_dec x 0); nra. Qed.
Lemma moves_nonneg l : forall m, 0 <= moves l m.
Proof. induction l as [|x l IH]; intros [|y m]; cbn [moves]; try lra. specialize (IH m). pose proof (sq_nonneg (x - y)). lra. Qed.
Lemma moves_zero l : forall m, length l = length m -> moves l m <= 0 -> Forall2 Qeq l m.
Proof.
  induction l as [|x l IH]; intros [|y m] L H; try discriminate L; constructor.
  - cbn [moves] in H. pose proof (moves_nonneg l m). destruct (Qlt_le_dec x y); [exfalso; nra|]. destruct (Qlt_le_dec y x); [exfalso; nra|]. lra.
  - apply IH; [now injection L|]. cbn [moves] in H. pose proof (sq_nonneg (x - y)). lra.
Qed.
Lemma moves_same l : moves l l == 0.
Proof. induction l as [|x l IH]; cbn [moves]; [reflexivity|]. rewrite IH. ring. Qed.
Lemma line_sum d c init : forall s c', c' == c + qnat s * d -> qsum (line d c s (length init)) == qsum init - qsum (diffs d c' init).
Proof.
  induction init as [|x init IH]; intros s c' E; [cbn; ring|]. cbn [length]. rewrite line_S. cbn [diffs]. cbn [qsum fold_right]. fold (qsum (line d c (S s) (length init))) (qsum init) (qsum (diffs d (c' + d) init)).
  rewrite (IH (S s) (c' + d)) by (rewrite E, qnat_S; ring). generalize (qsum (diffs d (c' + d) init)). intros t. rewrite E. ring.
Qed.
Lemma placed_sum d gs : Forall (good d) gs -> qsum (placed d gs) == qsum (concat (map g_init gs)).
Proof.
  intros G. induction G as [|g gs (N & L & Z & P) G IH]; [reflexivity|]. unfold placed. cbn [map concat]. fold (placed d gs). rewrite !qsum_app, IH. change (get_positions d g) with (line d (first_of d g) 0 (length (g_indices g))).
  rewrite L, (line_sum d (first_of d g) (g_init g) 0 (first_of d g)), Z; [ring|]. unfold qnat. cbn. ring.
Qed.
Lemma placements_sum d positions r : compute_best_placements d positions = Ok r -> qsum r == qsum positions.
Proof.
  unfold compute_best_placements. destruct (forallb _ _) eqn:R0; [|discriminate]. cbn [negb]. apply rising_pairs in R0. destruct (singles_spec d positions 0) as (gs & E & L & A & B & C). rewrite E. cbn [bind].
  destruct (merge_spec d positions R0 (S (length gs)) gs (conj A (conj B C)) ltac:(lia)) as (gs' & E' & C' & F). rewrite E'. cbn [bind]. destruct (place_cut d positions gs' C') as (P & Lp). rewrite P. intros H. injection H as <-.
  destruct C' as (C1 & C2 & C3). rewrite placed_sum by exact C3. now rewrite C2.
Qed.

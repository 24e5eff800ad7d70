From Coq Require Import Bool List Arith Lia FinFun.
From Verif.Model Require Import Prelude Recast.
From Verif.Spec Require Import Recast.
From Verif.Proofs Require Import Prelude Recast.
Import ListNotations.

Lemma pop_spec {A} (l : list A) : match pop l with None => l = [] | Some (a, l') => l = l' ++ [a] end.
Proof. induction l as [|a l IH]; cbn; [reflexivity|]. destruct (pop l) as [[b l']|]; rewrite IH; reflexivity. Qed.

Lemma enumerate_length {A} (l : list A) : forall i, length (enumerate i l) = length l.
Proof. induction l; intros i; cbn; [reflexivity|rewrite IHl; reflexivity]. Qed.
Lemma enumerate_nth {A} (l : list A) : forall i j, nth_error (enumerate i l) j = match nth_error l j with Some a => Some (i + j, a) | None => None end.
Proof. induction l as [|a l IH]; intros i [|j]; cbn; try reflexivity; [rewrite Nat.add_0_r; reflexivity|rewrite IH; replace (S i + j) with (i + S j) by lia; reflexivity]. Qed.
Lemma enumerate_in {A} (l : list A) i u a : In (u, a) (enumerate i l) <-> i <= u /\ nth_error l (u - i) = Some a.
Proof.
  split.
  - intros H. apply In_nth_error in H as [j H]. rewrite enumerate_nth in H. destruct (nth_error l j) eqn:E; [|discriminate]. injection H as <- <-.
    split; [lia|]. replace (i + j - i) with j by lia. exact E.
  - intros [H1 H2]. apply (nth_error_In _ (u - i)). rewrite enumerate_nth, H2. f_equal. f_equal. lia.
Qed.
Lemma enumerate_fst {A} (l : list A) : forall i, map fst (enumerate i l) = seq i (length l).
Proof. induction l; intros i; cbn; [reflexivity|rewrite IHl; reflexivity]. Qed.

Lemma ddel_length {V} u (d : list (nat * V)) i : dget u d = Some i -> length d = S (length (ddel u d)).
Proof. induction d as [|[k v] d IH]; cbn; [discriminate|]. destruct (Nat.eqb_spec u k); [reflexivity|]. intros H. cbn. rewrite (IH H). reflexivity. Qed.
Lemma dget_ddel_other {V} u v (d : list (nat * V)) : v <> u -> dget v (ddel u d) = dget v d.
Proof.
  intros Hne. induction d as [|[k x] d IH]; cbn; [reflexivity|]. destruct (Nat.eqb_spec u k) as [->|Hn].
  - destruct (Nat.eqb_spec v k); [congruence|reflexivity].
  - cbn. destruct (Nat.eqb_spec v k); [reflexivity|exact IH].
Qed.
Lemma dget_None {V} u (d : list (nat * V)) : dget u d = None <-> ~ In u (map fst d).
Proof.
  induction d as [|[k x] d IH]; cbn; [tauto|]. destruct (Nat.eqb_spec u k) as [->|Hn]; [split; [discriminate|tauto]|]. rewrite IH. split; [intros H [E|E]; [congruence|tauto]|tauto].
Qed.
Lemma ddel_keys {V} u (d : list (nat * V)) : NoDup (map fst d) -> NoDup (map fst (ddel u d)) /\ ~ In u (map fst (ddel u d)) /\ incl (map fst (ddel u d)) (map fst d).
Proof.
  induction d as [|[k x] d IH]; cbn; [intros H; repeat split; auto; apply incl_refl|]. intros H. inversion H as [|? ? Hk Hd]; subst.
  destruct (Nat.eqb_spec u k) as [->|Hn]; [split; [exact Hd|split; [exact Hk|apply incl_tl, incl_refl]]|].
  destruct (IH Hd) as [H1 [H2 H3]]. cbn. repeat split.
  - constructor; [|exact H1]. intros Hi. apply Hk, H3, Hi.
  - intros [E|E]; [congruence|exact (H2 E)].
  - intros y [<-|Hy]; [left; reflexivity|right; exact (H3 y Hy)].
Qed.
Lemma dget_ddel_same {V} u (d : list (nat * V)) : NoDup (map fst d) -> dget u (ddel u d) = None.
Proof. intros H. apply dget_None. exact (proj1 (proj2 (ddel_keys u d H))). Qed.

Lemma set_nth_length {A} (l : list A) : forall i a, length (set_nth i a l) = length l.
Proof. induction l; intros [|i] b; cbn; try reflexivity. rewrite IHl. reflexivity. Qed.
Lemma set_nth_same {A} (l : list A) : forall i a, i < length l -> nth_error (set_nth i a l) i = Some a.
Proof. induction l; intros [|i] b H; cbn in *; try lia; [reflexivity|apply IHl; lia]. Qed.
Lemma set_nth_other {A} (l : list A) : forall i j a, j <> i -> nth_error (set_nth i a l) j = nth_error l j.
Proof. induction l; intros [|i] [|j] b H; cbn; try reflexivity; try lia. apply IHl. lia. Qed.

Lemma points_before_app {A} k (l m : list (list A)) : k <= length l -> points_before k (l ++ m) = points_before k l.
Proof. revert l. induction k as [|k IH]; intros [|a l] H; cbn in *; try reflexivity; [lia|rewrite IH by lia; reflexivity]. Qed.
Lemma points_before_snoc {A} (l : list (list A)) a : points_before (S (length l)) (l ++ [a]) = points_before (length l) l + length a.
Proof. induction l as [|b l IH]; [cbn; lia|]. cbn [length app points_before] in *. rewrite IH. lia. Qed.

Lemma NoDup_app_split {A} (l m : list A) : NoDup (l ++ m) -> NoDup l /\ NoDup m /\ forall x, In x l -> In x m -> False.
Proof.
  induction l as [|a l IH]; cbn; intros H; [split; [constructor|split; [exact H|intros ? []]]|]. inversion H as [|? ? Ha Hl]; subst.
  destruct (IH Hl) as [H1 [H2 H3]]. split; [constructor; [|exact H1]; intros Hi; apply Ha, in_app_iff; left; exact Hi|]. split; [exact H2|].
  intros x [<-|Hx] Hm; [apply Ha, in_app_iff; right; exact Hm|exact (H3 x Hx Hm)].
Qed.

Section BatchP.
Context {P L : Type}.
Variables (lib : list (list (option L)) -> request (list P)) (random : nat -> P).
Implicit Types (o : bopt (P:=P) (L:=L)) (H A : list (nat * P)) (T : list (nat * L)).
Definition bthr o := match b_thread o with None => start lib | Some t => t end.

Definition final_message (m : msg (list P)) : Prop := match m with MPoint _ => False | MNone => True | MExn e => exists r, lib r = RRaise e end.
Definition idle o H A T : Prop :=
  current_batch o = [] /\ indices o = [] /\ tell_counter o = 0 /\
  (if ended (bthr o) then Forall final_message (mail (bthr o))
   else exists p, lib (received (bthr o)) = RPoint p /\ mail (bthr o) = [MPoint p] /\ next_uid o = points_before (length (received (bthr o))) (received (bthr o))
        /\ length H = next_uid o /\ length T = next_uid o).
Record in_batch o H A T (pts : list P) : Prop := mkIB {
  ib_run : ended (bthr o) = false; ib_mail : mail (bthr o) = []; ib_lib : lib (received (bthr o)) = RPoint pts;
  ib_next : next_uid o = points_before (length (received (bthr o))) (received (bthr o)) + length pts;
  ib_cur : exists post, enumerate (points_before (length (received (bthr o))) (received (bthr o))) pts = current_batch o ++ post;
  ib_handed : length H + length (current_batch o) = next_uid o;
  ib_losses : length (batch_losses o) = length pts; ib_size : batch_size o = length pts;
  ib_counter : tell_counter o + length (indices o) = length pts;
  ib_told : length T = points_before (length (received (bthr o))) (received (bthr o)) + tell_counter o;
  ib_wait : pts <> [] -> indices o <> [];
  ib_keys : NoDup (map fst (indices o));
  ib_idx : forall u i, dget u (indices o) = Some i -> u = points_before (length (received (bthr o))) (received (bthr o)) + i /\ i < length pts;
  ib_done : forall i p, nth_error pts i = Some p -> dget (points_before (length (received (bthr o))) (received (bthr o)) + i) (indices o) = None ->
     exists l, nth_error (batch_losses o) i = Some (Some l) /\ In (points_before (length (received (bthr o))) (received (bthr o)) + i, p) A
       /\ In (points_before (length (received (bthr o))) (received (bthr o)) + i, l) T;
  ib_pts : forall u p, In (u, p) H -> points_before (length (received (bthr o))) (received (bthr o)) <= u ->
     nth_error pts (u - points_before (length (received (bthr o))) (received (bthr o))) = Some p
}.
Definition answered (rs : list (list (option L))) A T k : Prop :=
  exists pts arr, lib (firstn k rs) = RPoint pts /\ nth_error rs k = Some arr /\ length arr = length pts /\
    forall i p, nth_error pts i = Some p -> exists l, nth_error arr i = Some (Some l) /\ In (points_before k rs + i, p) A /\ In (points_before k rs + i, l) T.
Record BInv o H A T : Prop := mkBI {
  bi_incl : incl A H;
  bi_nodup : NoDup (map fst H ++ map fst (current_batch o));
  bi_lt : forall u, In u (map fst H ++ map fst (current_batch o)) -> u < next_uid o;
  bi_asked : forall u, In u (b_asked o) -> In u (map fst A) /\ ~ In u (map fst T);
  bi_told : NoDup (map fst T);
  bi_toldin : incl (map fst T) (map fst A);
  bi_done : forall k, k < length (received (bthr o)) -> answered (received (bthr o)) A T k;
  bi_phase : idle o H A T \/ exists pts, in_batch o H A T pts
}.

Lemma BInv_new : BInv new_bopt [] [] [].
Proof.
  constructor.
  - apply incl_refl.
  - constructor.
  - intros ? [].
  - intros ? [].
  - constructor.
  - apply incl_refl.
  - intros k Hk. unfold bthr in Hk; cbn in Hk. unfold start, advance in Hk. destruct (lib []); cbn in Hk; lia.
  - left. unfold idle. cbn. repeat split; try reflexivity. unfold bthr. cbn. unfold start, advance. destruct (lib []) eqn:E; cbn.
    + exists p. repeat split; try reflexivity. exact E.
    + repeat constructor.
    + constructor; [|constructor]. exists []. exact E.
Qed.

Lemma BInv_given o H A T u p x : BInv o (H ++ [(u, p)]) A T -> incl A H -> ~ In u (map fst H) ->
  x = mkbopt (b_thread o) (current_batch o) (batch_losses o) (tell_counter o) (batch_size o) (indices o) (b_asked o ++ [u]) (b_draws o) (next_uid o) ->
  BInv x (H ++ [(u, p)]) (A ++ [(u, p)]) T.
Proof.
  intros [B1 B2 B3 B4 B5 B6 B7 B8] HA Hu ->.
  assert (HT : ~ In u (map fst T)).
  { intros Hi. apply B6 in Hi. apply in_map_iff in Hi as [y [Hy1 Hy2]]. apply Hu, in_map_iff. exists y. split; [exact Hy1|exact (HA y Hy2)]. }
  constructor; cbn; try assumption.
  - intros y Hy. apply in_app_iff in Hy as [Hy|Hy]; [exact (B1 y Hy)|apply in_app_iff; right; exact Hy].
  - intros v Hv. apply in_app_iff in Hv as [Hv|[<-|[]]].
    + destruct (B4 v Hv) as [Hv1 Hv2]. split; [rewrite map_app; apply in_app_iff; left; exact Hv1|exact Hv2].
    + split; [rewrite map_app; apply in_app_iff; right; left; reflexivity|exact HT].
  - intros v Hv. rewrite map_app. apply in_app_iff. left. exact (B6 v Hv).
  - intros k Hk. destruct (B7 k Hk) as [pts [arr [C1 [C2 [C3 C4]]]]]. exists pts, arr. repeat split; try assumption.
    intros i q Hq. destruct (C4 i q Hq) as [l [D1 [D2 D3]]]. exists l. repeat split; try assumption. apply in_app_iff. left. exact D2.
  - destruct B8 as [B8|[pts B8]]; [left; exact B8|right; exists pts]. destruct B8. constructor; try assumption.
    intros i q Hq Hd. destruct (ib_done0 i q Hq Hd) as [l [D1 [D2 D3]]]. exists l. repeat split; try assumption. apply in_app_iff. left. exact D2.
Qed.

(** Popping from the current batch *)
Lemma ask_current_inv o H A T pts : BInv o H A T -> in_batch o H A T pts -> current_batch o <> [] ->
  exists u p rest, current_batch o = rest ++ [(u, p)] /\
  ask_current o = (mkbopt (b_thread o) rest (batch_losses o) (tell_counter o) (batch_size o) (indices o) (b_asked o) (b_draws o) (next_uid o), Returned (u, p)) /\
  ~ In u (map fst H) /\
  BInv (mkbopt (b_thread o) rest (batch_losses o) (tell_counter o) (batch_size o) (indices o) (b_asked o) (b_draws o) (next_uid o)) (H ++ [(u, p)]) A T.
Proof.
  intros HB HI Hne. unfold ask_current. pose proof (pop_spec (current_batch o)) as Hpop. destruct (pop (current_batch o)) as [[[u p] rest]|]; [|contradiction].
  exists u, p, rest. split; [exact Hpop|]. split; [reflexivity|].
  destruct HB as [B1 B2 B3 B4 B5 B6 B7 B8].
  assert (Hperm : map fst H ++ map fst (current_batch o) = (map fst H ++ map fst rest) ++ [u]) by (rewrite Hpop, map_app; cbn; rewrite app_assoc; reflexivity).
  assert (HuH : ~ In u (map fst H)).
  { intros Hi. rewrite Hperm in B2. apply (NoDup_remove_2 (map fst H ++ map fst rest) [] u); [exact B2|]. rewrite app_nil_r. apply in_app_iff. left. exact Hi. }
  split; [exact HuH|].
  constructor; cbn; try assumption.
  - intros y Hy. apply in_app_iff. left. exact (B1 y Hy).
  - rewrite map_app. cbn. rewrite <- app_assoc. cbn. rewrite Hperm in B2. apply NoDup_app_split in B2.
    destruct B2 as [N1 [_ N3]]. apply NoDup_app_split in N1. destruct N1 as [M1 [M2 M3]].
    apply NoDup_app_intro; [exact M1| |].
    + constructor; [|exact M2]. intros Hi. apply (N3 u); [apply in_app_iff; right; exact Hi|left; reflexivity].
    + intros y Hy [<-|Hy2]; [exact (HuH Hy)|exact (M3 y Hy Hy2)].
  - intros v Hv. apply B3. rewrite Hperm. rewrite map_app in Hv. cbn in Hv. rewrite !in_app_iff in *. cbn in *. tauto.
  - right. exists pts. destruct HI. constructor; cbn; try assumption.
    + destruct ib_cur0 as [post Hm]. exists ((u, p) :: post). rewrite Hpop, <- app_assoc in Hm. exact Hm.
    + rewrite app_length. cbn. rewrite Hpop, app_length in ib_handed0. cbn in ib_handed0. lia.
    + intros v q Hv Hge. apply in_app_iff in Hv as [Hv|[[= <- <-]|[]]]; [exact (ib_pts0 v q Hv Hge)|].
      destruct ib_cur0 as [post Hm].
      assert (Hin : In (u, p) (enumerate (points_before (length (received (bthr o))) (received (bthr o))) pts))
        by (rewrite Hm, Hpop; apply in_app_iff; left; apply in_app_iff; right; left; reflexivity).
      apply enumerate_in in Hin. exact (proj2 Hin).
Qed.

Lemma BInv_thread o t' H A T : BInv o H A T -> received t' = received (bthr o) -> ended t' = ended (bthr o) ->
  (mail t' = mail (bthr o) \/ ended t' = true /\ incl (mail t') (mail (bthr o))) -> BInv (with_bthread o t') H A T.
Proof.
  intros [B1 B2 B3 B4 B5 B6 B7 B8] Hr He Hm. constructor; cbn; try assumption.
  - change (bthr (with_bthread o t')) with t'. rewrite Hr. exact B7.
  - destruct B8 as [[C1 [C2 [C3 C4]]]|[pts C]].
    + left. unfold idle. change (bthr (with_bthread o t')) with t'. cbn. rewrite He, Hr. repeat split; try assumption.
      rewrite He in Hm. destruct (ended (bthr o)).
      * destruct Hm as [->|[_ Hm]]; [exact C4|]. rewrite Forall_forall in *. intros m Hi. exact (C4 m (Hm m Hi)).
      * destruct Hm as [->|[Hm _]]; [exact C4|discriminate].
    + right. exists pts. destruct C. rewrite ib_run0 in He. rewrite He in Hm. destruct Hm as [Hm|[Hm _]]; [|discriminate].
      constructor; change (bthr (with_bthread o t')) with t'; cbn; rewrite ?Hr, ?Hm; try assumption.
Qed.

Lemma start_batch o H A T pts t' : BInv o H A T -> idle o H A T -> ended (bthr o) = false -> mail (bthr o) = [MPoint pts] -> 
  received t' = received (bthr o) -> ended t' = false -> mail t' = [] ->
  let o1 := mkbopt (Some t') (enumerate (next_uid o) pts) (repeat None (length pts)) (tell_counter o) (length pts)
              (map (fun iu => (fst (snd iu), fst iu)) (enumerate 0 (enumerate (next_uid o) pts))) (b_asked o) (b_draws o) (next_uid o + length pts) in
  BInv o1 H A T /\ in_batch o1 H A T pts.
Proof.
  intros [B1 B2 B3 B4 B5 B6 B7 B8] [C1 [C2 [C3 C4]]] He Hm Hr' He' Hm' o1. rewrite He in C4. destruct C4 as [p [Hp [Hm2 [Hn [HH HT]]]]].
  rewrite Hm in Hm2. injection Hm2 as <-.
  assert (Hidx : forall n b, map (fun iu : nat * (nat * P) => (fst (snd iu), fst iu)) (enumerate n (enumerate (b + n) pts)) = map (fun i => (b + i, i)) (seq n (length pts))).
  { clear. induction pts as [|q pts IH]; intros n b; cbn; [reflexivity|]. f_equal. replace (S (b + n)) with (b + S n) by lia. apply IH. }
  specialize (Hidx 0 (next_uid o)). rewrite Nat.add_0_r in Hidx.
  assert (Hdget : forall n m u, dget u (map (fun i => (next_uid o + i, i)) (seq n m)) = if (next_uid o + n <=? u) && (u <? next_uid o + n + m) then Some (u - next_uid o) else None).
  { clear. intros n m. revert n. induction m as [|m IH]; intros n u; cbn [seq map dget].
    - destruct (Nat.leb_spec (next_uid o + n) u), (Nat.ltb_spec u (next_uid o + n + 0)); cbn [andb]; try reflexivity; lia.
    - destruct (Nat.eqb_spec u (next_uid o + n)) as [->|Hne].
      + replace (next_uid o + n <=? next_uid o + n) with true by (symmetry; apply Nat.leb_le; lia).
        replace (next_uid o + n <? next_uid o + n + S m) with true by (symmetry; apply Nat.ltb_lt; lia). cbn. f_equal. lia.
      + rewrite IH. destruct (Nat.leb_spec (next_uid o + S n) u), (Nat.leb_spec (next_uid o + n) u), (Nat.ltb_spec u (next_uid o + S n + m)), (Nat.ltb_spec u (next_uid o + n + S m)); cbn; try reflexivity; lia. }
  assert (IB : in_batch o1 H A T pts).
  { constructor; unfold o1; change (bthr (mkbopt (Some t') (enumerate (next_uid o) pts) (repeat None (length pts)) (tell_counter o) (length pts)
              (map (fun iu => (fst (snd iu), fst iu)) (enumerate 0 (enumerate (next_uid o) pts))) (b_asked o) (b_draws o) (next_uid o + length pts))) with t';
    cbn [next_uid current_batch batch_losses batch_size tell_counter indices b_asked b_draws]; rewrite ?Hr', <- ?Hn; try assumption; try reflexivity.
    - exists []. rewrite app_nil_r. reflexivity.
    - rewrite enumerate_length. lia.
    - apply repeat_length.
    - rewrite Hidx, map_length, seq_length, C3. reflexivity.
    - rewrite C3. lia.
    - destruct pts; [congruence|discriminate].
    - rewrite Hidx, map_map. apply FinFun.Injective_map_NoDup; [intros a b E; cbn in E; lia|apply seq_NoDup].
    - intros u i Hu. rewrite Hidx, Hdget, Nat.add_0_r in Hu.
      destruct (Nat.leb_spec (next_uid o) u), (Nat.ltb_spec u (next_uid o + length pts)); cbn in Hu; try discriminate. injection Hu as <-. lia.
    - intros i q Hq Hd. rewrite Hidx, Hdget, Nat.add_0_r in Hd. assert (i < length pts) by (apply nth_error_Some; rewrite Hq; discriminate).
      destruct (Nat.leb_spec (next_uid o) (next_uid o + i)), (Nat.ltb_spec (next_uid o + i) (next_uid o + length pts)); cbn in Hd; try discriminate; lia.
    - intros u q Hu Hge. exfalso. assert (u < next_uid o); [|lia]. apply B3, in_app_iff. left. apply in_map_iff. exists (u, q). split; [reflexivity|exact Hu]. }
  split; [|exact IB].
  rewrite C1, app_nil_r in B2, B3.
  constructor; try assumption.
  - change (current_batch o1) with (enumerate (next_uid o) pts). rewrite enumerate_fst. apply NoDup_app_intro; [exact B2|apply seq_NoDup|].
    intros u Hu Hs. apply in_seq in Hs. specialize (B3 u Hu). lia.
  - intros u Hu. change (current_batch o1) with (enumerate (next_uid o) pts) in Hu. change (next_uid o1) with (next_uid o + length pts). rewrite enumerate_fst in Hu.
    apply in_app_iff in Hu as [Hu|Hu]; [specialize (B3 u Hu); lia|apply in_seq in Hu; lia].
  - change (bthr o1) with t'. rewrite Hr'. exact B7.
  - right. exists pts. exact IB.
Qed.

Lemma idle_thread o t H A T : idle o H A T -> received t = received (bthr o) -> ended t = ended (bthr o) -> mail t = mail (bthr o) -> idle (with_bthread o t) H A T.
Proof.
  intros [C1 [C2 [C3 C4]]] Hr He Hm. unfold idle. change (bthr (with_bthread o t)) with t. cbn. rewrite He, Hr, Hm. repeat split; assumption.
Qed.

Lemma random_inv o H A T p t : BInv o H A T -> idle o H A T -> ended (bthr o) = true -> received t = received (bthr o) -> ended t = true -> incl (mail t) (mail (bthr o)) ->
  ~ In (next_uid o) (map fst H) /\
  BInv (mkbopt (Some t) [] (batch_losses o) (tell_counter o) (batch_size o) (indices o) (b_asked o) (S (b_draws o)) (S (next_uid o))) (H ++ [(next_uid o, p)]) A T.
Proof.
  intros [B1 B2 B3 B4 B5 B6 B7 B8] [C1 [C2 [C3 C4]]] He Hr He' Hm. rewrite He in C4. rewrite C1, app_nil_r in B2, B3.
  assert (Hu : ~ In (next_uid o) (map fst H)) by (intros Hi; specialize (B3 _ Hi); lia).
  split; [exact Hu|]. constructor; cbn; try assumption.
  - intros y Hy. apply in_app_iff. left. exact (B1 y Hy).
  - rewrite app_nil_r, map_app. cbn. apply NoDup_app_snoc; assumption.
  - intros u Hi. rewrite app_nil_r, map_app in Hi. apply in_app_iff in Hi as [Hi|[<-|[]]]; [specialize (B3 u Hi); lia|cbn; lia].
  - unfold bthr. cbn. rewrite Hr. exact B7.
  - left. unfold idle, bthr. cbn. rewrite He'. repeat split; try assumption. rewrite Forall_forall in *. intros m Hi. exact (C4 m (Hm m Hi)).
Qed.

Lemma is_alive_fields {P' L'} (t : thread P' L') g t' b : is_alive t g = (t', b) -> received t' = received t /\ mail t' = mail t /\ ended t' = ended t /\ error t' = error t /\ (b = false -> ended t = true).
Proof.
  unfold is_alive. destruct (ended t) eqn:E; [destruct (gone t); [|destruct g]|]; intros [= <- <-]; cbn; repeat split; auto; discriminate.
Qed.

Lemma internal_bask_inv o H A T g o' r : BInv o H A T -> internal_bask lib random o g = (o', r) ->
  match r with Returned (u, p) => ~ In u (map fst H) /\ BInv o' (H ++ [(u, p)]) A T | _ => BInv o' H A T end /\ b_asked o' = b_asked o.
Proof.
  intros HB. unfold internal_bask. fold (bthr o). set (t := bthr o).
  assert (HB1 : BInv (with_bthread o t) H A T) by (apply BInv_thread; auto).
  set (o1 := with_bthread o t) in *. assert (Hthr1 : bthr o1 = t) by reflexivity.
  destruct (current_batch o1) as [|x cb] eqn:Ecur.
  2:{ pose proof (bi_phase _ _ _ _ HB1) as [C|[pts C]]; [destruct C as [C _]; congruence|]. intros E.
      destruct (ask_current_inv o1 H A T pts HB1 C ltac:(congruence)) as [u [p [rest [_ [E2 [Hu HI]]]]]].
      rewrite E2 in E. injection E as <- <-. split; [split; [exact Hu|exact HI]|reflexivity]. }
  destruct (negb (can_ask o1)); [intros [= <- <-]; split; [exact HB1|reflexivity]|].
  unfold next_message. destruct (is_alive t g) as [t' b] eqn:Eal. destruct (is_alive_fields _ _ _ _ Eal) as [F1 [F2 [F3 [F4 F5]]]].
  assert (HB2 : BInv (with_bthread o1 t') H A T) by (apply BInv_thread; auto).
  destruct b.
  - destruct (mail t') as [|m rest] eqn:Em; [intros [= <- <-]; split; [exact HB2|reflexivity]|].
    destruct (ended t) eqn:Eend.
    + pose proof (bi_phase _ _ _ _ HB1) as [C|[pts C]]; [|pose proof (ib_run _ _ _ _ _ C) as X; rewrite Hthr1 in X; congruence].
      pose proof C as [C1 [C2 [C3 C4]]]. rewrite Hthr1, Eend in C4.
      assert (Hfm : Forall final_message (m :: rest)) by (rewrite F2; exact C4).
      inversion Hfm as [|? ? Hm Hrest]; subst.
      assert (HB3 : BInv (with_bthread o1 (mkthread (received t') rest (ended t') (error t') (gone t'))) H A T).
      { apply BInv_thread; auto; [cbn [ended]; congruence|]. right. cbn [ended mail]. split; [congruence|]. rewrite Hthr1, <- F2. intros y Hy. right. exact Hy. }
      destruct m as [q| |e]; [contradiction| |intros [= <- <-]; split; [exact HB3|reflexivity]].
      cbn [error]. destruct (error t'); [intros [= <- <-]; split; [exact HB3|reflexivity]|].
      intros [= <- <-]. split; [|reflexivity].
      apply (random_inv o1 H A T (random (b_draws o1)) _ HB1 C); [exact Eend|exact F1|cbn; congruence|]. cbn [mail]. rewrite Hthr1, <- F2. intros y Hy. right. exact Hy.
    + pose proof (bi_phase _ _ _ _ HB1) as [C|[pts C]]; [|pose proof (ib_mail _ _ _ _ _ C) as X; rewrite Hthr1 in X; congruence].
      pose proof C as [C1 [C2 [C3 C4]]]. rewrite Hthr1, Eend in C4. destruct C4 as [pts [Hp [Hm _]]]. rewrite <- F2 in Hm. injection Hm as -> ->.
      assert (Hm1 : mail (bthr o1) = [MPoint pts]) by (rewrite Hthr1; congruence).
      destruct (start_batch o1 H A T pts (mkthread (received t') [] (ended t') (error t') (gone t')) HB1 C Eend Hm1 F1 ltac:(cbn; congruence) eq_refl) as [HB3 HI3].
      match type of HB3 with BInv ?x _ _ _ => set (o3 := x) in * end.
      change (next_uid o1) with (next_uid o) in *.
      destruct pts as [|p0 pts].
      * intros E. unfold ask_current in E. cbn in E. injection E as <- <-. split; [exact HB3|reflexivity].
      * destruct (ask_current_inv o3 H A T _ HB3 HI3 ltac:(discriminate)) as [u [p [rest [_ [E2 [Hu HI]]]]]].
        intros E. rewrite E2 in E. injection E as <- <-. split; [split; [exact Hu|exact HI]|reflexivity].
  - specialize (F5 eq_refl). pose proof (bi_phase _ _ _ _ HB1) as [C|[pts C]]; [|pose proof (ib_run _ _ _ _ _ C) as X; rewrite Hthr1 in X; congruence].
    destruct (error t'); [intros [= <- <-]; split; [exact HB2|reflexivity]|].
    intros [= <- <-]. split; [|reflexivity].
    apply (random_inv o1 H A T (random (b_draws o1)) _ HB1 C); [rewrite Hthr1; exact F5|exact F1|congruence|]. rewrite Hthr1, F2. apply incl_refl.
Qed.

Definition without u o : bopt :=
  mkbopt (b_thread o) (current_batch o) (batch_losses o) (tell_counter o) (batch_size o) (indices o) (filter (fun v => negb (Nat.eqb u v)) (b_asked o)) (b_draws o) (next_uid o).

Lemma answered_more rs A A' T T' k : answered rs A T k -> incl A A' -> incl T T' -> answered rs A' T' k.
Proof.
  intros [pts [arr [C1 [C2 [C3 C4]]]]] HA HT. exists pts, arr. repeat split; try assumption. intros i p Hi. destruct (C4 i p Hi) as [l [D1 [D2 D3]]].
  exists l. repeat split; [exact D1|exact (HA _ D2)|exact (HT _ D3)].
Qed.
Lemma answered_app rs m A T k : k < length rs -> answered rs A T k -> answered (rs ++ m) A T k.
Proof.
  intros Hk [pts [arr [C1 [C2 [C3 C4]]]]]. exists pts, arr. rewrite firstn_app, nth_error_app1, points_before_app by lia. replace (k - length rs) with 0 by lia.
  cbn [firstn]. rewrite app_nil_r. repeat split; assumption.
Qed.

Lemma btell_inv o H A T u l g o' r : BInv o H A T -> btell lib o u l g = (o', r) -> BInv o' H A (T ++ match r with Returned _ => [(u, l)] | _ => [] end).
Proof.
  intros HB. unfold btell. destruct (existsb (Nat.eqb u) (b_asked o)) eqn:Eu.
  2:{ intros [= <- <-]. rewrite app_nil_r. exact HB. }
  apply existsb_in in Eu. destruct (bi_asked _ _ _ _ HB u Eu) as [HuA HuT].
  unfold internal_btell. destruct (b_thread o) as [t|] eqn:Et; [|intros [= <- <-]; rewrite app_nil_r; exact HB].
  assert (Hthr : bthr o = t) by (unfold bthr; rewrite Et; reflexivity).
  destruct (is_alive t g) as [t' b] eqn:Eal. destruct (is_alive_fields _ _ _ _ Eal) as [F1 [F2 [F3 [F4 F5]]]].
  assert (HB1 : BInv (with_bthread o t') H A T) by (apply BInv_thread; rewrite ?Hthr; auto).
  set (o1 := with_bthread o t') in *. assert (Hthr1 : bthr o1 = t') by reflexivity.
  assert (HT' : NoDup (map fst (T ++ [(u, l)]))) by (rewrite map_app; cbn; apply NoDup_app_snoc; [exact (bi_told _ _ _ _ HB)|exact HuT]).
  assert (HTi : incl (map fst (T ++ [(u, l)])) (map fst A)).
  { rewrite map_app. intros y Hy. apply in_app_iff in Hy as [Hy|[<-|[]]]; [exact (bi_toldin _ _ _ _ HB y Hy)|exact HuA]. }
  assert (Hasked : forall v, In v (filter (fun v => negb (u =? v)) (b_asked o)) -> In v (map fst A) /\ ~ In v (map fst (T ++ [(u, l)]))).
  { intros v Hv. apply filter_In in Hv as [Hv Hne]. apply negb_true_iff, Nat.eqb_neq in Hne. destruct (bi_asked _ _ _ _ HB v Hv) as [HvA HvT].
    split; [exact HvA|]. rewrite map_app. intros Hi. apply in_app_iff in Hi as [Hi|[Hi|[]]]; [exact (HvT Hi)|exact (Hne Hi)]. }
  assert (HTT : incl T (T ++ [(u, l)])) by (intros y Hy; apply in_app_iff; left; exact Hy).
  destruct b; cbn [negb].
  2:{ specialize (F5 eq_refl). destruct (error t'); [intros [= <- <-]; rewrite app_nil_r; exact HB1|].
      intros [= <- <-]. destruct HB1 as [B1 B2 B3 B4 B5 B6 B7 B8]. constructor; cbn; try assumption.
      - intros k Hk. exact (answered_more _ _ _ _ _ k (B7 k Hk) (incl_refl _) HTT).
      - destruct B8 as [[C1 [C2 [C3 C4]]]|[pts C]]; [|pose proof (ib_run _ _ _ _ _ C) as X; rewrite Hthr1 in X; congruence].
        left. unfold idle. change (bthr (mkbopt _ _ _ _ _ _ _ _ _)) with t'. cbn. rewrite Hthr1 in C4. assert (E : ended t' = true) by congruence. rewrite E in *. repeat split; assumption. }
  change (indices o1) with (indices o). change (batch_losses o1) with (batch_losses o). change (tell_counter o1) with (tell_counter o). change (batch_size o1) with (batch_size o).
  destruct (dget u (indices o)) as [i|] eqn:Ei; [|intros [= <- <-]; rewrite app_nil_r; exact HB1].
  destruct (negb (i <? length (batch_losses o))) eqn:Eb; [intros [= <- <-]; rewrite app_nil_r; exact HB1|].
  apply negb_false_iff, Nat.ltb_lt in Eb.
  pose proof (bi_phase _ _ _ _ HB1) as [C|[pts IB]]; [destruct C as [_ [C _]]; change (indices o1) with (indices o) in C; rewrite C in Ei; discriminate|].
  pose proof HB1 as [B1 B2 B3 B4 B5 B6 B7 _]. destruct IB. rewrite Hthr1 in *. 
  set (rs := received t') in *. set (base := points_before (length rs) rs) in *.
  change (indices o1) with (indices o) in *. change (batch_losses o1) with (batch_losses o) in *. change (tell_counter o1) with (tell_counter o) in *. change (batch_size o1) with (batch_size o) in *.
  change (next_uid o1) with (next_uid o) in *. change (current_batch o1) with (current_batch o) in *.
  destruct (ib_idx0 u i Ei) as [Hui Hipts].
  destruct (nth_error pts i) as [pi|] eqn:Epi; [|apply nth_error_None in Epi; lia].
  assert (HuiA : In (u, pi) A).
  { apply in_map_iff in HuA as [[u' q] [E Hq]]. cbn in E. subst u'. pose proof (ib_pts0 u q (B1 _ Hq) ltac:(lia)) as Hq2. rewrite Hui in Hq2. replace (base + i - base) with i in Hq2 by lia.
    rewrite Epi in Hq2. injection Hq2 as ->. exact Hq. }
  pose proof (ddel_length u (indices o) i Ei) as Hlen.
  assert (Hdone : forall j p, nth_error pts j = Some p -> dget (base + j) (ddel u (indices o)) = None ->
     exists l', nth_error (set_nth i (Some l) (batch_losses o)) j = Some (Some l') /\ In (base + j, p) A /\ In (base + j, l') (T ++ [(u, l)])).
  { intros j p Hj Hd. destruct (Nat.eq_dec j i) as [->|Hne].
    - exists l. rewrite set_nth_same by exact Eb. rewrite Epi in Hj. injection Hj as <-. rewrite <- Hui. repeat split; [exact HuiA|]. apply in_app_iff. right. left. reflexivity.
    - rewrite dget_ddel_other in Hd by lia. destruct (ib_done0 j p Hj Hd) as [l' [D1 [D2 D3]]]. exists l'. rewrite set_nth_other by exact Hne.
      repeat split; [exact D1|exact D2|exact (HTT _ D3)]. }
  destruct (Nat.eqb_spec (S (tell_counter o)) (batch_size o)) as [Hfull|Hnf]; intros [= <- <-].
  - assert (Hidx : ddel u (indices o) = []) by (apply length_zero_iff_nil; lia).
    assert (Hcur : current_batch o = []).
    { destruct ib_cur0 as [post Hpost]. destruct (current_batch o) as [|[v q] cb] eqn:Ec; [reflexivity|exfalso].
      assert (Hin : In (v, q) (enumerate base pts)) by (rewrite Hpost; left; reflexivity). apply enumerate_in in Hin as [Hv Hq].
      destruct (Hdone (v - base) q Hq ltac:(rewrite Hidx; reflexivity)) as [_ [_ [HinA _]]]. replace (base + (v - base)) with v in HinA by lia.
      destruct (NoDup_app_split _ _ B2) as [_ [_ Hdis]]. apply (Hdis v); [apply in_map_iff; exists (v, q); split; [reflexivity|exact (B1 _ HinA)]|left; reflexivity]. }
    assert (Hgive : give lib t' (Some (set_nth i (Some l) (batch_losses o))) = advance lib (rs ++ [set_nth i (Some l) (batch_losses o)]) [])
      by (unfold give; rewrite ib_run0, ib_mail0; reflexivity).
    assert (Hrecv : forall x, received (advance lib x []) = x) by (intros x; unfold advance; destruct (lib x); reflexivity).
    assert (Hpb : points_before (length (rs ++ [set_nth i (Some l) (batch_losses o)])) (rs ++ [set_nth i (Some l) (batch_losses o)]) = next_uid o).
    { rewrite app_length, Nat.add_comm. cbn [length plus]. rewrite points_before_snoc, set_nth_length, ib_losses0, ib_next0. reflexivity. }
    rewrite Hgive. rewrite Hcur in *. cbn [map] in *. rewrite app_nil_r in B2, B3.
    constructor; cbn; rewrite ?app_nil_r; try assumption.
    + unfold bthr. cbn. rewrite Hrecv. intros k Hk. rewrite app_length in Hk. cbn in Hk. destruct (Nat.eq_dec k (length rs)) as [->|Hne].
      * exists pts, (set_nth i (Some l) (batch_losses o)). rewrite firstn_app, Nat.sub_diag, firstn_all. cbn [firstn]. rewrite app_nil_r.
        rewrite nth_error_app2, Nat.sub_diag by lia. rewrite points_before_app by lia. fold base. repeat split; [exact ib_lib0|rewrite set_nth_length; exact ib_losses0|].
        intros j p Hj. apply Hdone; [exact Hj|rewrite Hidx; reflexivity].
      * apply answered_app; [lia|]. exact (answered_more _ _ _ _ _ k (B7 k ltac:(fold rs; lia)) (incl_refl _) HTT).
    + left. unfold idle, bthr. cbn. rewrite Hidx. repeat split; try reflexivity.
      unfold advance. destruct (lib (rs ++ [set_nth i (Some l) (batch_losses o)])) as [q| |e] eqn:El; cbn [ended mail received].
      * exists q. rewrite Hpb. repeat split; try reflexivity; [exact El|cbn in ib_handed0; lia|]. rewrite app_length. cbn. lia.
      * repeat constructor.
      * constructor; [|constructor]. exists (rs ++ [set_nth i (Some l) (batch_losses o)]). exact El.
  - constructor; cbn; try assumption.
    + unfold bthr. cbn. fold rs. intros k Hk. exact (answered_more _ _ _ _ _ k (B7 k Hk) (incl_refl _) HTT).
    + right. exists pts. constructor; change (bthr (mkbopt _ _ _ _ _ _ _ _ _)) with t'; cbn; fold rs; fold base; try assumption.
      * rewrite set_nth_length. exact ib_losses0.
      * lia.
      * rewrite app_length. cbn. lia.
      * intros _ E. rewrite E in Hlen. cbn in Hlen. lia.
      * exact (proj1 (ddel_keys u _ ib_keys0)).
      * intros v j Hv. destruct (Nat.eq_dec v u) as [->|Hne]; [rewrite (dget_ddel_same u _ ib_keys0) in Hv; discriminate|]. rewrite dget_ddel_other in Hv by exact Hne. exact (ib_idx0 v j Hv).
Qed.

Lemma bstep_inv o H A T c : BInv o H A T -> let '(o', x) := bstep lib random o c in BInv o' (H ++ handed [x]) (A ++ given [x]) (T ++ told [x]).
Proof.
  intros HB. destruct c as [g|g|u l g]; cbn [bstep].
  - unfold bask. destruct (internal_bask lib random o g) as [o1 r] eqn:E. destruct (internal_bask_inv o H A T g o1 r HB E) as [H1 H2].
    destruct r as [[u p]|e|]; cbn; rewrite ?app_nil_r; try exact H1. destruct H1 as [Hu H1].
    apply (BInv_given o1 H A T u p _ H1 (bi_incl _ _ _ _ HB) Hu). reflexivity.
  - destruct (internal_bask lib random o g) as [o1 r] eqn:E. destruct (internal_bask_inv o H A T g o1 r HB E) as [H1 H2].
    destruct r as [[u p]|e|]; cbn; rewrite ?app_nil_r; try exact H1. exact (proj2 H1).
  - destruct (btell lib o u l g) as [o1 r] eqn:E. pose proof (btell_inv o H A T u l g o1 r HB E) as H1. destruct r; cbn; rewrite !app_nil_r in *; exact H1.
Qed.

Lemma handed_app (a b : list (boutput (P:=P) (L:=L))) : handed (a ++ b) = handed a ++ handed b.
Proof. induction a as [|[[x|e|]|[x|e|]|u l r] a IH]; cbn; rewrite ?IH; reflexivity. Qed.
Lemma given_app (a b : list (boutput (P:=P) (L:=L))) : given (a ++ b) = given a ++ given b.
Proof. induction a as [|[[x|e|]|[x|e|]|u l r] a IH]; cbn; rewrite ?IH; reflexivity. Qed.
Lemma told_app (a b : list (boutput (P:=P) (L:=L))) : told (a ++ b) = told a ++ told b.
Proof. induction a as [|[[x|e|]|[x|e|]|u l [x|e|]] a IH]; cbn; rewrite ?IH; reflexivity. Qed.

Lemma bhistory_inv cs : forall o H A T, BInv o H A T -> let '(o', outs) := bhistory lib random o cs in BInv o' (H ++ handed outs) (A ++ given outs) (T ++ told outs).
Proof.
  induction cs as [|c cs IH]; intros o H A T HB; cbn [bhistory]; [cbn; rewrite !app_nil_r; exact HB|].
  pose proof (bstep_inv o H A T c HB) as H1. destruct (bstep lib random o c) as [o1 x]. specialize (IH o1 _ _ _ H1).
  destruct (bhistory lib random o1 cs) as [o2 xs]. change (x :: xs) with ([x] ++ xs). rewrite handed_app, given_app, told_app, !app_assoc. exact IH.
Qed.
End BatchP.

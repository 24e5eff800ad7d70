(** Proofs about split and rescaled optimizers. *)
From Coq Require Import List Arith ZArith QArith Bool Lia Lqa.
From Verif.Model Require Import Prelude Split.
From Verif.Spec Require Import Split.
From Verif.Proofs Require Import Prelude.
Import ListNotations.
Open Scope nat_scope.

(** ** Sizes *)
Lemma zsum_app a b : zsum (a ++ b) = (zsum a + zsum b)%Z.
Proof. unfold zsum. induction a as [|x a IH]; cbn [app fold_right]; [reflexivity|]. rewrite IH. lia. Qed.
Lemma zsum_repeat m n : zsum (repeat m n) = (m * Z.of_nat n)%Z.
Proof. induction n as [|n IH]; [cbn; lia|]. cbn [repeat]. unfold zsum in *. cbn [fold_right]. rewrite IH. lia. Qed.
Lemma zsum_length l : Forall (fun v => 1 <= v)%Z l -> (Z.of_nat (length l) <= zsum l)%Z.
Proof. induction 1 as [|v l Hv H IH]; [cbn; lia|]. unfold zsum in *. cbn [fold_right length]. lia. Qed.

Definition equal_share (dim num : Z) (i : nat) : Z := (dim / num + (if (Z.of_nat i <? dim mod num)%Z then 1 else 0))%Z.
Lemma sizes_given dim num : forall n i vars, i + n <= length vars ->
  (forall l, sizes_loop dim num n i vars = Ok l -> l = firstn n (skipn i vars) /\ Forall (fun v => 1 <= v)%Z l) /\
  (Forall (fun v => 1 <= v)%Z (firstn n (skipn i vars)) -> sizes_loop dim num n i vars = Ok (firstn n (skipn i vars))) /\
  (forall e, sizes_loop dim num n i vars = Err e -> e = AssertionError).
Proof.
  induction n as [|n IH]; intros i vars Hl; cbn [sizes_loop].
  - split; [intros l E; injection E as <-; cbn; auto|]. split; [reflexivity|discriminate].
  - destruct (Nat.ltb_spec (length vars) (i + 1)); [lia|].
    destruct (nth_error vars i) as [v|] eqn:Ev; [|apply nth_error_None in Ev; lia].
    assert (Es : skipn i vars = v :: skipn (i + 1) vars).
    { clear - Ev. revert i Ev. induction vars as [|w vars IH]; intros [|i] Ev; try discriminate; cbn in *; [injection Ev as ->; reflexivity|].
      rewrite (IH _ Ev). reflexivity. }
    destruct (IH (i + 1) vars ltac:(lia)) as (A & B & C). rewrite Es. cbn [firstn].
    destruct (Z.ltb_spec v 1) as [Hv|Hv].
    + split; [discriminate|]. split; [intros F; apply Forall_inv in F; lia|]. intros e E. injection E as <-. reflexivity.
    + destruct (sizes_loop dim num n (i + 1) vars) as [l|e] eqn:E; cbn [bind].
      * destruct (A l eq_refl) as [-> F]. split; [intros l E'; injection E' as <-; split; [reflexivity|constructor; assumption]|].
        split; [reflexivity|discriminate].
      * split; [discriminate|]. split; [intros F; apply Forall_inv_tail in F; specialize (B F); discriminate|].
        intros e' E'. injection E' as <-. apply C. reflexivity.
Qed.
Lemma sizes_equal dim num : (1 <= dim / num)%Z -> forall n i vars, length vars = i ->
  sizes_loop dim num n i vars = Ok (map (equal_share dim num) (seq i n)).
Proof.
  intros Hq. induction n as [|n IH]; intros i vars Hl; cbn [sizes_loop]; [reflexivity|].
  destruct (Nat.ltb_spec (length vars) (i + 1)); [|lia].
  rewrite nth_error_app2 by lia. rewrite Hl, Nat.sub_diag. cbn [nth_error].
  fold (equal_share dim num i). assert (1 <= equal_share dim num i)%Z by (unfold equal_share; destruct (_ <? _)%Z; lia).
  destruct (Z.ltb_spec (equal_share dim num i) 1); [lia|].
  rewrite IH by (rewrite app_length; cbn; lia). cbn [bind seq map]. rewrite (Nat.add_1_r i). reflexivity.
Qed.
Lemma equal_sum dim num n : (0 < num)%Z -> zsum (map (equal_share dim num) (seq 0 n)) = (Z.of_nat n * (dim / num) + Z.min (Z.of_nat n) (dim mod num))%Z.
Proof.
  intros Hn. pose proof (Z.mod_pos_bound dim num Hn). induction n as [|n IH]; [cbn; lia|].
  rewrite seq_S, map_app, zsum_app, IH. cbn [map]. unfold zsum at 1. cbn [fold_right]. unfold equal_share. cbn [Nat.add].
  destruct (Z.ltb_spec (Z.of_nat n) (dim mod num)); lia.
Qed.
Lemma equal_total dim num : (1 <= num <= dim)%Z -> zsum (map (equal_share dim num) (seq 0 (Z.to_nat num))) = dim.
Proof.
  intros H. rewrite equal_sum by lia. rewrite Z2Nat.id by lia. pose proof (Z.mod_pos_bound dim num ltac:(lia)).
  pose proof (Z.div_mod dim num ltac:(lia)). nia.
Qed.
Lemma equal_ok dim num : (1 <= num <= dim)%Z ->
  sizes_loop dim num (Z.to_nat num) 0 [] = Ok (map (equal_share dim num) (seq 0 (Z.to_nat num))).
Proof. intros H. apply sizes_equal; [|reflexivity]. apply Z.div_le_lower_bound; lia. Qed.
Lemma equal_pos dim num i : (1 <= num <= dim)%Z -> (1 <= equal_share dim num i)%Z.
Proof. intros H. assert (1 <= dim / num)%Z by (apply Z.div_le_lower_bound; lia). unfold equal_share. destruct (_ <? _)%Z; lia. Qed.

(** ** Groups *)
Lemma skipn_more {X} a b (l : list X) : skipn a (skipn b l) = skipn (b + a) l.
Proof. revert l. induction b as [|b IH]; intros l; [reflexivity|]. destruct l as [|x l]; [destruct a; reflexivity|]. cbn. apply IH. Qed.
Lemma slices_group {X} : forall dims i d (data : list X), nth_error dims i = Some d -> nth_error (slices X dims data) i = Some (group dims i data).
Proof.
  induction dims as [|d0 dims IH]; intros [|i] d data E; try discriminate; cbn [nth_error slices] in *.
  - unfold group. cbn. reflexivity.
  - rewrite (IH _ _ _ E). unfold group. cbn [nth firstn list_sum fold_right]. rewrite skipn_more. reflexivity.
Qed.
Lemma slices_length {X} dims (data : list X) : length (slices X dims data) = length dims.
Proof. revert data. induction dims; intros; cbn; auto. Qed.
Lemma slices_concat {X} : forall dims (ps : list (list X)), map (@length X) ps = dims -> slices X dims (concat ps) = ps.
Proof.
  intros dims ps <-. induction ps as [|p ps IH]; [reflexivity|]. cbn [map slices concat].
  rewrite firstn_app, Nat.sub_diag, firstn_all, firstn_O, app_nil_r. f_equal.
  rewrite skipn_app, Nat.sub_diag, skipn_all. exact IH.
Qed.
Lemma concat_size {X} (ps : list (list X)) : length (concat ps) = list_sum (map (@length X) ps).
Proof. induction ps as [|p ps IH]; [reflexivity|]. cbn [concat map]. rewrite app_length, IH. reflexivity. Qed.

Lemma nodup_parts {A} (a b : list A) : NoDup (a ++ b) -> NoDup a /\ forall x, In x a -> ~ In x b.
Proof.
  induction a as [|y a IH]; cbn; intros H; [split; [constructor|auto]|]. inversion H as [|? ? H1 H2]; subst. destruct (IH H2) as [A1 A2].
  split; [constructor; [intros X0; apply H1, in_or_app; auto|exact A1]|]. intros x [->|Hx]; [intros X0; apply H1, in_or_app; auto|auto].
Qed.

Section Split.
  Variables (S X : Type) (zero : X).
  Variable sub_ask : nat -> nat -> S -> list X * S.
  Variable sub_tell : option nat -> list X -> Q -> S -> S * result unit.
  Variable dims : list nat.
  Variable progressive : option nat.
  Hypothesis Hdim : forall i u s d, nth_error dims i = Some d -> length (fst (sub_ask i u s)) = d.
  Notation ask_all := (ask_all S X zero sub_ask dims progressive).
  Notation step := (split_step S X zero sub_ask sub_tell dims progressive).
  Notation run := (split_run S X zero sub_ask sub_tell dims progressive).
  Notation skipped := (skipped dims progressive).
  Notation tell_parts := (tell_parts S X sub_tell).

  Lemma skipped_iff i k : skipped i k = true <-> not_yet progressive (length dims) i k.
  Proof.
    unfold Split.skipped, not_yet. destruct progressive as [b|].
    - rewrite andb_true_iff, !Nat.ltb_lt. split; [intros [A B]; exists b; auto|intros (b' & E & A & B); injection E as <-; auto].
    - split; [discriminate|intros (b & E & _); discriminate].
  Qed.

  Lemma ask_all_spec u k : forall ds pre subs ps subs', dims = pre ++ ds -> length subs = length ds ->
    ask_all u k (length pre) ds subs = (ps, subs') ->
    map (fun p => length (snd p)) ps = ds /\ length subs' = length subs /\
    forall i d s, nth_error ds i = Some d -> nth_error subs i = Some s -> exists x s', nth_error ps i = Some (negb (skipped (length pre + i) k), x) /\
      nth_error subs' i = Some s' /\
      (skipped (length pre + i) k = true -> s' = s /\ x = repeat zero d) /\
      (skipped (length pre + i) k = false -> s' = SSub (snd (sub_ask (length pre + i) u (sb s))) (sb_log s ++ [SAsk u x]) /\ x = fst (sub_ask (length pre + i) u (sb s))).
  Proof.
    induction ds as [|d ds IH]; intros pre subs ps subs' Hd Hl E; destruct subs as [|s subs]; try discriminate; cbn [Split.ask_all] in E.
    - injection E as <- <-. split; [reflexivity|]. split; [reflexivity|]. intros [|i] ? ? X0; discriminate.
    - specialize (IH (pre ++ [d]) subs). rewrite app_length in IH. cbn [length] in IH.
      assert (Hd' : dims = (pre ++ [d]) ++ ds) by (rewrite <- app_assoc; exact Hd).
      assert (Hn : nth_error dims (length pre) = Some d) by (rewrite Hd, nth_error_app2, Nat.sub_diag by lia; reflexivity).
      cbn in Hl. destruct (skipped (length pre) k) eqn:Hs.
      + destruct (ask_all u k (length pre + 1) ds subs) as [ps' subs''] eqn:E'. injection E as <- <-.
        destruct (IH _ _ Hd' ltac:(lia) eq_refl) as (A & B & C). split; [cbn; rewrite A, repeat_length; reflexivity|]. split; [cbn; lia|].
        intros [|i] d0 s0 Hi Hi'; cbn [nth_error] in *.
        * injection Hi as <-. injection Hi' as <-. exists (repeat zero d), s. rewrite Nat.add_0_r, Hs. split; [reflexivity|]. split; [reflexivity|]. split; [auto|discriminate].
        * replace (length pre + Datatypes.S i) with (length pre + 1 + i) by lia. apply C; assumption.
      + destruct (sub_ask (length pre) u (sb s)) as [x s'] eqn:Ex.
        destruct (ask_all u k (length pre + 1) ds subs) as [ps' subs''] eqn:E'. injection E as <- <-.
        destruct (IH _ _ Hd' ltac:(lia) eq_refl) as (A & B & C).
        assert (Lx : length x = d) by (rewrite <- (Hdim _ u (sb s) _ Hn), Ex; reflexivity).
        split; [cbn; rewrite A, Lx; reflexivity|]. split; [cbn; lia|].
        intros [|i] d0 s0 Hi Hi'; cbn [nth_error] in *.
        * injection Hi as <-. injection Hi' as <-. exists x, (SSub s' (sb_log s ++ [SAsk u x])). rewrite Nat.add_0_r, Hs, Ex. split; [reflexivity|]. split; [reflexivity|]. split; [discriminate|auto].
        * replace (length pre + Datatypes.S i) with (length pre + 1 + i) by lia. apply C; assumption.
  Qed.

  (** the parts of a candidate *)
  Definition parts_of (k : nat) (x : list X) (ps : list (part X)) : Prop :=
    length ps = length dims /\ forall i, i < length dims -> nth_error ps i = Some (negb (skipped i k), group dims i x).

  Lemma internal_ask_spec u k sp x sp' : length (sp_subs sp) = length dims ->
    internal_ask S X zero sub_ask dims progressive u k sp = (x, sp') ->
    length x = list_sum dims /\ length (sp_subs sp') = length dims /\ sp_asked sp' = sp_asked sp /\
    (exists ps, sp_parts sp' = dset u ps (sp_parts sp) /\ parts_of k x ps) /\
    forall i d s, nth_error dims i = Some d -> nth_error (sp_subs sp) i = Some s -> exists s', nth_error (sp_subs sp') i = Some s' /\
      (skipped i k = true -> s' = s /\ group dims i x = repeat zero d) /\
      (skipped i k = false -> s' = SSub (snd (sub_ask i u (sb s))) (sb_log s ++ [SAsk u (group dims i x)]) /\ group dims i x = fst (sub_ask i u (sb s))).
  Proof.
    intros Hl E. unfold internal_ask in E. destruct (ask_all u k 0 dims (sp_subs sp)) as [ps subs'] eqn:Ea. injection E as <- <-.
    destruct (ask_all_spec u k dims [] (sp_subs sp) ps subs' eq_refl Hl Ea) as (A & B & C). cbn [length Nat.add] in C.
    assert (A' : map (@length X) (map snd ps) = dims) by (rewrite map_map; exact A).
    assert (Lp : length ps = length dims) by (rewrite <- A, map_length; reflexivity).
    assert (G : forall i b y, nth_error ps i = Some (b, y) -> group dims i (concat (map snd ps)) = y).
    { intros i b y Hi. assert (Hn : i < length dims) by (rewrite <- Lp; apply nth_error_Some; congruence).
      destruct (nth_error dims i) as [d|] eqn:Ed; [|apply nth_error_None in Ed; lia].
      pose proof (slices_group dims i d (concat (map snd ps)) Ed) as G. rewrite (slices_concat dims (map snd ps) A') in G.
      rewrite (map_nth_error snd i ps Hi) in G. injection G as <-. reflexivity. }
    split; [rewrite concat_size, A'; reflexivity|]. cbn [sp_subs sp_asked sp_parts]. split; [congruence|]. split; [reflexivity|]. split.
    - exists ps. split; [reflexivity|]. split; [exact Lp|]. intros i Hi.
      destruct (nth_error dims i) as [d|] eqn:Ed; [|apply nth_error_None in Ed; lia].
      destruct (nth_error (sp_subs sp) i) as [s|] eqn:Es; [|apply nth_error_None in Es; lia].
      destruct (C i d s Ed Es) as (y & s' & Hp & _). rewrite Hp. rewrite (G _ _ _ Hp). reflexivity.
    - intros i d s Ed Es. destruct (C i d s Ed Es) as (y & s' & Hp & Hs' & D1 & D2). exists s'. rewrite (G _ _ _ Hp). auto.
  Qed.

  Lemma tell_parts_spec l : forall ps subs subs' r, length ps = length subs -> tell_parts ps l subs = (subs', r) ->
    length subs' = length subs /\
    (r = Ok tt -> forall i s u x, nth_error subs i = Some s -> nth_error ps i = Some (u, x) ->
       snd (sub_tell u x l (sb s)) = Ok tt /\
       nth_error subs' i = Some (SSub (fst (sub_tell u x l (sb s))) (sb_log s ++ [STell u x l]))) /\
    ((forall i s u x, nth_error subs i = Some s -> nth_error ps i = Some (u, x) -> snd (sub_tell u x l (sb s)) = Ok tt) -> r = Ok tt) /\
    (forall i s s', nth_error subs i = Some s -> nth_error subs' i = Some s' -> sb_log s' = sb_log s \/
        exists u x, nth_error ps i = Some (u, x) /\ sb_log s' = sb_log s ++ [STell u x l]).
  Proof.
    induction ps as [|[u x] ps IH]; intros subs subs' r Hl E; destruct subs as [|s subs]; try discriminate; cbn [Split.tell_parts] in E.
    - injection E as <- <-. split; [reflexivity|]. split; [intros _ [|i] ? ? ? X0; discriminate|]. split; [reflexivity|].
      intros [|i] ? ? X0; discriminate.
    - cbn in Hl. destruct (sub_tell u x l (sb s)) as [s' r0] eqn:Et. destruct r0 as [[]|e].
      + destruct (tell_parts ps l subs) as [subs'' r1] eqn:E'. injection E as <- <-.
        destruct (IH subs subs'' r1 ltac:(lia) E') as (A & B & C & D). split; [cbn; lia|]. split; [|split].
        * intros Hr [|i] s0 u0 x0 Hs Hp; cbn [nth_error] in *; [injection Hs as <-; injection Hp as <- <-; rewrite Et; auto|].
          apply B; assumption.
        * intros H. apply C. intros i s0 u0 x0 Hs Hp. apply (H (Datatypes.S i)); assumption.
        * intros [|i] s0 s1 Hs Hs1; cbn [nth_error] in *; [injection Hs as <-; injection Hs1 as <-; right; exists u, x; auto|].
          eapply D; eauto.
      + injection E as <- <-. split; [reflexivity|]. split; [discriminate|]. split.
        * intros H. specialize (H 0 s u x eq_refl eq_refl). rewrite Et in H. discriminate H.
        * intros [|i] s0 s1 Hs Hs1; cbn [nth_error] in *; [injection Hs as <-; injection Hs1 as <-; right; exists u, x; auto|].
          left. congruence.
  Qed.

  Lemma step_subs sp o sp' r : length (sp_subs sp) = length dims ->
    (forall u ps, dget u (sp_parts sp) = Some ps -> length ps = length dims) ->
    step sp o = (sp', r) -> length (sp_subs sp') = length dims.
  Proof.
    intros Hl Hp E. destruct o as [u k|u' k u|u data l]; cbn [split_step] in E.
    - destruct (internal_ask _ _ _ _ _ _ u k sp) as [x sp1] eqn:Ea. injection E as <- <-. cbn. eapply internal_ask_spec; eauto.
    - destruct (internal_ask _ _ _ _ _ _ u' k sp) as [x sp1] eqn:Ea. injection E as <- <-. cbn. eapply internal_ask_spec; eauto.
    - destruct (existsb (Nat.eqb u) (sp_asked sp)).
      + unfold internal_tell in E. destruct (dget u (sp_parts sp)) as [ps|] eqn:Ed; [|injection E as <- <-; exact Hl].
        destruct (tell_parts _ l (sp_subs sp)) as [subs' r0] eqn:Et.
        assert (A := fun H => tell_parts_spec l _ _ _ _ H Et). destruct A as (A & _); [rewrite map_length, (Hp _ _ Ed); congruence|].
        destruct r0; injection E as <- <-; cbn; congruence.
      + unfold internal_tell_not_asked in E. destruct (tell_parts _ l (sp_subs sp)) as [subs' r0] eqn:Et.
        assert (A := fun H => tell_parts_spec l _ _ _ _ H Et). destruct A as (A & _); [rewrite map_length, slices_length; congruence|].
        injection E as <- <-. cbn. congruence.
  Qed.

  (** ** Histories *)
  Lemma run_app sp a b : run sp (a ++ b) = let (sp1, rs1) := run sp a in let (sp2, rs2) := run sp1 b in (sp2, rs1 ++ rs2).
  Proof.
    revert sp. induction a as [|o a IH]; intros sp; cbn [app split_run]; [destruct (run sp b); reflexivity|].
    destruct (step sp o) as [sp1 r]. rewrite IH. destruct (run sp1 a) as [sp2 rs]. destruct (run sp2 b) as [sp3 rs']. reflexivity.
  Qed.
  Lemma run_length sp ops sp' rs : run sp ops = (sp', rs) -> length rs = length ops.
  Proof.
    revert sp sp' rs. induction ops as [|o ops IH]; intros sp sp' rs E; cbn [split_run] in E; [injection E as <- <-; reflexivity|].
    destruct (step sp o) as [sp1 r]. destruct (run sp1 ops) as [sp2 rs2] eqn:E2. injection E as <- <-. cbn. f_equal. eapply IH; eauto.
  Qed.
  Lemma run_ind (P : list (top X) -> list (result (list X)) -> split S X -> Prop) sp0 : P [] [] sp0 ->
    (forall ops rs sp o sp' r, length rs = length ops -> run sp0 ops = (sp, rs) -> P ops rs sp -> step sp o = (sp', r) -> P (ops ++ [o]) (rs ++ [r]) sp') ->
    forall ops sp rs, run sp0 ops = (sp, rs) -> P ops rs sp.
  Proof.
    intros H0 HS ops. induction ops as [|o ops IH] using rev_ind; intros sp rs E.
    - injection E as <- <-. exact H0.
    - rewrite run_app in E. destruct (run sp0 ops) as [sp1 rs1] eqn:E1. cbn [split_run] in E.
      destruct (step sp1 o) as [sp2 r] eqn:Es. injection E as <- <-. eapply HS; eauto. eapply run_length; eauto.
  Qed.

  Definition sane (sp : split S X) : Prop :=
    length (sp_subs sp) = length dims /\ NoDup (dkeys (sp_parts sp)) /\ forall u ps, dget u (sp_parts sp) = Some ps -> length ps = length dims.
  Lemma init_sane subs : length subs = length dims -> sane (split_init S X subs).
  Proof. intros H. split; [cbn; rewrite map_length; exact H|]. split; [constructor|discriminate]. Qed.
  Lemma step_sane sp o sp' r : sane sp -> step sp o = (sp', r) -> sane sp'.
  Proof.
    intros (H1 & H2 & H3) E. split; [eapply step_subs; eauto|]. destruct o as [u k|u' k u|u data l]; cbn [split_step] in E.
    - destruct (internal_ask _ _ _ _ _ _ u k sp) as [x sp1] eqn:Ea. injection E as <- <-. cbn [sp_parts].
      destruct (internal_ask_spec _ _ _ _ _ H1 Ea) as (_ & _ & _ & (ps & Ep & Lp & _) & _). rewrite Ep. split; [apply dset_keys_nodup, H2|].
      intros v qs. rewrite dget_dset. destruct (Nat.eqb v u); [intros X0; injection X0 as <-; exact Lp|apply H3].
    - destruct (internal_ask _ _ _ _ _ _ u' k sp) as [x sp1] eqn:Ea. injection E as <- <-. cbn [sp_parts].
      destruct (internal_ask_spec _ _ _ _ _ H1 Ea) as (_ & _ & _ & (ps & Ep & Lp & _) & _). rewrite Ep. split; [apply dset_keys_nodup, H2|].
      intros v qs. rewrite dget_dset. destruct (Nat.eqb v u'); [intros X0; injection X0 as <-; exact Lp|apply H3].
    - destruct (existsb (Nat.eqb u) (sp_asked sp)).
      + unfold internal_tell in E. destruct (dget u (sp_parts sp)) as [ps|] eqn:Ed; [|injection E as <- <-; auto].
        destruct (tell_parts _ l (sp_subs sp)) as [subs' r0].
        assert (K : NoDup (dkeys (ddel u (sp_parts sp))) /\ forall v qs, dget v (ddel u (sp_parts sp)) = Some qs -> length qs = length dims).
        { split; [apply ddel_keys_nodup, H2|]. intros v qs. rewrite dget_ddel by exact H2. destruct (Nat.eqb v u); [discriminate|apply H3]. }
        destruct r0; injection E as <- <-; exact K.
      + unfold internal_tell_not_asked in E. destruct (tell_parts _ l (sp_subs sp)) as [subs' r0]. injection E as <- <-. auto.
  Qed.
  Lemma run_sane subs ops sp rs : length subs = length dims -> run (split_init S X subs) ops = (sp, rs) -> sane sp.
  Proof.
    intros Hl. apply (run_ind (fun _ _ sp => sane sp)); [apply init_sane, Hl|]. intros. eapply step_sane; eauto.
  Qed.

  (** what is kept of a candidate asked and not told *)
  Lemma step_parts sp o sp' r u : sane sp -> step sp o = (sp', r) -> ~ In u (made [o]) -> (forall data l, o <> TTell u data l) ->
    dget u (sp_parts sp') = dget u (sp_parts sp) /\ (In u (sp_asked sp) <-> In u (sp_asked sp')).
  Proof.
    intros (H1 & H2 & H3) E Hm Ht. destruct o as [v k|v' k v|v data l]; cbn [split_step] in E; cbn [made flat_map app] in Hm.
    - destruct (internal_ask _ _ _ _ _ _ v k sp) as [x sp1] eqn:Ea. injection E as <- <-. cbn [sp_parts sp_asked].
      destruct (internal_ask_spec _ _ _ _ _ H1 Ea) as (_ & _ & Eq & (ps & Ep & Lp & _) & _). rewrite Ep, dget_dset, Eq.
      destruct (Nat.eqb_spec u v) as [->|Hv]; [exfalso; apply Hm; left; reflexivity|]. split; [reflexivity|]. cbn. intuition congruence.
    - destruct (internal_ask _ _ _ _ _ _ v' k sp) as [x sp1] eqn:Ea. injection E as <- <-. cbn [sp_parts sp_asked].
      destruct (internal_ask_spec _ _ _ _ _ H1 Ea) as (_ & _ & Eq & (ps & Ep & Lp & _) & _). rewrite Ep, dget_dset, Eq.
      destruct (Nat.eqb_spec u v') as [->|Hv]; [exfalso; apply Hm; left; reflexivity|]. split; [reflexivity|]. cbn.
      split; [auto|]. intros [->|X0]; [exfalso; apply Hm; right; left; reflexivity|exact X0].
    - assert (Hv : v <> u) by (intros ->; eapply Ht; reflexivity).
      destruct (existsb (Nat.eqb v) (sp_asked sp)).
      + unfold internal_tell in E. destruct (dget v (sp_parts sp)) as [ps|] eqn:Ed; [|injection E as <- <-; split; [reflexivity|tauto]].
        destruct (tell_parts _ l (sp_subs sp)) as [subs' r0].
        assert (K : dget u (ddel v (sp_parts sp)) = dget u (sp_parts sp)).
        { rewrite dget_ddel by exact H2. destruct (Nat.eqb_spec u v); [congruence|reflexivity]. }
        destruct r0; injection E as <- <-; cbn [sp_parts sp_asked]; (split; [exact K|]); [|tauto].
        rewrite filter_In. destruct (Nat.eqb_spec u v); [congruence|cbn; tauto].
      + unfold internal_tell_not_asked in E. destruct (tell_parts _ l (sp_subs sp)) as [subs' r0]. injection E as <- <-. split; [reflexivity|tauto].
  Qed.

  Lemma made_app (a b : list (top X)) : made (a ++ b) = made a ++ made b.
  Proof. unfold made. apply flat_map_app. Qed.
  Lemma nth_made (ops : list (top X)) n u k : nth_error ops n = Some (TAsk u k) -> In u (made ops).
  Proof. intros H. apply nth_error_In in H. apply in_flat_map. exists (TAsk u k). split; [exact H|left; reflexivity]. Qed.

  Lemma run_pending subs ops sp rs : length subs = length dims -> run (split_init S X subs) ops = (sp, rs) -> NoDup (made ops) ->
    forall n u k x, nth_error ops n = Some (TAsk u k) -> nth_error rs n = Some (Ok x) -> (forall data l, ~ In (TTell u data l) ops) ->
    In u (sp_asked sp) /\ exists ps, dget u (sp_parts sp) = Some ps /\ parts_of k x ps.
  Proof.
    intros Hl. apply (run_ind (fun ops rs sp => NoDup (made ops) -> forall n u k x, nth_error ops n = Some (TAsk u k) -> nth_error rs n = Some (Ok x) -> (forall data l, ~ In (TTell u data l) ops) ->
    In u (sp_asked sp) /\ exists ps, dget u (sp_parts sp) = Some ps /\ parts_of k x ps)); [intros _ [|n] ? ? ? X0; discriminate|].
    clear ops sp rs. intros ops rs sp o sp' r Lr Er IH E Hnd n u k x Hn Hr Ht.
    pose proof (run_sane _ _ _ _ Hl Er) as Hs. rewrite made_app in Hnd.
    destruct (Nat.lt_ge_cases n (length ops)) as [Hlt|Hge].
    - rewrite nth_error_app1 in Hn by exact Hlt. rewrite nth_error_app1 in Hr by lia.
      apply nodup_parts in Hnd as [Hnd1 Hdisj].
      destruct (IH Hnd1 n u k x Hn Hr) as (A & B). { intros data l X0. apply (Ht data l), in_or_app. auto. }
      pose proof (Hdisj u (nth_made _ _ _ _ Hn)) as Hm.
      destruct (step_parts _ _ _ _ u Hs E Hm) as (P1 & P2).
      { intros data l ->. apply (Ht data l), in_or_app. right. left. reflexivity. }
      split; [apply P2, A|]. rewrite P1. exact B.
    - rewrite nth_error_app2 in Hn by exact Hge. rewrite nth_error_app2 in Hr by lia. rewrite Lr in Hr.
      destruct (n - length ops) as [|n'] eqn:En; cbn [nth_error] in Hn, Hr; [|destruct n'; discriminate].
      injection Hn as ->. injection Hr as ->. cbn [split_step] in E.
      destruct (internal_ask _ _ _ _ _ _ u k sp) as [y sp1] eqn:Ea. injection E as <- <-. cbn [sp_parts sp_asked].
      destruct (internal_ask_spec _ _ _ _ _ (proj1 Hs) Ea) as (_ & _ & _ & (ps & Ep & Hp) & _).
      split; [left; reflexivity|]. exists ps. rewrite Ep, dget_dset, Nat.eqb_refl. auto.
  Qed.
End Split.

Section Rescaled.
  Variable S : Type.
  Variable sub_ask : nat -> S -> list Q * S.
  Variable sub_tell : option nat -> list Q -> Q -> S -> S * result unit.
  Variable scale : Q.
  Variable shift : option Q.
  Notation step := (rescaled_step S sub_ask sub_tell scale shift).
  Notation run := (rescaled_run S sub_ask sub_tell scale shift).
  Notation log rs := (sb_log (rs_sub rs)).

  Lemma rrun_app sp a b : run sp (a ++ b) = let (sp1, rs1) := run sp a in let (sp2, rs2) := run sp1 b in (sp2, rs1 ++ rs2).
  Proof.
    revert sp. induction a as [|o a IH]; intros sp; cbn [app rescaled_run]; [destruct (run sp b); reflexivity|].
    destruct (step sp o) as [sp1 r]. rewrite IH. destruct (run sp1 a) as [sp2 rs]. destruct (run sp2 b) as [sp3 rs']. reflexivity.
  Qed.
  Lemma rrun_length sp ops sp' rs : run sp ops = (sp', rs) -> length rs = length ops.
  Proof.
    revert sp sp' rs. induction ops as [|o ops IH]; intros sp sp' rs E; cbn [rescaled_run] in E; [injection E as <- <-; reflexivity|].
    destruct (step sp o) as [sp1 r]. destruct (run sp1 ops) as [sp2 rs2] eqn:E2. injection E as <- <-. cbn. f_equal. eapply IH; eauto.
  Qed.
  Lemma rrun_ind (P : list rop -> list (result (list Q)) -> rescaled S -> Prop) sp0 : P [] [] sp0 ->
    (forall ops rs sp o sp' r, length rs = length ops -> run sp0 ops = (sp, rs) -> P ops rs sp -> step sp o = (sp', r) -> P (ops ++ [o]) (rs ++ [r]) sp') ->
    forall ops sp rs, run sp0 ops = (sp, rs) -> P ops rs sp.
  Proof.
    intros H0 HS ops. induction ops as [|o ops IH] using rev_ind; intros sp rs E.
    - injection E as <- <-. exact H0.
    - rewrite rrun_app in E. destruct (run sp0 ops) as [sp1 rs1] eqn:E1. cbn [rescaled_run] in E.
      destruct (step sp1 o) as [sp2 r] eqn:Es. injection E as <- <-. eapply HS; eauto. eapply rrun_length; eauto.
  Qed.

  Lemma rescale_forward noise x : shift = None -> at_scale scale x (rescale scale shift false noise x).
  Proof.
    intros E. unfold rescale. rewrite E. unfold at_scale. induction x as [|a x IH]; cbn; constructor; [reflexivity|exact IH].
  Qed.
  Lemma rescale_back noise x : shift = None -> ~ (scale == 0)%Q -> at_scale scale (rescale scale shift true noise x) x.
  Proof.
    intros E Hs. unfold rescale. rewrite E. unfold at_scale. induction x as [|a x IH]; cbn; constructor; [field; exact Hs|exact IH].
  Qed.

  (** what is pending was asked, and is known with its point at the scale of the sub-optimizer *)
  Definition pend (ops : list rop) (rs : list (result (list Q))) (st : rescaled S) : Prop :=
    NoDup (dkeys (rs_pending st)) /\
    (forall u d, dget u (rs_pending st) = Some d -> In (SAsk u d) (log st) /\
       exists n noise, nth_error ops n = Some (RAsk u noise) /\ nth_error rs n = Some (Ok (rescale scale shift false noise d))) /\
    (Forall (fun r => exists x, r = Ok x) rs -> forall u, In u (rs_asked st) -> dget u (rs_pending st) <> None).
  Lemma nth_snoc {A} (l : list A) a n x : nth_error l n = Some x -> nth_error (l ++ [a]) n = Some x.
  Proof. intros H. rewrite nth_error_app1; [exact H|]. apply nth_error_Some. congruence. Qed.
  Lemma run_pend s ops st rs : run (rescaled_init S s) ops = (st, rs) -> pend ops rs st.
  Proof.
    apply (rrun_ind pend).
    - split; [constructor|]. split; [discriminate|intros _ u []].
    - clear. intros ops rs st o st' r Lr Er (H1 & H2 & H3) E.
      assert (Keep : forall st1 : rescaled S, (forall c, In c (log st) -> In c (log st1)) -> forall u d, dget u (rs_pending st) = Some d -> In (SAsk u d) (log st1) /\
        exists n noise, nth_error (ops ++ [o]) n = Some (RAsk u noise) /\ nth_error (rs ++ [r]) n = Some (Ok (rescale scale shift false noise d))).
      { intros st1 Hi u d Hd. destruct (H2 u d Hd) as (A & n & noise & B & C). split; [auto|]. exists n, noise. split; apply nth_snoc; assumption. }
      destruct o as [u noise|u data noise l]; cbn [rescaled_step] in E.
      + destruct (sub_ask u (sb (rs_sub st))) as [x s'] eqn:Ex. injection E as <- <-. split; [apply dset_keys_nodup, H1|]. cbn [rs_pending rs_asked rs_sub sb_log]. split.
        * intros v d. rewrite dget_dset. destruct (Nat.eqb_spec v u) as [->|Hv].
          -- intros X0. injection X0 as <-. split; [apply in_or_app; right; left; reflexivity|]. exists (length ops), noise.
             rewrite nth_error_app2, Nat.sub_diag by lia. rewrite nth_error_app2, Lr, Nat.sub_diag by lia. auto.
          -- intros Hd. apply (Keep (Rescaled (SSub s' (log st ++ [SAsk u x])) [] [])); [intros c Hc; cbn; apply in_or_app; auto|exact Hd].
        * intros Hr v Hv. rewrite dget_dset. destruct (Nat.eqb_spec v u); [discriminate|]. destruct Hv as [|Hv]; [congruence|].
          apply H3; [|exact Hv]. apply Forall_app in Hr as [Hr _]. exact Hr.
      + destruct (existsb (Nat.eqb u) (rs_asked st)) eqn:Ha.
        * destruct (dget u (rs_pending st)) as [x|] eqn:Ed.
          -- unfold tell_sub in E. destruct (sub_tell (Some u) x l (sb (rs_sub st))) as [s' r0] eqn:Et.
             assert (K1 : NoDup (dkeys (ddel u (rs_pending st)))) by (apply ddel_keys_nodup, H1).
             assert (K2 : forall v d, dget v (ddel u (rs_pending st)) = Some d -> In (SAsk v d) (log st ++ [STell (Some u) x l]) /\
               exists n noise0, nth_error (ops ++ [RTell u data noise l]) n = Some (RAsk v noise0) /\ nth_error (rs ++ [r]) n = Some (Ok (rescale scale shift false noise0 d))).
             { intros v d. rewrite dget_ddel by exact H1. destruct (Nat.eqb v u); [discriminate|]. intros Hd.
               apply (Keep (Rescaled (SSub s' (log st ++ [STell (Some u) x l])) [] [])); [intros c Hc; cbn; apply in_or_app; auto|exact Hd]. }
             destruct r0 as [[]|e]; injection E as <- <-; (split; [exact K1|]); (split; [exact K2|]); cbn [rs_asked rs_pending].
             ++ intros Hr v Hv. apply filter_In in Hv as [Hv Hne]. rewrite dget_ddel by exact H1. destruct (Nat.eqb v u); [discriminate|].
                apply H3; [|exact Hv]. apply Forall_app in Hr as [Hr _]. exact Hr.
             ++ intros Hr. apply Forall_app in Hr as [_ Hr]. apply Forall_inv in Hr as [y Hy]. discriminate Hy.
          -- injection E as <- <-. split; [exact H1|]. split; [apply (Keep st); auto|]. intros Hr. apply Forall_app in Hr as [_ Hr]. apply Forall_inv in Hr as [y Hy]. discriminate Hy.
        * unfold tell_sub in E. destruct (sub_tell None _ l (sb (rs_sub st))) as [s' r0] eqn:Et. injection E as <- <-. split; [exact H1|].
          cbn [rs_pending rs_asked rs_sub sb_log]. split.
          -- intros v d Hd. apply (Keep (Rescaled (SSub s' (log st ++ [STell None (rescale scale shift true noise data) l])) [] [])); [intros c Hc; cbn; apply in_or_app; auto|exact Hd].
          -- intros Hr. apply Forall_app in Hr as [Hr _]. apply H3, Hr.
  Qed.

  (** each step tells at most one point *)
  Lemma rstep_log st o st' r : step st o = (st', r) ->
    log st' = log st \/ (exists u noise x, o = RAsk u noise /\ log st' = log st ++ [SAsk u x]) \/
    (exists u data noise l x, o = RTell u data noise l /\ In u (rs_asked st) /\ dget u (rs_pending st) = Some x /\ log st' = log st ++ [STell (Some u) x l]) \/
    (exists u data noise l, o = RTell u data noise l /\ ~ In u (rs_asked st) /\ log st' = log st ++ [STell None (rescale scale shift true noise data) l]).
  Proof.
    intros E. destruct o as [u noise|u data noise l]; cbn [rescaled_step] in E.
    - destruct (sub_ask u (sb (rs_sub st))) as [x s'] eqn:Ex. injection E as <- <-. right. left. exists u, noise, x. split; reflexivity.
    - destruct (existsb (Nat.eqb u) (rs_asked st)) eqn:Ha.
      + apply existsb_exists in Ha as (v & Hv & Ev). apply Nat.eqb_eq in Ev. subst v.
        destruct (dget u (rs_pending st)) as [x|] eqn:Ed; [|injection E as <- <-; auto].
        unfold tell_sub in E. destruct (sub_tell (Some u) x l (sb (rs_sub st))) as [s' r0]. right. right. left. exists u, data, noise, l, x.
        destruct r0; injection E as <- <-; auto.
      + unfold tell_sub in E. destruct (sub_tell None _ l (sb (rs_sub st))) as [s' r0]. injection E as <- <-. right. right. right. exists u, data, noise, l.
        split; [reflexivity|]. split; [|reflexivity]. intros Hu. assert (X0 : existsb (Nat.eqb u) (rs_asked st) = true) by (apply existsb_exists; exists u; split; [exact Hu|apply Nat.eqb_refl]). congruence.
  Qed.
  Lemma objective s ops st rs : shift = None -> ~ (scale == 0)%Q -> run (rescaled_init S s) ops = (st, rs) -> honest_r ops rs ->
    forall v d l, In (STell v d l) (log st) -> exists u data noise, In (RTell u data noise l) ops /\ at_scale scale d data.
  Proof.
    intros Hsh Hsc. apply (rrun_ind (fun ops rs st => honest_r ops rs -> forall v d l, In (STell v d l) (log st) -> exists u data noise, In (RTell u data noise l) ops /\ at_scale scale d data)); [intros _ v d l []|].
    clear ops st rs. intros ops rs st o st' r Lr Er IH E Hh v d l Hin.
    assert (Hh' : honest_r ops rs).
    { intros n m u data noise noise' x l0 A B C D. apply (Hh n m u data noise noise' x l0); auto using nth_snoc. }
    assert (Old : In (STell v d l) (log st) -> exists u data noise, In (RTell u data noise l) (ops ++ [o]) /\ at_scale scale d data).
    { intros X0. destruct (IH Hh' v d l X0) as (u & data & noise & A & B). exists u, data, noise. split; [apply in_or_app; auto|exact B]. }
    destruct (run_pend _ _ _ _ Er) as (_ & Hp & _).
    destruct (rstep_log _ _ _ _ E) as [El|[(u & noise & x & -> & El)|[(u & data & noise & l0 & x & -> & Ha & Hd & El)|(u & data & noise & l0 & -> & Ha & El)]]]; rewrite El in Hin.
    - auto.
    - apply in_app_or in Hin as [X0|[X0|[]]]; [auto|discriminate X0].
    - apply in_app_or in Hin as [X0|[X0|[]]]; [auto|]. injection X0 as <- <- <-. exists u, data, noise. split; [apply in_or_app; right; left; reflexivity|].
      destruct (Hp u x Hd) as (_ & n & noise' & A & B).
      assert (Hn : n < length ops) by (apply nth_error_Some; congruence).
      assert (Hq : Forall2 Qeq data (rescale scale shift false noise' x)).
      { apply (Hh n (length ops) u data noise noise' _ l0); [apply nth_snoc, A|apply nth_snoc, B|exact Hn|]. rewrite nth_error_app2, Nat.sub_diag by lia. reflexivity. }
      pose proof (rescale_forward noise' x Hsh) as F. unfold at_scale in *. clear - Hq F. revert data Hq.
      induction F as [|a b x y Hab F IH]; intros data Hq; inversion Hq; subst; constructor; [etransitivity; eassumption|auto].
    - apply in_app_or in Hin as [X0|[X0|[]]]; [auto|]. injection X0 as <- <- <-. exists u, data, noise. split; [apply in_or_app; right; left; reflexivity|].
      apply rescale_back; assumption.
  Qed.
End Rescaled.

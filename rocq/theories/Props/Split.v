(** * C71: split optimizers; C72: rescaled optimizers *)
From Coq Require Import Reals List Arith ZArith QArith Bool Lia Lqa Lra.
From Verif.Model Require Import Prelude Split.
From Verif.Spec Require Import Split.
From Verif.Proofs Require Import Prelude Split.
Import ListNotations.
Open Scope nat_scope.

(** ** C71: the groups of variables *)
(** Whatever the configuration, the groups of variables are not empty and cover the dimension. *)
Theorem C71_sizes : forall num_optims num_vars max_num_vars data dim sizes, (1 <= dim)%Z -> Forall (fun v => 1 <= v)%Z data ->
  split_sizes num_optims num_vars max_num_vars data dim = Ok sizes -> Forall (fun v => 1 <= v)%Z sizes /\ zsum sizes = dim.
Proof.
  intros no nv mx data dim sizes Hdim Hdata E. unfold split_sizes in E.
  destruct (1 <? _); [discriminate E|]. set (mv := match mx with None => Ok nv | Some m => _ end) in E.
  destruct mv as [nv'|e]; [|discriminate E]. cbn [bind] in E.
  set (data' := if length data =? 1 then [] else data) in E.
  assert (Hdata' : Forall (fun v => 1 <= v)%Z data') by (unfold data'; destruct (length data =? 1); [constructor|exact Hdata]).
  set (q := match nv' with Some l => _ | None => _ end) in E. destruct q as [[num subs]|e] eqn:Eq; [|discriminate E]. cbn [bind] in E.
  set (r := match subs with [] => _ | _ => Ok subs end) in E. destruct r as [sz|e] eqn:Er; [|discriminate E]. cbn [bind] in E.
  destruct (Z.eqb_spec (zsum sz) dim) as [Hs|]; [|discriminate E]. injection E as <-. split; [|exact Hs]. unfold r in Er.
  assert (Hsub : subs = [] \/ subs = data').
  { unfold q in Eq. destruct nv' as [l|]; [|destruct no; [injection Eq as <- <-; auto|]].
    - destruct (zsum l =? dim)%Z; [|discriminate Eq]. destruct no as [n|]; [|injection Eq as <- <-; auto].
      destruct (n =? _)%Z; [injection Eq as <- <-; auto|discriminate Eq].
    - destruct data'; injection Eq as <- <-; auto. }
  destruct subs as [|v subs]; [|injection Er as <-; destruct Hsub as [Hsub|Hsub]; [discriminate Hsub|rewrite Hsub; exact Hdata']].
  set (n := Z.to_nat (Z.min num dim)) in Er. set (vars := match nv' with Some l => l | None => [] end) in Er.
  destruct nv' as [l|].
  - cbn in vars. assert (Hn : 0 + n <= length vars).
    { unfold q in Eq. destruct (zsum l =? dim)%Z; [|discriminate Eq]. destruct no as [k|].
      - destruct (Z.eqb_spec k (Z.of_nat (length l))); [|discriminate Eq]. injection Eq as <-. unfold n, vars. lia.
      - injection Eq as <-. unfold n, vars. lia. }
    apply (proj1 (sizes_given dim (Z.min num dim) n 0 vars Hn) _ Er).
  - cbn in vars. destruct (Z.le_gt_cases 1 (Z.min num dim)) as [H|H].
    + unfold n, vars in Er. rewrite equal_ok in Er by lia. injection Er as <-. apply Forall_forall. intros v Hv. apply in_map_iff in Hv as (i & <- & _). apply equal_pos. lia.
    + assert (En : n = 0) by (unfold n; lia). rewrite En in Er. cbn in Er. injection Er as <-. constructor.
Qed.
(** A number of optimizers: as many groups (no more than variables), of the same size up to one, the larger ones first. *)
Theorem C71_num_optims : forall n data dim, (1 <= n)%Z -> (1 <= dim)%Z -> exists sizes, split_sizes (Some n) None None data dim = Ok sizes /\
  Z.of_nat (length sizes) = Z.min n dim /\
  forall i j a b, i <= j -> nth_error sizes i = Some a -> nth_error sizes j = Some b -> (b <= a <= b + 1)%Z.
Proof.
  intros n data dim Hn Hd. unfold split_sizes. cbn [Nat.ltb Nat.leb Nat.add bind]. rewrite equal_ok by lia. cbn [bind].
  rewrite equal_total by lia. rewrite Z.eqb_refl. eexists. split; [reflexivity|]. split; [rewrite map_length, seq_length; lia|].
  intros i j a b Hij Ha Hb. rewrite nth_error_map in Ha, Hb.
  destruct (nth_error (seq 0 (Z.to_nat (Z.min n dim))) i) as [i'|] eqn:Ei; [|discriminate Ha].
  destruct (nth_error (seq 0 (Z.to_nat (Z.min n dim))) j) as [j'|] eqn:Ej; [|discriminate Hb].
  assert (Ei' : i' = i). { apply (nth_error_nth _ _ 0) in Ei as X0. rewrite seq_nth in X0; [lia|]. assert (Y : i < length (seq 0 (Z.to_nat (Z.min n dim)))) by (apply nth_error_Some; congruence). rewrite seq_length in Y. exact Y. }
  assert (Ej' : j' = j). { apply (nth_error_nth _ _ 0) in Ej as X0. rewrite seq_nth in X0; [lia|]. assert (Y : j < length (seq 0 (Z.to_nat (Z.min n dim)))) by (apply nth_error_Some; congruence). rewrite seq_length in Y. exact Y. }
  subst i' j'. cbn in Ha, Hb. injection Ha as <-. injection Hb as <-. unfold equal_share.
  destruct (Z.ltb_spec (Z.of_nat i) (dim mod Z.min n dim)); destruct (Z.ltb_spec (Z.of_nat j) (dim mod Z.min n dim)); lia.
Qed.
(** Given sizes are respected if they are positive and cover the dimension, refused if they do not. *)
Theorem C71_num_vars : forall l data dim, Forall (fun v => 1 <= v)%Z l ->
  (zsum l = dim -> split_sizes None (Some l) None data dim = Ok l) /\ (zsum l <> dim -> split_sizes None (Some l) None data dim = Err AssertionError).
Proof.
  intros l data dim Hl. pose proof (zsum_length l Hl) as Hlen. unfold split_sizes. cbn [Nat.ltb Nat.leb Nat.add bind]. split; intros H.
  - rewrite H, Z.eqb_refl. cbn [bind]. rewrite Z.min_l by lia. rewrite Nat2Z.id.
    destruct (sizes_given dim (Z.of_nat (length l)) (length l) 0 l ltac:(lia)) as (_ & B & _). cbn [skipn] in B. rewrite firstn_all in B.
    rewrite (B Hl). cbn [bind]. rewrite H, Z.eqb_refl. reflexivity.
  - destruct (Z.eqb_spec (zsum l) dim); [contradiction|reflexivity].
Qed.
(** A maximal size: as few groups as possible, all of this size but the last one. *)
Theorem C71_max_num_vars : forall m data dim, (1 <= m)%Z -> (1 <= dim)%Z -> exists k last,
  split_sizes None None (Some m) data dim = Ok (repeat m k ++ [last]) /\ (1 <= last <= m)%Z.
Proof.
  intros m data dim Hm Hd. unfold split_sizes. cbn [Nat.ltb Nat.leb Nat.add]. destruct (Z.eqb_spec m 0); [lia|]. cbn [bind].
  rewrite zsum_repeat. pose proof (Z.div_mod dim m ltac:(lia)) as D. pose proof (Z.mod_pos_bound dim m ltac:(lia)) as M.
  pose proof (Z.div_pos dim m ltac:(lia) ltac:(lia)) as P. rewrite Z2Nat.id by lia.
  set (l := if (m * (dim / m) <? dim)%Z then repeat m (Z.to_nat (dim / m)) ++ [(dim - m * (dim / m))%Z] else repeat m (Z.to_nat (dim / m))).
  assert (Hex : exists k last, l = repeat m k ++ [last] /\ (1 <= last <= m)%Z).
  { unfold l. destruct (Z.ltb_spec (m * (dim / m)) dim).
    - exists (Z.to_nat (dim / m)), (dim - m * (dim / m))%Z. split; [reflexivity|lia].
    - assert (Hq : (1 <= dim / m)%Z) by nia. exists (Z.to_nat (dim / m) - 1), m. split; [|lia].
      replace (Z.to_nat (dim / m)) with (Z.to_nat (dim / m) - 1 + 1) at 1 by lia. rewrite repeat_app. reflexivity. }
  assert (Hsum : zsum l = dim).
  { unfold l. destruct (Z.ltb_spec (m * (dim / m)) dim).
    - rewrite zsum_app, zsum_repeat, Z2Nat.id by lia. unfold zsum. cbn [fold_right]. lia.
    - rewrite zsum_repeat, Z2Nat.id by lia. lia. }
  assert (Hpos : Forall (fun v => 1 <= v)%Z l).
  { destruct Hex as (k & last & -> & H). apply Forall_app. split; [apply Forall_forall; intros v Hv; apply repeat_spec in Hv; lia|constructor; [lia|constructor]]. }
  destruct Hex as (k & last & El & Hlast). exists k, last. split; [|exact Hlast]. rewrite <- El.
  pose proof (zsum_length l Hpos) as Hlen. fold l. rewrite Hsum, Z.eqb_refl. cbn [bind]. rewrite Z.min_l by lia. rewrite Nat2Z.id.
  destruct (sizes_given dim (Z.of_nat (length l)) (length l) 0 l ltac:(lia)) as (_ & B & _). cbn [skipn] in B. rewrite firstn_all in B.
  rewrite (B Hpos). cbn [bind]. rewrite Hsum, Z.eqb_refl. reflexivity.
Qed.
(** By default, one group per data of the parametrization, or two groups. *)
Theorem C71_default : forall data dim, (1 <= dim)%Z ->
  (2 <= length data -> zsum data = dim -> split_sizes None None None data dim = Ok data) /\
  (length data <= 1 -> exists sizes, split_sizes None None None data dim = Ok sizes /\ Z.of_nat (length sizes) = Z.min 2 dim).
Proof.
  intros data dim Hd. split; intros H.
  - intros Hs. unfold split_sizes. cbn [Nat.ltb Nat.leb Nat.add bind]. destruct (Nat.eqb_spec (length data) 1); [lia|].
    destruct data as [|a [|b data]]; cbn in H; try lia. cbn [bind]. rewrite Hs, Z.eqb_refl. reflexivity.
  - destruct (C71_num_optims 2 data dim ltac:(lia) Hd) as (sizes & E & L & _). exists sizes. split; [|exact L].
    rewrite <- E. unfold split_sizes. cbn [Nat.ltb Nat.leb Nat.add bind]. destruct data as [|a [|b data]]; cbn in H; [reflexivity|reflexivity|lia].
Qed.
Example C71_sizes_nontrivial :
  split_sizes (Some 3%Z) None None [] 11%Z = Ok [4; 4; 3]%Z /\ split_sizes None None (Some 4%Z) [] 11%Z = Ok [4; 4; 3]%Z /\
  split_sizes None (Some [2; 9]%Z) None [] 11%Z = Ok [2; 9]%Z /\ split_sizes None None None [5; 6]%Z 11%Z = Ok [5; 6]%Z /\
  split_sizes None None None [11]%Z 11%Z = Ok [6; 5]%Z /\ split_sizes None (Some [0; 11]%Z) None [] 11%Z = Err AssertionError.
Proof. vm_compute. auto 10. Qed.
(** Empty groups may be dropped without error. *)
Theorem C71_num_vars_refuted : ~ (forall l data dim sizes, (1 <= dim)%Z -> split_sizes None (Some l) None data dim = Ok sizes -> sizes = l).
Proof. intros H. specialize (H [1; 0]%Z [] 1%Z [1]%Z ltac:(lia) eq_refl). discriminate H. Qed.

Section C71.
  Variables (S X : Type) (zero : X).
  Variable sub_ask : nat -> nat -> S -> list X * S.
  Variable sub_tell : option nat -> list X -> Q -> S -> S * result unit.
  Variable dims : list nat.
  Variable progressive : option nat.
  (** each sub-optimizer has its dimension *)
  Hypothesis Hdim : forall i u s d, nth_error dims i = Some d -> length (fst (sub_ask i u s)) = d.
  Variable subs : list S.
  Hypothesis Hsubs : length subs = length dims.
  Notation run := (split_run S X zero sub_ask sub_tell dims progressive (split_init S X subs)).
  Notation step := (split_step S X zero sub_ask sub_tell dims progressive).

  (** Each optimizer is asked once for its group of variables (unless it is not its time yet: its variables do not move). *)
  Theorem C71_ask : forall ops sp rs u num_ask sp' r, run ops = (sp, rs) -> step sp (TAsk u num_ask) = (sp', r) ->
    exists x, r = Ok x /\ length x = list_sum dims /\
    forall i d s, nth_error dims i = Some d -> nth_error (sp_subs sp) i = Some s -> exists s', nth_error (sp_subs sp') i = Some s' /\
      (not_yet progressive (length dims) i num_ask -> s' = s /\ group dims i x = repeat zero d) /\
      (~ not_yet progressive (length dims) i num_ask ->
         group dims i x = fst (sub_ask i u (sb s)) /\ sb s' = snd (sub_ask i u (sb s)) /\ sb_log s' = sb_log s ++ [SAsk u (group dims i x)]).
  Proof.
    intros ops sp rs u k sp' r Er E. destruct (run_sane _ _ _ _ _ _ _ Hdim _ _ _ _ Hsubs Er) as (H1 & _). cbn [split_step] in E.
    destruct (internal_ask _ _ _ _ _ _ u k sp) as [x sp1] eqn:Ea. injection E as <- <-. exists x. split; [reflexivity|].
    destruct (internal_ask_spec _ _ _ _ _ _ Hdim _ _ _ _ _ H1 Ea) as (A & _ & _ & _ & B). split; [exact A|]. cbn [sp_subs].
    intros i d s Hd Hs. destruct (B i d s Hd Hs) as (s' & Hs' & C & D). exists s'. split; [exact Hs'|]. rewrite <- (skipped_iff dims).
    split; [exact C|]. intros Hn. destruct (D ltac:(destruct (skipped dims progressive i k); [exfalso; apply Hn; reflexivity|reflexivity])) as [-> F].
    auto.
  Qed.

  (** The first optimizer is always asked; one which is asked is asked ever after, like those before it;
      all are after half the budget. *)
  Theorem C71_progressive : forall n k k' i j b, i < n ->
    ~ not_yet progressive n 0 k /\
    (~ not_yet progressive n i k -> k <= k' -> j <= i -> ~ not_yet progressive n j k') /\
    (progressive = None -> ~ not_yet progressive n i k) /\
    (progressive = Some b -> b <= 2 * k -> ~ not_yet progressive n i k).
  Proof.
    intros n k k' i j b Hi. unfold not_yet. split; [intros (b' & _ & H & _); lia|]. split; [|split].
    - intros H Hk Hj (b' & Eb & H1 & H2). apply H. exists b'. split; [exact Eb|]. split; [lia|].
      assert (2 * k * (n * n) <= 2 * k' * (n * n)) by (apply Nat.mul_le_mono_r; lia).
      assert (j * j * b' <= i * i * b') by (apply Nat.mul_le_mono_r, Nat.mul_le_mono; assumption). lia.
    - intros -> (b' & Eb & _). discriminate Eb.
    - intros -> Hb (b' & Eb & H1 & H2). injection Eb as <-.
      assert (i * i * b <= n * n * b) by (apply Nat.mul_le_mono_r, Nat.mul_le_mono; lia).
      assert (n * n * b <= n * n * (2 * k)) by (apply Nat.mul_le_mono_l; exact Hb). lia.
  Qed.

  (** Each optimizer is told the loss of the candidate for the point it proposed, once, if no optimizer refuses. *)
  Theorem C71_tell : forall ops sp rs n u num_ask x data l sp' r, run ops = (sp, rs) -> NoDup (made ops) ->
    nth_error ops n = Some (TAsk u num_ask) -> nth_error rs n = Some (Ok x) -> (forall data' l', ~ In (TTell u data' l') ops) ->
    step sp (TTell u data l) = (sp', r) ->
    (r = Ok [] -> forall i d s, nth_error dims i = Some d -> nth_error (sp_subs sp) i = Some s -> exists s', nth_error (sp_subs sp') i = Some s' /\
      exists own, sb_log s' = sb_log s ++ [STell own (group dims i x) l] /\
        (not_yet progressive (length dims) i num_ask -> own = None) /\ (~ not_yet progressive (length dims) i num_ask -> own = Some u)) /\
    ((forall v y s, snd (sub_tell v y l s) = Ok tt) -> r = Ok []).
  Proof.
    intros ops sp rs n u k x data l sp' r Er Hnd Hn Hr Ht E.
    destruct (run_sane _ _ _ _ _ _ _ Hdim _ _ _ _ Hsubs Er) as (H1 & _).
    destruct (run_pending _ _ _ _ _ _ _ Hdim _ _ _ _ Hsubs Er Hnd n u k x Hn Hr Ht) as (Ha & ps & Hd & Lp & Hp).
    cbn [split_step] in E. assert (Hb : existsb (Nat.eqb u) (sp_asked sp) = true) by (apply existsb_exists; exists u; split; [exact Ha|apply Nat.eqb_refl]).
    rewrite Hb in E. unfold internal_tell in E. rewrite Hd in E.
    set (qs := map (fun p : part X => (if fst p then Some u else None, snd p)) ps) in E.
    destruct (tell_parts S X sub_tell qs l (sp_subs sp)) as [subs' r0] eqn:Et.
    assert (K := fun H => tell_parts_spec _ _ _ _ _ _ _ _ H Et). destruct K as (_ & A & B & _); [unfold qs; rewrite map_length; congruence|].
    split.
    - intros ->. destruct r0 as [[]|e]; [|discriminate E]. injection E as <-. cbn [sp_subs].
      intros i d s Hi Hs. assert (Hlt : i < length dims) by (apply nth_error_Some; congruence).
      assert (Hq : nth_error qs i = Some (if negb (skipped dims progressive i k) then Some u else None, group dims i x)).
      { unfold qs. rewrite (map_nth_error _ _ _ (Hp i Hlt)). reflexivity. }
      destruct (A eq_refl i s _ _ Hs Hq) as (_ & Hs'). eexists. split; [exact Hs'|]. cbn [sb_log].
      exists (if negb (skipped dims progressive i k) then Some u else None). split; [reflexivity|]. rewrite <- (skipped_iff dims).
      destruct (skipped dims progressive i k); cbn; split; intros X0; try reflexivity; [exfalso; apply X0; reflexivity|discriminate X0].
    - intros H. assert (r0 = Ok tt) by (apply B; intros; apply H). subst r0. injection E as _ <-. reflexivity.
  Qed.
  (** Any other point is told to each optimizer as its coordinates. *)
  Theorem C71_tell_new : forall ops sp rs u data l sp' r, run ops = (sp, rs) -> ~ In u (made ops) -> step sp (TTell u data l) = (sp', r) ->
    (r = Ok [] -> forall i d s, nth_error dims i = Some d -> nth_error (sp_subs sp) i = Some s -> exists s', nth_error (sp_subs sp') i = Some s' /\
      sb_log s' = sb_log s ++ [STell None (group dims i data) l]) /\
    ((forall v y s, snd (sub_tell v y l s) = Ok tt) -> r = Ok []).
  Proof.
    intros ops sp rs u data l sp' r Er Hm E.
    destruct (run_sane _ _ _ _ _ _ _ Hdim _ _ _ _ Hsubs Er) as (H1 & _).
    assert (Ha : ~ In u (sp_asked sp)).
    { assert (K : sane S X dims sp /\ forall u, In u (sp_asked sp) -> In u (made ops)); [|intros X0; apply Hm, K, X0]. revert Er.
      apply (run_ind S X zero sub_ask sub_tell dims progressive (fun ops _ sp => sane S X dims sp /\ forall u, In u (sp_asked sp) -> In u (made ops))); [split; [apply init_sane, Hsubs|intros v []]|].
      intros ops0 rs0 sp0 o sp1 r1 _ _ [Hs IH] Es. split; [eapply step_sane; eauto|]. intros v Hv. rewrite made_app. apply in_or_app.
      destruct (in_dec Nat.eq_dec v (made [o])) as [|Hno]; [auto|]. left. apply IH.
      destruct o as [w k|w' k w|w data' l']; cbn [split_step] in Es; cbn [made flat_map app] in Hno.
      - destruct (internal_ask _ _ _ _ _ _ w k sp0) as [x sp2] eqn:Ea. injection Es as <- <-. cbn in Hv.
        destruct (internal_ask_spec _ _ _ _ _ _ Hdim _ _ _ _ _ (proj1 Hs) Ea) as (_ & _ & Eq & _). rewrite Eq in Hv. destruct Hv as [->|Hv]; [exfalso; apply Hno; left; reflexivity|exact Hv].
      - destruct (internal_ask _ _ _ _ _ _ w' k sp0) as [x sp2] eqn:Ea. injection Es as <- <-. cbn in Hv.
        destruct (internal_ask_spec _ _ _ _ _ _ Hdim _ _ _ _ _ (proj1 Hs) Ea) as (_ & _ & Eq & _). rewrite Eq in Hv. destruct Hv as [->|Hv]; [exfalso; apply Hno; right; left; reflexivity|exact Hv].
      - destruct (existsb (Nat.eqb w) (sp_asked sp0)).
        + unfold internal_tell in Es. destruct (dget w (sp_parts sp0)); [|injection Es as <- <-; exact Hv].
          destruct (tell_parts _ _ _ _ _ _) as [s2 r2] in Es. destruct r2; injection Es as <- <-; cbn in Hv; [apply filter_In in Hv; apply Hv|exact Hv].
        + unfold internal_tell_not_asked in Es. destruct (tell_parts _ _ _ _ _ _) as [s2 r2] in Es. injection Es as <- <-. exact Hv. }
    cbn [split_step] in E. destruct (existsb (Nat.eqb u) (sp_asked sp)) eqn:Hb.
    { apply existsb_exists in Hb as (v & Hv & Ev). apply Nat.eqb_eq in Ev. subst v. contradiction. }
    unfold internal_tell_not_asked in E. set (qs := map (fun x : list X => (None, x)) (slices X dims data)) in E.
    destruct (tell_parts S X sub_tell qs l (sp_subs sp)) as [subs' r0] eqn:Et.
    assert (K := fun H => tell_parts_spec _ _ _ _ _ _ _ _ H Et). destruct K as (_ & A & B & _); [unfold qs; rewrite map_length, slices_length; congruence|].
    injection E as <- <-. cbn [sp_subs]. split.
    - intros Hr. destruct r0 as [[]|e]; [|discriminate Hr]. intros i d s Hi Hs.
      assert (Hq : nth_error qs i = Some (None, group dims i data)) by (unfold qs; rewrite (map_nth_error _ _ _ (slices_group dims i d data Hi)); reflexivity).
      destruct (A eq_refl i s _ _ Hs Hq) as (_ & Hs'). eexists. split; [exact Hs'|]. reflexivity.
    - intros H. assert (r0 = Ok tt) by (apply B; intros; apply H). subst r0. reflexivity.
  Qed.
End C71.

(** Concrete: two optimizers, of dimensions 2 and 1, proposing their counter; the second one may refuse points it did not propose. *)
Definition cask (i u : nat) (s : nat) : list nat * nat := (match i with 0 => [s; s + 100] | _ => [s + 200] end, s + 1).
Definition ctell (refuse : bool) (u : option nat) (d : list nat) (l : Q) (s : nat) : nat * result unit :=
  (s, match u with None => if refuse then Err NotImplementedError else Ok tt | Some _ => Ok tt end).
Lemma cask_dim : forall i u s d, nth_error [2; 1] i = Some d -> length (fst (cask i u s)) = d.
Proof. intros [|[|i]] u s d E; cbn in E; try injection E as <-; try reflexivity. destruct i; discriminate. Qed.
Definition crun (refuse : bool) (progressive : option nat) (ops : list (top nat)) := split_run nat nat 0 cask (ctell refuse) [2; 1] progressive (split_init nat nat [10; 20]) ops.
Example C71_nontrivial :
  let '(sp, rs) := crun false (Some 100) [TAsk 0 0; TAsk 1 50; TTell 1 [0; 0; 0] 5%Q; TTell 7 [1; 2; 3] 6%Q; TTell 0 [] 7%Q] in
  rs = [Ok [10; 110; 0]; Ok [11; 111; 220]; Ok []; Ok []; Ok []] /\
  map sb_log (sp_subs sp) =
    [[SAsk 0 [10; 110]; SAsk 1 [11; 111]; STell (Some 1) [11; 111] 5%Q; STell None [1; 2] 6%Q; STell (Some 0) [10; 110] 7%Q];
     [SAsk 1 [220]; STell (Some 1) [220] 5%Q; STell None [3] 6%Q; STell None [0] 7%Q]].
Proof. vm_compute. auto. Qed.
(** A tell which is refused by the second optimizer was made to the first one; made again, it fails for another reason:
    the candidate is forgotten. *)
Theorem C71_retry_refuted : exists ops sp rs, crun true (Some 100) ops = (sp, rs) /\ made ops = [0] /\
  nth_error rs 1 = Some (Err NotImplementedError) /\ nth_error rs 2 = Some (Err KeyError) /\
  map sb_log (sp_subs sp) = [[SAsk 0 [10; 110]; STell (Some 0) [10; 110] 5%Q]; [STell None [0] 5%Q]].
Proof. exists [TAsk 0 0; TTell 0 [] 5%Q; TTell 0 [] 5%Q]. do 2 eexists. vm_compute. auto. Qed.
(** The tell of a candidate repaired by the constraint solver fails. *)
Theorem C71_solved_refuted : ~ (forall ops sp rs u data l, crun false None ops = (sp, rs) -> In u (made ops) -> NoDup (made ops) ->
  (forall data' l', ~ In (TTell u data' l') ops) -> snd (split_step nat nat 0 cask (ctell false) [2; 1] None sp (TTell u data l)) = Ok []).
Proof.
  intros H. destruct (crun false None [TSolved 0 0 1]) as [sp rs] eqn:E. specialize (H [TSolved 0 0 1] sp rs 1 [] 0%Q E).
  vm_compute in E. injection E as <- <-. assert (H' := H ltac:(cbn; auto) ltac:(repeat constructor; cbn; intuition discriminate) ltac:(cbn; intuition discriminate)).
  vm_compute in H'. discriminate H'.
Qed.

(** ** C72: rescaled optimizers *)
Section C72.
  Variable S : Type.
  Variable sub_ask : nat -> S -> list Q * S.
  Variable sub_tell : option nat -> list Q -> Q -> S -> S * result unit.
  Variable scale : Q.
  Hypothesis Hscale : ~ (scale == 0)%Q.
  Variable s0 : S.
  Notation run := (rescaled_run S sub_ask sub_tell scale None (rescaled_init S s0)).
  Notation step := (rescaled_step S sub_ask sub_tell scale None).
  Notation log st := (sb_log (rs_sub st)).

  (** A candidate is the point proposed by the optimizer at the scale. *)
  Theorem C72_ask : forall (st : rescaled S) u noise st' r, step st (RAsk u noise) = (st', r) ->
    exists d x, r = Ok x /\ d = fst (sub_ask u (sb (rs_sub st))) /\ log st' = log st ++ [SAsk u d] /\ at_scale scale d x.
  Proof.
    intros st u noise st' r E. cbn [rescaled_step] in E. destruct (sub_ask u (sb (rs_sub st))) as [d s'] eqn:Ed. injection E as <- <-.
    exists d, (rescale scale None false noise d). split; [reflexivity|]. split; [reflexivity|]. split; [reflexivity|]. apply rescale_forward. reflexivity.
  Qed.
  (** The optimizer works on the rescaled function: any loss it is told for a point is the loss told for this point at the scale. *)
  Theorem C72_function : forall ops st rs, run ops = (st, rs) -> honest_r ops rs ->
    forall v d l, In (STell v d l) (log st) -> exists u data noise, In (RTell u data noise l) ops /\ at_scale scale d data.
  Proof. intros. eapply objective; eauto. Qed.
  (** And what it is told as its own, it proposed. *)
  Theorem C72_own : forall ops st rs, run ops = (st, rs) -> forall u d l l1 l2, log st = l1 ++ STell (Some u) d l :: l2 -> In (SAsk u d) l1.
  Proof.
    intros ops st rs E. revert E. apply (rrun_ind S sub_ask sub_tell scale None (fun _ _ st => forall u d l l1 l2, log st = l1 ++ STell (Some u) d l :: l2 -> In (SAsk u d) l1)).
    - intros u d l [|c l1] l2 X0; discriminate X0.
    - intros ops' rs' st1 o st2 r _ Er IH Es u d l l1 l2 El. destruct (run_pend _ _ _ _ _ _ _ _ _ Er) as (_ & Hp & _).
      assert (Snoc : forall c, log st2 = log st1 ++ [c] -> (forall v y q, c = STell (Some v) y q -> In (SAsk v y) (log st1)) -> In (SAsk u d) l1).
      { intros c Ec Hc. rewrite Ec in El. destruct l2 as [|z l2 _] using rev_ind.
        - apply app_inj_tail in El as [<- ->]. eapply Hc. reflexivity.
        - rewrite app_comm_cons, app_assoc in El. apply app_inj_tail in El as [El _]. eapply IH; eauto. }
      destruct (rstep_log _ _ _ _ _ _ _ _ _ Es) as [E1|[(v & noise & x & -> & E1)|[(v & data & noise & l0 & x & -> & Ha & Hd & E1)|(v & data & noise & l0 & -> & Ha & E1)]]].
      + rewrite E1 in El. eapply IH; eauto.
      + eapply Snoc; [exact E1|]. discriminate.
      + eapply Snoc; [exact E1|]. intros w y q X0. injection X0 as <- <- <-. apply Hp in Hd. apply Hd.
      + eapply Snoc; [exact E1|]. discriminate.
  Qed.
  (** As long as no tell failed, each tell reaches the optimizer, once. *)
  Theorem C72_tell : forall ops st rs u data noise l st' r, run ops = (st, rs) -> Forall (fun r => exists x, r = Ok x) rs ->
    step st (RTell u data noise l) = (st', r) -> exists v d, log st' = log st ++ [STell v d l] /\
      (r = Ok [] <-> snd (sub_tell v d l (sb (rs_sub st))) = Ok tt).
  Proof.
    intros ops st rs u data noise l st' r Er Hr E. destruct (run_pend _ _ _ _ _ _ _ _ _ Er) as (_ & _ & Hp). specialize (Hp Hr).
    cbn [rescaled_step] in E. destruct (existsb (Nat.eqb u) (rs_asked st)) eqn:Ha.
    - apply existsb_exists in Ha as (v & Hv & Ev). apply Nat.eqb_eq in Ev. subst v. specialize (Hp u Hv).
      destruct (dget u (rs_pending st)) as [x|]; [|congruence]. unfold tell_sub in E. exists (Some u), x.
      destruct (sub_tell (Some u) x l (sb (rs_sub st))) as [s' [[]|e]]; injection E as <- <-; cbn; (split; [reflexivity|]); split; congruence.
    - unfold tell_sub in E. exists None, (rescale scale None true noise data).
      destruct (sub_tell None (rescale scale None true noise data) l (sb (rs_sub st))) as [s' [[]|e]]; injection E as <- <-; cbn; (split; [reflexivity|]); split; congruence.
  Qed.
End C72.
(** The default scale: positive with a budget of at least 2; with a budget of 1 it is zero, and the creation fails. *)
Theorem C72_default_scale : forall budget dim, 1 <= dim -> (2 <= budget -> (0 < default_scale budget dim)%R) /\ default_scale 1 dim = 0%R.
Proof.
  intros b d Hd. unfold default_scale. assert (0 < INR d)%R by (apply lt_0_INR; lia). split.
  - intros Hb. apply sqrt_lt_R0. apply Rdiv_lt_0_compat; [|assumption]. rewrite <- ln_1. apply ln_increasing; [lra|].
    replace 1%R with (INR 1) by reflexivity. apply lt_INR. lia.
  - change (INR 1) with 1%R. rewrite ln_1. unfold Rdiv. rewrite Rmult_0_l. apply sqrt_0.
Qed.
(** Concrete *)
Definition qask (u : nat) (s : nat) : list Q * nat := ([inject_Z (Z.of_nat s); 1#3]%Q, s + 1).
Definition qtell (u : option nat) (d : list Q) (l : Q) (s : nat) : nat * result unit := (s, Ok tt).
Definition ops72 : list rop := [RAsk 0 []; RTell 0 [20; 10#3]%Q [] 5%Q; RTell 9 [7; 1]%Q [] 6%Q; RTell 0 [20; 10#3]%Q [] 7%Q].
Example C72_nontrivial : let '(st, rs) := rescaled_run nat qask qtell 10%Q None (rescaled_init nat 2) ops72 in
  honest_r ops72 rs /\ Forall (fun r => exists x, r = Ok x) rs /\
  map (fun c => match c with STell u d l => (u, map Qred d, l) | SAsk u d => (Some u, map Qred d, 0%Q) end) (sb_log (rs_sub st)) =
  [(Some 0%nat, [2; 1#3], 0); (Some 0%nat, [2; 1#3], 5); (None, [7#10; 1#10], 6); (None, [2; 1#3], 7)]%Q.
Proof.
  vm_compute. split; [|split; [repeat constructor; eauto|reflexivity]].
  intros n m u data noise noise' x l A B C D.
  destruct n as [|[|[|[|[|n]]]]]; try discriminate A. injection A as <- <-. injection B as <-.
  destruct m as [|[|[|[|[|m]]]]]; try discriminate D; injection D as <- <- <-; repeat constructor.
Qed.
(** With a shift, a point told is not translated back: the optimizer would not propose it. *)
Theorem C72_shift_refuted : ~ (forall scale shift noise noise' data, ~ (scale == 0)%Q ->
  Forall2 Qeq (rescale scale (Some shift) false noise' (rescale scale (Some shift) true noise data)) data).
Proof.
  intros H. specialize (H 1%Q 1%Q [1]%Q [1]%Q [0]%Q ltac:(discriminate)).
  inversion H as [|? ? ? ? X0 _]; subst. vm_compute in X0. discriminate X0.
Qed.

Print Assumptions C71_sizes.
Print Assumptions C71_max_num_vars.
Print Assumptions C71_ask.
Print Assumptions C71_tell.
Print Assumptions C71_tell_new.
Print Assumptions C72_function.
Print Assumptions C72_own.
Print Assumptions C72_tell.
Print Assumptions C72_default_scale.

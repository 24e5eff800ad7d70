(** Lemmas on the small tools. *)
From Coq Require Import Arith ZArith QArith Bool Ascii String Decimal DecimalString DecimalNat Lia FinFun List.
From Verif.Model Require Import Prelude MultiValue Tools.
From Verif.Proofs Require Import Prelude MultiValue.
From Verif.Spec Require Import Tools.
Import ListNotations.
Open Scope nat_scope.

(** ** Iteration *)
Section Iter.
Context {A : Type}.
Implicit Types (l it : list A) (fill : A).

Lemma zl_tuple_false fill left j it : zl_tuple fill left (repeat false j) it = Some (repeat fill j, repeat false j, left, it).
Proof. induction j as [|j IH]; cbn; [reflexivity|]. rewrite IH. reflexivity. Qed.
Lemma zl_tuple_end fill m j left : 0 < m -> left = m -> zl_tuple fill left (repeat true m ++ repeat false j) [] = None.
Proof.
  intros Hm ->. induction m as [|m IH]; [lia|]. cbn. rewrite Nat.sub_0_r.
  destruct m as [|m]; [reflexivity|]. rewrite IH by lia. reflexivity.
Qed.
Lemma zl_tuple_exhausted fill m left : m < left ->
  zl_tuple fill left (repeat true m) [] = Some (repeat fill m, repeat false m, left - m, []).
Proof.
  revert left. induction m as [|m IH]; intros left Hl; cbn [repeat zl_tuple].
  - now rewrite Nat.sub_0_r.
  - destruct (Nat.eqb_spec (left - 1) 0); [lia|]. rewrite IH by lia. cbn. do 3 f_equal. lia.
Qed.
Lemma zl_tuple_full fill n left it : n <= length it ->
  zl_tuple fill left (repeat true n) it = Some (firstn n it, repeat true n, left, skipn n it).
Proof.
  revert it. induction n as [|n IH]; intros it Hl; [reflexivity|].
  destruct it as [|x it]; cbn in Hl; [lia|]. cbn. rewrite IH by lia. reflexivity.
Qed.
Lemma zl_tuple_part fill n left it : length it < n -> n - length it < left ->
  zl_tuple fill left (repeat true n) it =
  Some (it ++ repeat fill (n - length it), repeat true (length it) ++ repeat false (n - length it), left - (n - length it), []).
Proof.
  revert it. induction n as [|n IH]; intros it Hl Hk; [lia|].
  destruct it as [|x it]; cbn [length] in *.
  - rewrite Nat.sub_0_r in *. rewrite zl_tuple_exhausted by lia. reflexivity.
  - cbn in Hk |- *. rewrite IH by lia. reflexivity.
Qed.
Lemma zl_loop_spec fill n fuel it : 0 < n -> length it + 2 <= fuel ->
  exists groups, zl_loop fuel fill n (repeat true n) it = Ok groups /\ Forall (fun g => length g = n) groups /\
    exists pad, pad < n /\ concat groups = it ++ repeat fill pad.
Proof.
  intros Hn. revert it. induction fuel as [|fuel IH]; intros it Hf; [lia|]. cbn [zl_loop].
  assert (Hcase : it = [] \/ 0 < length it) by (destruct it; [now left|right; cbn; lia]).
  destruct Hcase as [->|Hpos].
  { pose proof (zl_tuple_end fill n 0 n Hn eq_refl) as E. cbn [repeat] in E. rewrite app_nil_r in E. rewrite E.
    exists []. split; [reflexivity|]. split; [constructor|]. exists 0. split; [lia|reflexivity]. }
  destruct (le_lt_dec n (length it)) as [Hle|Hlt].
  - rewrite zl_tuple_full by assumption.
    destruct (IH (skipn n it)) as (gs & E & Hl & pad & Hp & Hc). { rewrite skipn_length. lia. }
    rewrite E. cbn. exists (firstn n it :: gs). split; [reflexivity|].
    split. { constructor; [rewrite firstn_length; lia|exact Hl]. }
    exists pad. split; [exact Hp|]. cbn. rewrite Hc, app_assoc, firstn_skipn. reflexivity.
  - rewrite zl_tuple_part by lia. destruct fuel as [|fuel]; [lia|]. cbn [zl_loop].
    rewrite zl_tuple_end by lia. cbn. exists [it ++ repeat fill (n - length it)]. split; [reflexivity|].
    split. { repeat constructor. rewrite app_length, repeat_length. lia. }
    exists (n - length it). split; [lia|]. cbn. now rewrite app_nil_r.
Qed.

(** rounds *)
Definition heads (ls : list (list A)) : list A := kth 0 ls.
Lemma kth_S k ls : kth (S k) ls = @kth A k (map (@tl A) ls).
Proof.
  unfold kth. induction ls as [|l ls IH]; cbn [flat_map map]; [reflexivity|]. rewrite IH. f_equal.
  destruct l; cbn; [destruct k; reflexivity|reflexivity].
Qed.
Lemma kth_app k ls1 ls2 : @kth A k (ls1 ++ ls2) = kth k ls1 ++ kth k ls2.
Proof. unfold kth. now rewrite flat_map_app. Qed.
Definition ranks (n : nat) (ls : list (list A)) : list A := flat_map (fun k => kth k ls) (seq 0 n).
Lemma ranks_S n ls : ranks (S n) ls = kth 0 ls ++ ranks n (map (@tl A) ls).
Proof.
  unfold ranks. cbn [seq flat_map]. f_equal. rewrite <- seq_shift, flat_map_concat_map, map_map, <- flat_map_concat_map.
  apply flat_map_ext. intros k. apply kth_S.
Qed.
Lemma ranks_nil n ls : (forall l, In l ls -> l = []) -> ranks n ls = [].
Proof.
  revert ls. induction n as [|n IH]; intros ls H; [reflexivity|]. rewrite ranks_S.
  assert (E : kth 0 ls = []).
  { unfold kth. induction ls as [|l ls IHl]; [reflexivity|]. cbn. rewrite (H l (or_introl eq_refl)). cbn. apply IHl. intros; apply H; now right. }
  rewrite E. cbn. apply IH. intros l Hl. apply in_map_iff in Hl as (l' & <- & Hl'). now rewrite (H _ Hl').
Qed.
Lemma ranks_enough n m ls : list_max (map (@length A) ls) <= n -> list_max (map (@length A) ls) <= m -> ranks n ls = ranks m ls.
Proof.
  assert (Htl : forall ls k, list_max (map (@length A) ls) <= S k -> list_max (map (@length A) (map (@tl A) ls)) <= k).
  { intros ls0 k H. apply list_max_le in H. apply list_max_le. rewrite !Forall_map in *. eapply Forall_impl; [|exact H].
    intros l Hl. cbn in *. destruct l; cbn in *; lia. }
  assert (Hnil : forall ls k, list_max (map (@length A) ls) <= 0 -> ranks k ls = []).
  { intros ls0 k H. apply ranks_nil. intros l Hl. apply list_max_le in H. rewrite Forall_map in H.
    rewrite Forall_forall in H. specialize (H l Hl). cbn in H. destruct l; [reflexivity|cbn in H; lia]. }
  revert m ls. induction n as [|n IH]; intros m ls Hn Hm.
  - rewrite !Hnil by assumption. reflexivity.
  - destruct m as [|m]; [rewrite !Hnil by assumption; reflexivity|].
    rewrite !ranks_S. f_equal. apply IH; apply Htl; assumption.
Qed.
Lemma by_rank_unfold ls : by_rank ls = kth 0 ls ++ @by_rank A (map (@tl A) ls).
Proof.
  unfold by_rank. fold (ranks (list_max (map (@length A) ls)) ls).
  set (n := list_max (map (@length A) ls)).
  rewrite (ranks_enough n (S n)) by lia. rewrite ranks_S. f_equal.
  apply ranks_enough; [|apply le_n].
  assert (H : list_max (map (@length A) ls) <= n) by apply le_n.
  apply list_max_le in H. apply list_max_le. rewrite !Forall_map in *. eapply Forall_impl; [|exact H].
  intros l Hl. cbn in *. destruct l; cbn in *; lia.
Qed.
Definition ne (l : list A) : bool := match l with [] => false | _ => true end.
Lemma kth_ne k ls : kth k (filter ne ls) = kth k ls.
Proof.
  unfold kth. induction ls as [|l ls IH]; [reflexivity|]. cbn. destruct l; cbn.
  - rewrite IH. now destruct k.
  - now rewrite IH.
Qed.
Lemma by_rank_ext ls ls' : (forall k, kth k ls = @kth A k ls') -> by_rank ls = by_rank ls'.
Proof.
  intros H. unfold by_rank. fold (ranks (list_max (map (@length A) ls)) ls). fold (ranks (list_max (map (@length A) ls')) ls').
  set (n := list_max (map (@length A) ls)). set (m := list_max (map (@length A) ls')).
  rewrite (ranks_enough n (max n m)), (ranks_enough m (max n m)) by lia.
  unfold ranks. apply flat_map_ext. exact H.
Qed.
Definition size (ls : list (list A)) : nat := list_sum (map (@length A) ls) + length ls.
Lemma size_app a b : size (a ++ b) = size a + size b.
Proof. unfold size. rewrite map_app, list_sum_app, app_length. lia. Qed.
Lemma size_cons l ls : size (l :: ls) = S (length l) + size ls.
Proof. unfold size, list_sum. cbn. lia. Qed.
Lemma rr_spec fuel a b : size (a ++ b) < fuel ->
  rr_loop fuel (length (a ++ b)) (a ++ b) = Ok (kth 0 a ++ by_rank (b ++ map (@tl A) (filter ne a))).
Proof.
  revert a b. induction fuel as [|fuel IH]; intros a b Hf; [lia|].
  assert (Hmain : forall x a b, size ((x :: a) ++ b) < S fuel ->
    rr_loop (S fuel) (length ((x :: a) ++ b)) ((x :: a) ++ b) = Ok (kth 0 (x :: a) ++ by_rank (b ++ map (@tl A) (filter ne (x :: a))))).
  { clear a b Hf. intros x a b Hf. cbn [rr_loop app length]. destruct (Nat.eqb_spec (S (length (a ++ b))) 0); [lia|].
    destruct x as [|y it].
    - replace (S (length (a ++ b)) - 1) with (length (a ++ b)) by lia.
      rewrite firstn_app, Nat.sub_diag, firstn_all. cbn [firstn]. rewrite app_nil_r, IH. 2:{ cbn [app] in Hf. rewrite size_cons in Hf. lia. }
      reflexivity.
    - replace (S (length (a ++ b))) with (length (a ++ (b ++ [it]))) by (rewrite !app_length; cbn; lia).
      rewrite <- app_assoc, IH. 2:{ rewrite !size_app in *. rewrite size_cons in *. cbn in *. lia. }
      cbn. rewrite <- app_assoc. reflexivity. }
  destruct a as [|x a]; [|apply Hmain; exact Hf].
  cbn [app filter map]. rewrite app_nil_r. destruct b as [|x b]; [reflexivity|].
  pose proof (Hmain x b []) as E. rewrite app_nil_r in E. rewrite E by exact Hf. cbn [app].
  change (kth 0 []) with (@nil A). cbn [app]. rewrite (by_rank_unfold (x :: b)).
  rewrite (by_rank_ext (map (@tl A) (filter ne (x :: b))) (map (@tl A) (x :: b))); [reflexivity|].
  intros k. rewrite <- !kth_S. apply kth_ne.
Qed.
Lemma roundrobin_spec its : roundrobin its = Ok (@by_rank A its).
Proof.
  unfold roundrobin. fold (size its). pose proof (rr_spec (S (size its)) [] its) as E. cbn [app] in E.
  rewrite E by lia. cbn. now rewrite app_nil_r.
Qed.
End Iter.

(** ** Environment *)
Lemma update_get k (kvs : list (nat * nat)) (e : env) : NoDup (map fst kvs) ->
  dget k (fold_left (fun e x => dset (fst x) (snd x) e) kvs e) =
  match dget k kvs with Some v => Some v | None => dget k e end.
Proof.
  revert e. induction kvs as [|[k' v'] kvs IH]; intros e Hnd; [reflexivity|].
  cbn in Hnd. inversion Hnd; subst. cbn [fold_left fst snd]. rewrite IH by assumption. cbn [dget].
  rewrite dget_dset. destruct (Nat.eqb_spec k k') as [E|E]; [|reflexivity]. subst k'.
  assert (N : dget k kvs = None) by (apply dget_none; assumption). now rewrite N.
Qed.
Lemma restore_ok old e : NoDup (map fst old) -> NoDup (dkeys e) ->
  (forall k, In k (map fst old) -> In k (dkeys e)) ->
  snd (restore old e) = Ok tt /\
  forall k, dget k (fst (restore old e)) = match dget k old with Some v => v | None => dget k e end.
Proof.
  revert e. induction old as [|[k0 v0] old IH]; intros e Hnd He Hin; [now split|].
  cbn in Hnd. inversion Hnd as [|? ? Hni Hnd']; subst. cbn [restore].
  assert (Hm : dmem k0 e = true) by (apply dmem_in, Hin; now left). rewrite Hm.
  set (e1 := match v0 with None => ddel k0 e | Some v => dset k0 v (ddel k0 e) end).
  assert (He1 : NoDup (dkeys e1)). { unfold e1. destruct v0; [apply dset_keys_nodup|]; now apply ddel_keys_nodup. }
  assert (Hg : forall k, k <> k0 -> dget k e1 = dget k e).
  { intros k Hk. unfold e1. destruct v0; rewrite ?dget_dset, ?dget_ddel by assumption; destruct (Nat.eqb_spec k k0); congruence. }
  assert (Hg0 : dget k0 e1 = v0).
  { unfold e1. destruct v0; rewrite ?dget_dset, ?dget_ddel by assumption; now rewrite Nat.eqb_refl. }
  destruct (IH e1 Hnd' He1) as [H1 H2].
  { intros k Hk. assert (k <> k0) by congruence.
    destruct (dget k e1) eqn:E; [apply dget_some_in, (in_map fst) in E; exact E|].
    rewrite Hg in E by assumption. apply dget_none in E. exfalso. apply E, Hin. now right. }
  split; [exact H1|]. intros k. cbn [dget]. rewrite H2. destruct (Nat.eqb_spec k k0) as [->|Hk].
  - assert (N : dget k0 old = None) by (now apply dget_none). now rewrite N.
  - destruct (dget k old); [reflexivity|]. now apply Hg.
Qed.
Lemma update_nodup (kvs : list (nat * nat)) (e : env) : NoDup (dkeys e) ->
  NoDup (dkeys (fold_left (fun e x => dset (fst x) (snd x) e) kvs e)).
Proof.
  revert e. induction kvs as [|x kvs IH]; intros e H; [exact H|]. cbn. apply IH. now apply dset_keys_nodup.
Qed.
Lemma restore_missing old e : NoDup (map fst old) -> NoDup (dkeys e) ->
  (exists k, In k (map fst old) /\ ~ In k (dkeys e)) -> snd (restore old e) = Err KeyError.
Proof.
  revert e. induction old as [|[k0 v0] old IH]; intros e Hnd He (k & Hk & Hni); [destruct Hk|].
  cbn in Hnd. inversion Hnd as [|? ? Hn0 Hnd']; subst. cbn [restore].
  destruct (dmem k0 e) eqn:Hm; [|reflexivity].
  assert (k <> k0). { intros ->. apply dmem_in in Hm. tauto. }
  destruct Hk as [Hk|Hk]; [cbn in Hk; congruence|].
  apply IH; [assumption| |].
  - destruct v0; [apply dset_keys_nodup|]; now apply ddel_keys_nodup.
  - exists k. split; [exact Hk|]. rewrite <- dget_none in *.
    destruct v0; rewrite ?dget_dset, ?dget_ddel by assumption; destruct (Nat.eqb_spec k k0); congruence.
Qed.

(** ** Registry *)
Lemma rg_run_app a b r : rg_run (a ++ b) r = rg_run b (rg_run a r).
Proof. unfold rg_run. apply fold_left_app. Qed.
Lemma rg_inv ops : let r := rg_run ops empty_registry in
  NoDup (dkeys (rg_data r)) /\
  (forall n, dget n (rg_data r) = owner n (rev ops)) /\ (forall n, dget n (rg_info r) = last_info n (rev ops)).
Proof.
  induction ops as [|o ops IH] using rev_ind; [repeat constructor|].
  rewrite rg_run_app, rev_unit. cbn zeta in IH. set (r := rg_run ops empty_registry) in *.
  destruct IH as (Hnd & Hd & Hi). cbn [rg_run fold_left owner last_info].
  destruct o as [n x i|n|n|n x|n|n]; cbn [rg_step fst].
  - assert (Hm : dmem n (rg_data r) = match owner n (rev ops) with Some _ => true | None => false end) by (unfold dmem; now rewrite Hd).
    rewrite Hm. destruct (owner n (rev ops)) eqn:Eo; cbn [fst rg_data rg_info].
    + repeat split; [exact Hnd| |].
      * intros m. destruct (Nat.eqb_spec n m) as [->|]; [|apply Hd]. rewrite Hd, Eo. reflexivity.
      * intros m. destruct i as [i|]; [|apply Hi]. destruct (Nat.eqb_spec n m) as [->|]; [|apply Hi]. rewrite Eo. apply Hi.
    + repeat split; [now apply dset_keys_nodup| |].
      * intros m. rewrite dget_dset, Nat.eqb_sym. destruct (Nat.eqb_spec n m) as [->|]; [|apply Hd]. now rewrite Eo.
      * intros m. destruct i as [i|]; [|apply Hi]. rewrite dget_dset, Nat.eqb_sym.
        destruct (Nat.eqb_spec n m) as [->|]; [|apply Hi]. now rewrite Eo.
  - assert (E : forall m, dget m (rg_data (if dmem n (rg_data r) then Registry (ddel n (rg_data r)) (rg_info r) else r)) = if n =? m then None else dget m (rg_data r)).
    { intros m. destruct (dmem n (rg_data r)) eqn:Hm; cbn [rg_data].
      - rewrite dget_ddel by assumption. now rewrite Nat.eqb_sym.
      - destruct (Nat.eqb_spec n m) as [->|]; [|reflexivity]. apply dget_none. now apply dmem_false. }
    repeat split.
    + destruct (dmem n (rg_data r)); cbn; [now apply ddel_keys_nodup|assumption].
    + intros m. rewrite E. destruct (n =? m); [reflexivity|apply Hd].
    + intros m. destruct (dmem n (rg_data r)); cbn; apply Hi.
  - now repeat split.
  - repeat split; cbn [rg_data rg_info]; [now apply dset_keys_nodup| |assumption].
    intros m. rewrite dget_dset, Nat.eqb_sym. destruct (n =? m); [reflexivity|apply Hd].
  - destruct (dmem n (rg_data r)) eqn:Hm; cbn [fst rg_data rg_info].
    + repeat split; [now apply ddel_keys_nodup| |assumption].
      intros m. rewrite dget_ddel by assumption. rewrite Nat.eqb_sym. destruct (n =? m); [reflexivity|apply Hd].
    + repeat split; [assumption| |assumption].
      intros m. destruct (Nat.eqb_spec n m) as [->|]; [|apply Hd]. apply dget_none. now apply dmem_false.
  - destruct (dmem n (rg_data r)); now repeat split.
Qed.

(** ** Sleeper *)
Lemma qclip_bounds x lo hi : (lo <= hi)%Q -> (lo <= qclip x lo hi <= hi)%Q.
Proof.
  intros H. unfold qclip. split; [|apply qmin_le_r].
  destruct (qmin_or (qmax x lo) hi) as [-> | ->]; [apply qmax_ge_r|exact H].
Qed.
Lemma skipn_snoc {A} (l : list A) x n : 0 < n ->
  let l' := skipn (length l - n) l in
  skipn (length (l' ++ [x]) - n) (l' ++ [x]) = skipn (length (l ++ [x]) - n) (l ++ [x]).
Proof.
  intros Hn. cbn zeta. rewrite !app_length, skipn_length. cbn [length].
  destruct (le_lt_dec (length l) n) as [H|H].
  - replace (length l - n) with 0 by lia. cbn [skipn]. now rewrite Nat.sub_0_r.
  - replace (length l - (length l - n) + 1 - n) with 1 by lia.
    rewrite (skipn_app (length l + 1 - n)). replace (length l + 1 - n - length l) with 0 by lia. cbn [skipn].
    replace (length l + 1 - n) with (1 + (length l - n)) by lia.
    destruct (skipn (length l - n) l) as [|y t] eqn:E.
    { apply (f_equal (@length A)) in E. rewrite skipn_length in E. cbn in E. lia. }
    cbn [app skipn]. f_equal. rewrite Nat.add_comm.
    revert E. generalize (length l - n) as k. clear. intros k. revert k.
    induction l as [|z l IH]; intros k E; [destruct k; discriminate|].
    destruct k; cbn in *; [now inversion E|]. now apply IH.
Qed.
Lemma skipn_0 {A} (l : list A) : skipn (length l - 0) l = [].
Proof. rewrite Nat.sub_0_r. apply skipn_all. Qed.
Lemma sl_run_state ops s done : sl_queue s = last_n (sl_size s) done ->
  let s' := sl_run ops s in
  sl_min s' = sl_min s /\ sl_max s' = sl_max s /\ sl_size s' = sl_size s /\
  sl_start s' = pending_start (sl_start s) ops /\ sl_queue s' = last_n (sl_size s) (done ++ durations (sl_start s) ops).
Proof.
  revert s done. induction ops as [|o ops IH]; intros s done Hq; cbn zeta.
  - cbn. rewrite app_nil_r. auto.
  - cbn [sl_run fold_left]. fold (sl_run ops (sl_step s o)).
    destruct o as [now|now]; cbn [sl_step durations pending_start].
    + destruct (sl_start s) as [t|] eqn:Es.
      * pose proof (IH s done Hq) as H. cbn zeta in H. rewrite Es in H. exact H.
      * pose proof (IH (Sleeper (sl_min s) (sl_max s) (sl_size s) (Some now) (sl_queue s)) done Hq) as H. exact H.
    + destruct (sl_start s) as [t|] eqn:Es.
      * pose proof (IH (Sleeper (sl_min s) (sl_max s) (sl_size s) None (deque_append (sl_size s) (now - t)%Q (sl_queue s))) (done ++ [(now - t)%Q])) as H.
        cbn [sl_min sl_max sl_size sl_start sl_queue] in H. rewrite <- app_assoc in H. cbn [app] in H. apply H.
        rewrite Hq. unfold deque_append, last_n. destruct (Nat.eq_dec (sl_size s) 0) as [E|E].
        -- rewrite E. rewrite !skipn_0. reflexivity.
        -- cbn zeta. apply (skipn_snoc done (now - t)%Q (sl_size s)). lia.
      * pose proof (IH s done Hq) as H. cbn zeta in H. rewrite Es in H. exact H.
Qed.

(** ** Flatten *)
Fixpoint obj_ind' (P : obj -> Prop) (HL : forall x, P (OLeaf x)) (Hl : forall l, Forall P l -> P (OList l))
  (Hd : forall l, Forall (fun kv => P (snd kv)) l -> P (ODict l)) (o : obj) : P o :=
  match o with
  | OLeaf x => HL x
  | OList l => Hl l ((fix go l : Forall P l := match l with [] => Forall_nil _ | v :: l' => Forall_cons v (obj_ind' P HL Hl Hd v) (go l') end) l)
  | ODict l => Hd l ((fix go l : Forall (fun kv => P (snd kv)) l := match l with [] => Forall_nil _ | v :: l' => Forall_cons v (obj_ind' P HL Hl Hd (snd v)) (go l') end) l)
  end.
Lemma sset_new k v d : ~ In k (map fst d) -> sset k v d = d ++ [(k, v)].
Proof.
  induction d as [|[k' v'] d IH]; cbn; [easy|]. intros H.
  destruct (String.eqb_spec k k') as [E|E]; [subst; tauto|]. rewrite IH by tauto. reflexivity.
Qed.
Lemma supdate_new d e : NoDup (map fst (d ++ e)) -> supdate d e = d ++ e.
Proof.
  revert d. induction e as [|[k v] e IH]; intros d H; cbn; [now rewrite app_nil_r|].
  assert (Hk : ~ In k (map fst d)).
  { rewrite map_app in H. cbn in H. apply NoDup_remove_2 in H. intros Hin. apply H. apply in_or_app. now left. }
  rewrite sset_new by assumption. fold (supdate (d ++ [(k, v)]) e). rewrite IH.
  - now rewrite <- app_assoc.
  - now rewrite <- app_assoc.
Qed.
Definition entries (k : string) (o : obj) : list (option string * nat) :=
  map (fun px => (Some (join k (fst px)), snd px)) (leaves o).
(** all the children of a container with their keys *)
Definition children (o : obj) : list (string * obj) :=
  match o with
  | OLeaf _ => []
  | OList l => combine (map (fun i => show_key (FInt i)) (seq 0 (length l))) l
  | ODict l => map (fun kv => (show_key (fst kv), snd kv)) l
  end.
Definition is_leaf (o : obj) : bool := match o with OLeaf _ => true | _ => false end.
Lemma leaves_children o : is_leaf o = false -> leaves o = flat_map (fun kc => entries (fst kc) (snd kc)) (children o).
Proof.
  destruct o as [x|l|l]; [discriminate| |]; intros _; cbn [leaves children].
  - generalize 0 as i. induction l as [|v l IH]; intros i; [reflexivity|].
    cbn [length seq map combine flat_map fst snd]. rewrite IH. reflexivity.
  - induction l as [|[k v] l IH]; [reflexivity|]. cbn [map flat_map fst snd]. rewrite IH. reflexivity.
Qed.
Definition fstep (out : sdict) (kc : string * obj) : sdict :=
  match flatten (snd kc) with FDict d => supdate out (prefix (fst kc) d) | FValue x => sset (fst kc) x out end.
Lemma flatten_children o : is_leaf o = false -> flatten o = FDict (fold_left fstep (children o) []).
Proof.
  destruct o as [x|l|l]; [discriminate| |]; intros _; cbn [flatten children]; f_equal.
  - generalize (@nil (string * nat)) as out. generalize 0 as i. induction l as [|v l IH]; intros i out; [reflexivity|].
    cbn [length seq map combine fold_left]. rewrite IH. reflexivity.
  - generalize (@nil (string * nat)) as out. induction l as [|[k v] l IH]; intros out; [reflexivity|].
    cbn [map fold_left]. rewrite IH. reflexivity.
Qed.
Definition named (l : list (option string * nat)) : sdict := map (fun px => (path_of (fst px), snd px)) l.
Definition paths (o : obj) : list string := map (fun px => path_of (fst px)) (leaves o).
Lemma leaves_some o : is_leaf o = false -> Forall (fun px => fst px <> None) (leaves o).
Proof.
  intros H. rewrite leaves_children by assumption. apply Forall_forall. intros px Hin.
  apply in_flat_map in Hin as (kc & _ & Hin). unfold entries in Hin. apply in_map_iff in Hin as (? & <- & _). discriminate.
Qed.
Lemma entries_prefix k o : is_leaf o = false -> named (entries k o) = prefix k (named (leaves o)).
Proof.
  intros H. pose proof (leaves_some o H) as Hs. unfold named, entries, prefix. rewrite !map_map.
  apply map_ext_in. intros [p x] Hin. rewrite Forall_forall in Hs. specialize (Hs _ Hin). cbn in *.
  destruct p; [reflexivity|congruence].
Qed.
Definition value_of (o : obj) : flat := match o with OLeaf x => FValue x | _ => FDict (named (leaves o)) end.
Lemma NoDup_app_remove_r {A} (l l' : list A) : NoDup (l ++ l') -> NoDup l.
Proof. induction l as [|x l IH]; [constructor|]. cbn. intros H. inversion H; subst. constructor; [|auto]. intros Hin. apply H2. apply in_or_app. now left. Qed.
Lemma NoDup_app_remove_l {A} (l l' : list A) : NoDup (l ++ l') -> NoDup l'.
Proof. induction l as [|x l IH]; [easy|]. cbn. intros H. inversion H; subst. auto. Qed.
Lemma NoDup_flat_map {A B} (f : A -> list B) l x : In x l -> NoDup (flat_map f l) -> NoDup (f x).
Proof.
  induction l as [|y l IH]; [easy|]. cbn. intros [->|Hin] H.
  - eapply NoDup_app_remove_r. exact H.
  - apply IH; [assumption|]. eapply NoDup_app_remove_l. exact H.
Qed.
Lemma map_fst_named l : map fst (named l) = map (fun px => path_of (fst px)) l.
Proof. unfold named. now rewrite map_map. Qed.
Lemma named_app l l' : named (l ++ l') = named l ++ named l'.
Proof. apply map_app. Qed.
Lemma flatten_spec o : NoDup (paths o) -> flatten o = value_of o.
Proof.
  assert (Hmain : forall o, is_leaf o = false ->
    (forall kc, In kc (children o) -> NoDup (paths (snd kc)) -> flatten (snd kc) = value_of (snd kc)) ->
    NoDup (paths o) -> flatten o = FDict (named (leaves o))).
  { clear o. intros o Ho IH Hnd. rewrite flatten_children by assumption. f_equal.
    unfold paths in Hnd. rewrite leaves_children in * by assumption.
    assert (Hc : forall kc, In kc (children o) -> flatten (snd kc) = value_of (snd kc)).
    { intros kc Hin. apply IH; [assumption|].
      assert (H1 : NoDup (map (fun px => path_of (fst px)) (entries (fst kc) (snd kc)))).
      { rewrite flat_map_concat_map, concat_map, map_map, <- flat_map_concat_map in Hnd.
        apply (NoDup_flat_map _ _ _ Hin Hnd). }
      unfold paths, entries in *. rewrite map_map in H1. cbn in H1.
      destruct (is_leaf (snd kc)) eqn:El.
      - destruct (snd kc); try discriminate. repeat constructor; cbn; tauto.
      - pose proof (leaves_some _ El) as Hs. revert H1 Hs. generalize (leaves (snd kc)) as ls. clear.
        induction ls as [|[p x] ls IH]; intros H Hs; [constructor|]. cbn in *.
        inversion H as [|? ? Hni Hnd]; subst. inversion Hs as [|? ? Hp Hs']; subst. constructor; [|auto].
        intros Hin. apply Hni. apply in_map_iff in Hin as ([p' x'] & E & Hin). apply in_map_iff. exists (p', x'). split; [|exact Hin].
        rewrite Forall_forall in Hs'. specialize (Hs' _ Hin). cbn in *. destruct p, p'; cbn in *; congruence. }
    enough (Hf : forall out, NoDup (map fst (out ++ named (flat_map (fun kc => entries (fst kc) (snd kc)) (children o)))) ->
      fold_left fstep (children o) out = out ++ named (flat_map (fun kc => entries (fst kc) (snd kc)) (children o))).
    { rewrite Hf; [reflexivity|]. cbn [app]. now rewrite map_fst_named. }
    clear IH Hnd. induction (children o) as [|kc cs IHc]; intros out Hn.
    - cbn. now rewrite app_nil_r.
    - cbn [flat_map fold_left] in *. rewrite named_app in *.
      assert (E : fstep out kc = out ++ named (entries (fst kc) (snd kc))).
      { rewrite app_assoc, map_app in Hn. apply NoDup_app_remove_r in Hn.
        unfold fstep. rewrite (Hc kc (or_introl eq_refl)). destruct (is_leaf (snd kc)) eqn:El.
        - destruct (snd kc); try discriminate. cbn in Hn |- *. rewrite sset_new; [reflexivity|].
          rewrite map_app in Hn. cbn in Hn. apply NoDup_remove_2 in Hn. now rewrite app_nil_r in Hn.
        - assert (Ev : value_of (snd kc) = FDict (named (leaves (snd kc)))) by (destruct (snd kc); [discriminate|reflexivity|reflexivity]).
          rewrite Ev. rewrite <- entries_prefix by assumption. apply supdate_new. exact Hn. }
      rewrite E. rewrite IHc.
      + now rewrite <- app_assoc.
      + intros kc' Hin. apply Hc. now right.
      + rewrite <- app_assoc. exact Hn. }
  induction o as [x|l IH|l IH] using obj_ind'; intros Hnd; [reflexivity| |].
  - apply Hmain; [reflexivity| |exact Hnd]. intros [k c] Hin. apply in_combine_r in Hin. cbn [snd].
    rewrite Forall_forall in IH. now apply IH.
  - apply Hmain; [reflexivity| |exact Hnd]. intros kc Hin. cbn in Hin. apply in_map_iff in Hin as (kv & <- & Hin).
    rewrite Forall_forall in IH. cbn. now apply IH.
Qed.

(** dot-free keys *)
Lemma show_int_no_dot n : no_dot (show_key (FInt n)).
Proof.
  cbn. destruct (Nat.to_uint n) eqn:E; cbn [NilZero.string_of_uint]; try (cbn; split; [discriminate|exact I]);
    clear E; (cbn [NilEmpty.string_of_uint no_dot]; split; [discriminate|]; induction u; cbn; [exact I|..]; (split; [discriminate|assumption])).
Qed.
Lemma to_uint_nonnil n : Nat.to_uint n <> Nil.
Proof.
  rewrite <- (Unsigned.of_to n), Unsigned.to_of. unfold unorm. destruct (nzhead _); discriminate.
Qed.
Lemma show_int_inj n m : show_key (FInt n) = show_key (FInt m) -> n = m.
Proof.
  cbn. intros H. apply (f_equal NilZero.uint_of_string) in H.
  rewrite !NilZero.usu in H by apply to_uint_nonnil. inversion H. now apply Unsigned.to_uint_inj.
Qed.
Lemma join_inj k k' p p' : no_dot k -> no_dot k' -> join k p = join k' p' -> k = k' /\ p = p'.
Proof.
  assert (Haux : forall k k', no_dot k -> no_dot k' -> forall p p', join k p = join k' p' -> k = k' /\ p = p').
  { clear. induction k as [|c k IH]; intros [|c' k'] Hk Hk' p p' H.
    - destruct p, p'; cbn in H; try discriminate; [|now split]. inversion H. now split.
    - cbn in Hk'. destruct p; cbn in H; destruct p'; cbn in H; try discriminate; inversion H; subst; tauto.
    - cbn in Hk. destruct p; cbn in H; destruct p'; cbn in H; try discriminate; inversion H; subst; tauto.
    - cbn in Hk, Hk'. assert (Hc : c = c' /\ join k p = join k' p').
      { destruct p, p'; cbn in *; inversion H; auto. }
      destruct Hc as [-> Hj]. destruct (IH k' (proj2 Hk) (proj2 Hk') p p' Hj) as [-> ->]. now split. }
  intros. now apply Haux.
Qed.
Lemma clean_list l : clean (OList l) <-> Forall clean l.
Proof. cbn. induction l as [|v l IH]; [split; constructor|]. rewrite IH, Forall_cons_iff. tauto. Qed.
Lemma clean_dict l : clean (ODict l) <->
  NoDup (map (fun kv => show_key (fst kv)) l) /\ Forall (fun kv => no_dot (show_key (fst kv)) /\ clean (snd kv)) l.
Proof.
  cbn. apply and_iff_compat_l. induction l as [|[k v] l IH]; [split; constructor|]. rewrite IH, Forall_cons_iff. cbn. tauto.
Qed.
Lemma children_clean o : clean o -> NoDup (map fst (children o)) /\ Forall (fun kc => no_dot (fst kc) /\ clean (snd kc)) (children o).
Proof.
  destruct o as [x|l|l]; intros H.
  - split; constructor.
  - apply clean_list in H. cbn [children]. generalize 0 as i. split.
    + assert (E : map fst (combine (map (fun i0 => show_key (FInt i0)) (seq i (length l))) l) = map (fun i0 => show_key (FInt i0)) (seq i (length l))).
      { clear. revert i. induction l as [|v l IH]; intros i; [reflexivity|]. cbn [length seq map combine fst]. now rewrite IH. }
      rewrite E. apply FinFun.Injective_map_NoDup; [intros a b; apply show_int_inj|apply seq_NoDup].
    + revert i. induction H as [|v l Hv H IH]; intros i; [constructor|]. cbn [length seq map combine].
      constructor; [split; [apply show_int_no_dot|exact Hv]|apply IH].
  - apply clean_dict in H as [H1 H2]. cbn [children]. split; [now rewrite map_map|]. rewrite Forall_map. exact H2.
Qed.
Lemma clean_leaves o : clean o -> NoDup (map fst (leaves o)).
Proof.
  assert (Hmain : forall o, is_leaf o = false -> clean o ->
    (forall kc, In kc (children o) -> clean (snd kc) -> NoDup (map fst (leaves (snd kc)))) -> NoDup (map fst (leaves o))).
  { clear o. intros o Ho Hc IH. rewrite leaves_children by assumption. apply children_clean in Hc as [Hk Hf].
    induction (children o) as [|[k c] cs IHc]; [constructor|]. cbn [flat_map fst snd map]. rewrite map_app.
    inversion Hk as [|? ? Hni Hk']; subst. inversion Hf as [|? ? [Hd Hcl] Hf']; subst. cbn in Hd, Hcl, Hni.
    apply NoDup_app_intro.
    - unfold entries. rewrite map_map. cbn.
      pose proof (IH (k, c) (or_introl eq_refl) Hcl) as Hn. cbn in Hn. revert Hn.
      generalize (leaves c) as ls. intros ls. rewrite <- (map_map fst (fun p => Some (join k p))).
      apply FinFun.Injective_map_NoDup. intros p p' E. inversion E as [E']. now apply join_inj in E' as [_ ->].
    - apply IHc; [assumption|assumption|]. intros kc Hin. apply IH. now right.
    - intros p H1 H2. apply in_map_iff in H1 as (px & <- & H1). unfold entries in H1. apply in_map_iff in H1 as (qx & <- & _).
      apply in_map_iff in H2 as (py & E & H2). apply in_flat_map in H2 as ([k' c'] & Hin & H2). unfold entries in H2.
      apply in_map_iff in H2 as (qy & <- & _). cbn in E. inversion E as [E'].
      rewrite Forall_forall in Hf'. pose proof (Hf' _ Hin) as [Hd' _]. cbn in Hd'.
      apply join_inj in E' as [-> _]; [|assumption|assumption]. apply Hni. apply (in_map fst) in Hin. exact Hin. }
  induction o as [x|l IH|l IH] using obj_ind'; intros Hc.
  - repeat constructor; cbn; tauto.
  - apply Hmain; [reflexivity|exact Hc|]. intros [k c] Hin. apply in_combine_r in Hin. cbn [snd]. rewrite Forall_forall in IH. now apply IH.
  - apply Hmain; [reflexivity|exact Hc|]. intros kc Hin. cbn in Hin. apply in_map_iff in Hin as (kv & <- & Hin).
    rewrite Forall_forall in IH. cbn. now apply IH.
Qed.
Lemma clean_paths o : clean o -> NoDup (paths o).
Proof.
  intros H. apply clean_leaves in H. destruct (is_leaf o) eqn:El.
  - destruct o; try discriminate. repeat constructor; cbn; tauto.
  - pose proof (leaves_some o El) as Hs. unfold paths. revert H Hs. generalize (leaves o) as ls. clear.
    induction ls as [|[p x] ls IH]; intros H Hs; [constructor|]. cbn in *.
    inversion H as [|? ? Hni Hnd]; subst. inversion Hs as [|? ? Hp Hs']; subst. constructor; [|auto].
    intros Hin. apply Hni. apply in_map_iff in Hin as ([p' x'] & E & Hin). apply in_map_iff. exists (p', x'). split; [|exact Hin].
    rewrite Forall_forall in Hs'. specialize (Hs' _ Hin). cbn in *. destruct p, p'; cbn in *; congruence.
Qed.

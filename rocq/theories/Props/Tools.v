(** C50, C51, C52, C58, C60: the small tools. *)
From Coq Require Import Arith ZArith QArith Bool Ascii String Lia List.
From Verif.Model Require Import Prelude MultiValue Tools.
From Verif.Proofs Require Import Prelude Tools.
From Verif.Spec Require Import Tools.
Import ListNotations.
Open Scope nat_scope.

(** ** C50: iteration helpers *)

(** The pairs are the consecutive elements, one less than the elements. *)
Theorem C50_pairwise {A} (l : list A) :
  length (pairwise l) = length l - 1 /\
  forall i a b, nth_error (pairwise l) i = Some (a, b) <-> nth_error l i = Some a /\ nth_error l (S i) = Some b.
Proof.
  unfold pairwise. split.
  - rewrite combine_length. destruct l; cbn [tl length]; lia.
  - destruct l as [|x l]; cbn [tl].
    + intros i a b. destruct i; cbn; split; intros H; try discriminate; destruct H; discriminate.
    + intros i. revert x l. induction i as [|i IH]; intros x l a b.
      * destruct l as [|y l]; cbn; split; intros H; try discriminate; [now destruct H|now inversion H|destruct H; congruence].
      * destruct l as [|y l]; [cbn; split; intros H; [discriminate|destruct H; destruct i; discriminate]|].
        exact (IH y l a b).
Qed.
Example C50_pairwise_ex : pairwise [1; 2; 3] = [(1, 2); (2, 3)]. Proof. reflexivity. Qed.

(** Groups of [n], in order, of all the elements and less than [n] fill values at the end. *)
Theorem C50_grouper {A} (l : list A) (n : nat) (fill : A) : 0 < n ->
  exists groups, grouper l n fill = Ok groups /\ Forall (fun g => length g = n) groups /\
    exists pad, pad < n /\ concat groups = l ++ repeat fill pad.
Proof.
  intros Hn. unfold grouper. destruct (Nat.eqb_spec n 0); [lia|]. apply zl_loop_spec; [exact Hn|lia].
Qed.
Example C50_grouper_ex : grouper [1; 2; 3; 4; 5] 2 9 = Ok [[1; 2]; [3; 4]; [5; 9]].
Proof. reflexivity. Qed.
(** groups of 0: all the elements are lost *)
Theorem C50_grouper_zero_refuted : exists (l : list nat), l <> [] /\ forall fill, grouper l 0 fill = Ok [].
Proof. exists [1]. split; [discriminate|reflexivity]. Qed.

(** All the first elements, then all the second ones, and so on. *)
Theorem C50_roundrobin {A} (its : list (list A)) : roundrobin its = Ok (by_rank its).
Proof. apply roundrobin_spec. Qed.
Example C50_roundrobin_ex : roundrobin [[1; 2; 3]; []; [4]; [5; 6]] = Ok [1; 4; 5; 2; 6; 3].
Proof. reflexivity. Qed.

(** ** C51: environment *)
Section Env.
Variables (upper : nat -> bool) (environ : list (nat * nat)) (body : env -> env * result unit) (e : env).
Hypothesis Hnames : NoDup (map fst environ).
Hypothesis He : NoDup (dkeys e).

(** A name which is not capitalised: nothing happens. *)
Theorem C51_lower_case : (exists x, In x (map fst environ) /\ upper x = false) ->
  set_env upper environ body e = (e, Err ValueError).
Proof.
  intros (x & Hin & Hx). unfold set_env.
  destruct (forallb (fun x => upper (fst x)) environ) eqn:Hf; [|reflexivity].
  rewrite forallb_forall in Hf. apply in_map_iff in Hin as (y & <- & Hin). rewrite (Hf _ Hin) in Hx. discriminate.
Qed.

(** The body sees the given values, and the others as they were. *)
Definition seen (k : nat) : option nat := match dget k environ with Some v => Some v | None => dget k e end.
Hypothesis Hup : forall x, In x (map fst environ) -> upper x = true.
Lemma upper_ok : forallb (fun x => upper (fst x)) environ = true.
Proof. apply forallb_forall. intros x Hin. apply Hup. now apply in_map. Qed.

(** Whatever the body does, and raises, as long as it leaves the named variables set: the
    named ones are back, the others as the body left them, and the error is the one of the
    body. *)
Theorem C51_restored e2 r :
  (forall e1, NoDup (dkeys e1) -> (forall k, dget k e1 = seen k) -> body e1 = (e2, r)) ->
  NoDup (dkeys e2) -> (forall x, In x (map fst environ) -> In x (dkeys e2)) ->
  snd (set_env upper environ body e) = r /\
  forall k, dget k (fst (set_env upper environ body e)) = if dmem k environ then dget k e else dget k e2.
Proof.
  intros Hb Hnd2 Hset. unfold set_env. rewrite upper_ok. cbn [negb].
  rewrite (Hb (fold_left (fun e x => dset (fst x) (snd x) e) environ e)).
  2:{ apply update_nodup. exact He. }
  2:{ intros k. unfold seen. now apply update_get. }
  assert (Eold : map fst (map (fun x : nat * nat => (fst x, dget (fst x) e)) environ) = map fst environ) by now rewrite map_map.
  pose proof (restore_ok (map (fun x : nat * nat => (fst x, dget (fst x) e)) environ) e2) as H. rewrite Eold in H. 
  destruct (H Hnames Hnd2 Hset) as [H1 H2]. destruct (restore _ e2) as [e3 u]. cbn in H1, H2 |- *. subst u.
  split; [reflexivity|]. intros k. rewrite H2. clear.
  unfold dmem. induction environ as [|[k' v'] l IH]; [reflexivity|]. cbn [map dget fst].
  destruct (Nat.eqb_spec k k') as [->|]; [reflexivity|]. exact IH.
Qed.

(** If the body removes a named variable, the exit raises whatever the body did. *)
Theorem C51_removed_raises_refuted e2 r :
  (forall e1, NoDup (dkeys e1) -> (forall k, dget k e1 = seen k) -> body e1 = (e2, r)) ->
  NoDup (dkeys e2) -> (exists x, In x (map fst environ) /\ ~ In x (dkeys e2)) ->
  snd (set_env upper environ body e) = Err KeyError.
Proof.
  intros Hb Hnd2 Hex. unfold set_env. rewrite upper_ok. cbn [negb].
  rewrite (Hb (fold_left (fun e x => dset (fst x) (snd x) e) environ e)).
  2:{ apply update_nodup. exact He. }
  2:{ intros k. unfold seen. now apply update_get. }
  pose proof (restore_missing (map (fun x : nat * nat => (fst x, dget (fst x) e)) environ) e2) as H. rewrite map_map in H. cbn [fst] in H.
  specialize (H Hnames Hnd2 Hex). destruct (restore _ e2) as [e3 u]. cbn in H |- *. now subst u.
Qed.
End Env.
(** variables 1 (set to 10) and 3 (not set) are given; the body changes 1 and 2 and raises *)
Example C51_ex :
  set_env (fun _ => true) [(1, 50); (3, 51)] (fun e => (dset 2 60 (dset 1 61 e), Err (UserError 7))) [(1, 10); (2, 20)]
  = ([(2, 60); (1, 10)], Err (UserError 7)).
Proof. reflexivity. Qed.
(** the body removes 1: the other one stays set and the error of the body is lost *)
Example C51_removed_ex :
  set_env (fun _ => true) [(1, 50); (3, 51)] (fun e => (ddel 1 e, Err (UserError 7))) [(1, 10); (2, 20)]
  = ([(2, 20); (3, 51)], Err KeyError).
Proof. reflexivity. Qed.

(** ** C52: registry *)

(** After any history a lookup gives what the name stands for. *)
Theorem C52_lookup (ops : list rop) (name : nat) :
  snd (rg_step (rg_run ops empty_registry) (RGet name)) =
  match owner name (rev ops) with Some x => Ok (RObject x) | None => Err KeyError end.
Proof. destruct (rg_inv ops) as (_ & Hd & _). cbn. now rewrite Hd. Qed.

(** Registering a name in use raises and changes nothing, otherwise it takes effect. *)
Theorem C52_register (ops : list rop) (name obj : nat) (info : option nat) :
  let r := rg_run ops empty_registry in
  match owner name (rev ops) with
  | Some _ => rg_step r (RRegister name obj info) = (r, Err RuntimeError)
  | None => snd (rg_step r (RRegister name obj info)) = Ok RNothing /\
            let r' := fst (rg_step r (RRegister name obj info)) in
            snd (rg_step r' (RGet name)) = Ok (RObject obj) /\
            (forall i, info = Some i -> snd (rg_step r' (RInfo name)) = Ok (RInformation (Some i))) /\
            (forall other, other <> name -> snd (rg_step r' (RGet other)) = snd (rg_step r (RGet other)) /\
                                            snd (rg_step r' (RInfo other)) = snd (rg_step r (RInfo other)))
  end.
Proof.
  cbn zeta. destruct (rg_inv ops) as (_ & Hd & Hi). set (r := rg_run ops empty_registry) in *. cbn zeta in Hd, Hi.
  specialize (Hd name). destruct (owner name (rev ops)) eqn:Eo; cbn [rg_step]; unfold dmem; rewrite Hd; [reflexivity|].
  cbn [fst snd rg_data rg_info]. split; [reflexivity|]. split; [now rewrite dget_dset, Nat.eqb_refl|]. split.
  - intros i ->. rewrite dget_dset, Nat.eqb_refl. rewrite dget_dset, Nat.eqb_refl. reflexivity.
  - intros other Hne. rewrite !dget_dset. destruct (Nat.eqb_spec other name); [congruence|].
    split; [reflexivity|]. destruct (dget other (rg_data r)); [|reflexivity]. cbn [snd]. destruct info; [|reflexivity].
    rewrite dget_dset. destruct (Nat.eqb_spec other name); [congruence|reflexivity].
Qed.

(** The information is the last one given with a registration which took effect. *)
Theorem C52_info (ops : list rop) (name : nat) :
  snd (rg_step (rg_run ops empty_registry) (RInfo name)) =
  match owner name (rev ops) with
  | Some _ => Ok (RInformation (last_info name (rev ops)))
  | None => Err ValueError
  end.
Proof.
  destruct (rg_inv ops) as (_ & Hd & Hi). cbn [rg_step]. unfold dmem. rewrite Hd.
  destruct (owner name (rev ops)); cbn [snd]; [now rewrite Hi|reflexivity].
Qed.
(** An object registered without information may have the one of another object. *)
Theorem C52_stale_info_refuted : exists ops name, 
  ops = [RRegister name 1 (Some 5); RUnregister name; RRegister name 2 None] /\
  snd (rg_step (rg_run ops empty_registry) (RGet name)) = Ok (RObject 2) /\
  snd (rg_step (rg_run ops empty_registry) (RInfo name)) = Ok (RInformation (Some 5)).
Proof. exists [RRegister 3 1 (Some 5); RUnregister 3; RRegister 3 2 None], 3. repeat split. Qed.
Example C52_ex : owner 3 (rev [RRegister 3 1 (Some 5); RRegister 3 2 None; RRegister 4 8 None; RDel 4]) = Some 1 /\
                 owner 4 (rev [RRegister 3 1 (Some 5); RRegister 3 2 None; RRegister 4 8 None; RDel 4]) = None.
Proof. split; reflexivity. Qed.

(** ** C58: sleeper *)

(** The advice after any history of starts and stops: a tenth of the mean of the last
    durations, or of the time elapsed when none is complete, within the bounds. *)
Theorem C58_advice (mn mx : Q) (size : nat) (ops : list slop) (now : Q) :
  let s := sl_run ops (new_sleeper mn mx size) in
  advised s now =
  match last_n size (durations None ops), pending_start None ops with
  | [], None => mn
  | [], Some t => qclip ((now - t) / 10) mn mx
  | ds, _ => qclip (qmean ds / 10) mn mx
  end.
Proof.
  cbn zeta. pose proof (sl_run_state ops (new_sleeper mn mx size) []) as H. cbn zeta in H.
  destruct H as (H1 & H2 & H3 & H4 & H5); [unfold last_n; reflexivity|]. cbn [new_sleeper sl_min sl_max sl_size sl_start app] in *.
  unfold advised. rewrite H1, H2, H4, H5. destruct (last_n size (durations None ops)); [|reflexivity].
  destruct (pending_start None ops); reflexivity.
Qed.
(** It stays within the bounds, whatever the clock does. *)
Theorem C58_bounds (mn mx : Q) (size : nat) (ops : list slop) (now : Q) : (mn <= mx)%Q ->
  (mn <= advised (sl_run ops (new_sleeper mn mx size)) now <= mx)%Q.
Proof.
  intros H. pose proof (C58_advice mn mx size ops now) as E. cbn zeta in E. rewrite E.
  destruct (last_n size (durations None ops)); [destruct (pending_start None ops)|].
  - now apply qclip_bounds.
  - split; [apply Qle_refl|exact H].
  - now apply qclip_bounds.
Qed.
(** [qclip] is the nearest point of the interval *)
Theorem C58_clip (x lo hi : Q) : (lo <= hi)%Q ->
  ((x <= lo)%Q -> qclip x lo hi == lo)%Q /\ ((lo <= x <= hi)%Q -> qclip x lo hi == x)%Q /\ ((hi <= x)%Q -> qclip x lo hi == hi)%Q.
Proof.
  intros H. unfold qclip, qmin, qmax.
  destruct (MultiValue.qlt_spec x lo), (MultiValue.qle_spec lo hi); repeat split; intros;
  repeat match goal with |- context [if qlt ?a ?b then _ else _] => destruct (MultiValue.qlt_spec a b)
         | |- context [if qle ?a ?b then _ else _] => destruct (MultiValue.qle_spec a b) end;
  try (apply Qle_antisym; auto using Qlt_le_weak, Qle_refl; fail); Lqa.lra.
Qed.
Example C58_ex :
  (advised (sl_run [SStart 0; SStart 1; SStop 4; SStop 5; SStart 6; SStop 12; SStart 13] (new_sleeper (1#10) 1 2)) 20 == 1 # 2)%Q /\
  durations None [SStart 0; SStart 1; SStop 4; SStop 5; SStart 6; SStop 12; SStart 13] = [(4 - 0)%Q; (12 - 6)%Q].
Proof. split; reflexivity. Qed.

(** ** C60: flatten *)

(** One entry per leaf, keyed by its dotted path and in order, when the dotted paths are
    pairwise different. *)
Theorem C60_flatten (o : obj) : NoDup (map (fun px => path_of (fst px)) (leaves o)) ->
  flatten o = match o with OLeaf x => FValue x | _ => FDict (map (fun px => (path_of (fst px), snd px)) (leaves o)) end.
Proof. intros H. rewrite flatten_spec by exact H. destruct o; reflexivity. Qed.
(** They are when no key has a dot and the keys of each dict are different strings; so, in
    particular, for lists in lists at any depth. *)
Theorem C60_clean (o : obj) : clean o ->
  flatten o = match o with OLeaf x => FValue x | _ => FDict (map (fun px => (path_of (fst px), snd px)) (leaves o)) end.
Proof. intros H. apply C60_flatten. now apply clean_paths. Qed.
(** Otherwise an entry is lost: with a dot in a key, or an integer and a string key. *)
Definition ex_dotted : obj := ODict [(FStr "a.b", OLeaf 1); (FStr "a", ODict [(FStr "b", OLeaf 2)])].
Definition ex_mixed : obj := ODict [(FInt 0, OLeaf 1); (FStr "0", OLeaf 2)].
Theorem C60_collision_refuted :
  flatten ex_dotted = FDict [("a.b"%string, 2)] /\ flatten ex_mixed = FDict [("0"%string, 2)].
Proof. split; reflexivity. Qed.
(** Two structures with the same leaves may differ: empty containers disappear. *)
Theorem C60_empty_refuted : flatten (OList [OLeaf 1; OList []]) = flatten (OList [OLeaf 1; ODict []]) /\
  flatten (OList [OLeaf 1; OList []]) = flatten (OList [OLeaf 1]).
Proof. split; reflexivity. Qed.
Definition ex_nested : obj := OList [OLeaf 7; ODict [(FStr "truc", OList [OLeaf 4; OLeaf 5])]].
Example C60_ex : clean ex_nested /\ flatten ex_nested = FDict [("0"%string, 7); ("1.truc.0"%string, 4); ("1.truc.1"%string, 5)].
Proof. split; [|reflexivity]. cbn. repeat split; try discriminate. repeat constructor; cbn; tauto. Qed.

Print Assumptions C50_pairwise.
Print Assumptions C50_grouper.
Print Assumptions C50_grouper_zero_refuted.
Print Assumptions C50_roundrobin.
Print Assumptions C51_lower_case.
Print Assumptions C51_restored.
Print Assumptions C51_removed_raises_refuted.
Print Assumptions C52_lookup.
Print Assumptions C52_register.
Print Assumptions C52_info.
Print Assumptions C52_stale_info_refuted.
Print Assumptions C58_advice.
Print Assumptions C58_bounds.
Print Assumptions C58_clip.
Print Assumptions C60_flatten.
Print Assumptions C60_clean.
Print Assumptions C60_collision_refuted.
Print Assumptions C60_empty_refuted.

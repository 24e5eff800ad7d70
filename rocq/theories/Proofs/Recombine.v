(** Proofs about recombination and mutation of parameters. *)
From Coq Require Import List Arith ZArith QArith Bool Lia Lqa.
From Verif.Model Require Import Prelude MultiValue Layers Param.
From Verif.Spec Require Import Layers Param Recombine.
From Verif.Proofs Require Import Prelude MultiValue LayerValues ParamBase ParamTree ParamOps.
Import ListNotations.
Open Scope nat_scope.

Lemma nth_map2 (f : Q -> Q -> Q) : forall a b j, length a = length b -> j < length a -> nth j (map2 f a b) 0%Q = f (nth j a 0%Q) (nth j b 0%Q).
Proof.
  induction a as [|x a IH]; intros [|y b] [|j] Hl Hj; cbn in *; try lia; [reflexivity|]. apply IH; lia.
Qed.
Lemma vsum_length n xs : Forall (fun x => length x = n) xs -> length (vsum xs n) = n.
Proof. induction 1 as [|x xs Hx H IH]; cbn; [apply repeat_length|]. apply map2_length'; congruence. Qed.
Lemma vsum_nth n xs j : Forall (fun x => length x = n) xs -> j < n -> (nth j (vsum xs n) 0 == column j xs)%Q.
Proof.
  intros H Hj. induction H as [|x xs Hx H IH]; cbn [vsum column fold_right map].
  - rewrite nth_repeat. reflexivity.
  - rewrite nth_map2; [|rewrite vsum_length by exact H; exact Hx|lia]. rewrite IH. unfold column. reflexivity.
Qed.
Lemma vmean_length n xs : Forall (fun x => length x = n) xs -> length (vmean xs n) = n.
Proof. intros H. unfold vmean. rewrite map_length. apply vsum_length, H. Qed.
Lemma vmean_nth n xs j : Forall (fun x => length x = n) xs -> j < n -> (nth j (vmean xs n) 0 == column j xs / inject_Z (Z.of_nat (length xs)))%Q.
Proof.
  intros H Hj. unfold vmean. rewrite (nth_indep _ 0%Q ((fun s => s / inject_Z (Z.of_nat (length xs))) 0)%Q) by (rewrite map_length, vsum_length; assumption).
  rewrite (map_nth (fun s => s / inject_Z (Z.of_nat (length xs)))%Q). rewrite vsum_nth by assumption. reflexivity.
Qed.
(** standardizing each one then summing *)
Lemma column_std n sig ref xs j : Forall (fun x => length x = n) xs -> length sig = n -> length ref = n -> j < n -> ~ (nth j sig 0 == 0)%Q ->
  (column j (map (fun x => map2 Qdiv (map2 Qminus x ref) sig) xs) == (column j xs - inject_Z (Z.of_nat (length xs)) * nth j ref 0) / nth j sig 0)%Q.
Proof.
  intros H Hs Hr Hj Hz. induction H as [|x xs Hx H IH]; cbn [map column fold_right].
  - change (inject_Z (Z.of_nat (length (@nil (list Q))))) with 0%Q. field. exact Hz.
  - rewrite nth_map2; [|rewrite map2_length' with (n := n); congruence|rewrite map2_length' with (n := n); congruence].
    rewrite nth_map2 by congruence. unfold column in IH. rewrite IH. cbn [length]. rewrite Nat2Z.inj_succ, <- Z.add_1_l, inject_Z_plus.
    change (inject_Z 1) with 1%Q. field. exact Hz.
Qed.

Lemma all_some_nth {A B} (g : A -> option B) : forall l ys, all_some g l = Ok ys -> Forall2 (fun x y => g x = Some y) l ys.
Proof.
  induction l as [|x l IH]; intros ys E; cbn [all_some] in E; [injection E as <-; constructor|].
  destruct (g x) as [y|] eqn:Eg; [|discriminate E]. destruct (all_some g l) as [zs|e]; [|discriminate E]. injection E as <-. constructor; [exact Eg|]. apply IH. reflexivity.
Qed.

(** the raw numbers of data *)
Definition raw_of (t : ptree) : option (list Q) := match t with PData _ _ d => Some (raw d) | _ => None end.

Lemma raws_of_shape h p d l : Forall (same_shape (PData h p d)) l -> exists xs, Forall2 (fun o x => raw_of o = Some x) l xs /\ Forall (fun x => length x = length (raw d)) xs.
Proof.
  induction 1 as [|o l Ho H (xs & F & L)]; [exists []; split; constructor|]. destruct o as [|ho po do'|]; try easy. destruct Ho as [Ho _].
  exists (raw do' :: xs). split; constructor; auto.
Qed.
Lemma all_std_data h p d sig l xs : sigma_value (length (raw d)) p = Ok sig -> Forall2 (fun o x => raw_of o = Some x) l xs -> Forall (fun x => length x = length (raw d)) xs ->
  all_std l (PData h p d) = Ok (map (fun x => map2 Qdiv (map2 Qminus x (raw d)) sig) xs).
Proof.
  intros Es F. induction F as [|o x l xs Ho F IH]; intros L; [reflexivity|]. inversion L as [|? ? Lx L']; subst. destruct o as [|ho po do'|]; try discriminate Ho. injection Ho as <-.
  cbn [all_std get_std snd]. fold (raw d) (raw do'). rewrite Es. cbn [bind]. rewrite Lx, Nat.eqb_refl. cbn [bind]. rewrite (IH L'). reflexivity.
Qed.

Lemma recombine_leaf h p d others t' : dinv d -> others <> [] -> Forall (same_shape (PData h p d)) others -> unbounded d ->
  recombine (PData h p d) others = (t', Ok tt) ->
  exists p' d2 ps xs, t' = PData h p' d2 /\ Forall2 (fun o q => params_of o = Some q) others ps /\ recombine p ps = (p', Ok tt) /\
    Forall2 (fun o x => raw_of o = Some x) (PData h p d :: others) xs /\ mean_of xs (raw d2) /\ length (raw d2) = length (raw d) /\ ld_stack d2 = ld_stack d.
Proof.
  intros Hd Ho Hs Hu E. cbn [recombine] in E. destruct others as [|o l]; [congruence|]. cbn [length Nat.eqb] in E.
  destruct (check_frozen (PData h p d)); [discriminate E|]. destruct (forallb (same_class (PData h p d)) (o :: l)); [cbn [negb] in E|discriminate E].
  destruct (all_some params_of (o :: l)) as [ps|e] eqn:Eps; [|discriminate E]. destruct (recombine p ps) as [p' [u|e]] eqn:Er; [|discriminate E]. destruct u.
  destruct (raws_of_shape _ _ _ _ Hs) as (xs & F & L).
  assert (F' : Forall2 (fun o x => raw_of o = Some x) (PData h p' d :: o :: l) (raw d :: xs)) by (constructor; [reflexivity|exact F]).
  assert (L' : Forall (fun x => length x = length (raw d)) (raw d :: xs)) by (constructor; [reflexivity|exact L]).
  destruct (sigma_value (length (raw d)) p') as [sig|e] eqn:Es.
  2:{ exfalso. cbn [all_std get_std snd] in E. fold (raw d) in E. rewrite Es in E. discriminate E. }
  rewrite (all_std_data h p' d sig _ _ Es F' L') in E. change (dimension (PData h p' d)) with (length (raw d)) in E.
  destruct (sigma_ok _ _ _ Es) as [Hsl Hs0].
  set (arrays := map (fun x => map2 Qdiv (map2 Qminus x (raw d)) sig) (raw d :: xs)) in *.
  assert (La : Forall (fun x => length x = length (raw d)) arrays).
  { unfold arrays. apply Forall_map. eapply Forall_impl; [|exact L']. intros x Hx. cbn beta in *. repeat apply map2_length'; congruence. }
  destruct (check_frozen (PData h p' d)) eqn:Ef; [cbn [set_std] in E; rewrite Ef in E; discriminate E|].
  destruct (set_std_data h p' d (vmean arrays (length (raw d))) h p' d Hd Ef eq_refl sig Es (vmean_length _ _ La)) as (d2 & E2 & _ & Hst & H3).
  rewrite E2 in E. injection E as <-. specialize (H3 (unbounded_settled_d d _ Hu)).
  assert (L2 : length (raw d2) = length (raw d)).
  { rewrite H3. apply map2_length'; [congruence|]. apply map2_length'; [now apply vmean_length|]. apply map2_length'; congruence. }
  exists p', d2, ps, (raw d :: xs). split; [reflexivity|]. split; [now apply all_some_nth|]. split; [exact Er|].
  split; [constructor; [reflexivity|exact F]|]. split; [|split; [exact L2|exact Hst]]. split.
  - intros x Hx. rewrite L2. now apply (proj1 (Forall_forall _ _) L').
  - intros j Hj. rewrite L2 in Hj. rewrite H3.
    assert (Lv : length (vmean arrays (length (raw d))) = length (raw d)) by now apply vmean_length.
    assert (Ld : length (map2 Qdiv (raw d) sig) = length (raw d)) by (apply map2_length'; congruence).
    assert (Hz : ~ (nth j sig 0 == 0)%Q) by (apply (proj1 (Forall_forall _ _) Hs0), nth_In; lia).
    rewrite nth_map2; [|rewrite Hsl; symmetry; apply map2_length'; congruence|lia].
    rewrite nth_map2; [|congruence|lia]. rewrite nth_map2; [|congruence|lia]. rewrite vmean_nth by assumption.
    unfold arrays. rewrite (column_std (length (raw d)) sig (raw d)) by (assumption || reflexivity). rewrite map_length.
    assert (Hn : ~ (inject_Z (Z.of_nat (length (raw d :: xs))) == 0)%Q).
    { cbn [length]. rewrite Nat2Z.inj_succ. change 0%Q with (inject_Z 0). rewrite inject_Z_injective. lia. }
    field. split; assumption.
Qed.

(** the sub-parameters are recombined one by one *)
Lemma frecombine_at others : forall f f' k s, frecombine f others = (f', Ok tt) -> flookup k f = Some s ->
  exists subs s', Forall2 (fun o x => sub_of k o = Some x) others subs /\ recombine s subs = (s', Ok tt) /\ flookup k f' = Some s'.
Proof.
  induction f as [|k0 t f IH]; intros f' k s E El; [discriminate El|]. cbn [frecombine] in E. unfold flookup in El |- *. cbn [fitems dget] in El.
  destruct (all_some (sub_of k0) others) as [subs|e] eqn:Es; [|discriminate E]. destruct (recombine t subs) as [t' [u|e]] eqn:Er; [|discriminate E]. destruct u.
  destruct (frecombine f others) as [f'' u] eqn:Ef. injection E as <- ->. cbn [fitems dget]. destruct (k =? k0) eqn:Ek in El |- *.
  - apply Nat.eqb_eq in Ek as ->. injection El as ->. exists subs, t'. split; [now apply all_some_nth|]. auto.
  - exact (IH _ _ _ eq_refl El).
Qed.

Lemma Forall2_chain {A B C} (P : A -> B -> Prop) (R : B -> C -> Prop) l : forall m n, Forall2 P l m -> Forall2 R m n -> Forall2 (fun x z => exists y, P x y /\ R y z) l n.
Proof.
  induction l as [|x l IH]; intros m n H1 H2; inversion H1; subst; inversion H2; subst; constructor; [eauto|]. eapply IH; eassumption.
Qed.
Lemma Forall2_impl' {A B} (P R : A -> B -> Prop) l m : (forall x y, In x l -> P x y -> R x y) -> Forall2 P l m -> Forall2 R l m.
Proof. intros H F. induction F; constructor; [apply H; [now left|assumption]|]. apply IHF. intros; apply H; [now right|assumption]. Qed.

Lemma recombine_mean path : forall t others t' h p d, tinv t -> others <> [] -> Forall (same_shape t) others ->
  recombine t others = (t', Ok tt) -> sub_at path t = Some (PData h p d) -> unbounded d ->
  exists h' p' d', sub_at path t' = Some (PData h' p' d') /\ length (raw d') = length (raw d) /\ exists xs,
    Forall2 (fun o x => exists ho po do', sub_at path o = Some (PData ho po do') /\ raw do' = x) (t :: others) xs /\ mean_of xs (raw d').
Proof.
  induction path as [|[k|] path IH]; intros t others t' h p d Hi Ho Hs E Ep Hu.
  - cbn in Ep. injection Ep as ->. destruct Hi as [_ Hd]. destruct (recombine_leaf _ _ _ _ _ Hd Ho Hs Hu E) as (p' & d2 & ps & xs & -> & _ & _ & F & M & L & _).
    exists h, p', d2. split; [reflexivity|]. split; [exact L|]. exists xs. split; [|exact M]. eapply Forall2_impl'; [|exact F]. cbn beta. intros o x _ Hx.
    destruct o as [|ho po do'|]; try discriminate Hx. injection Hx as <-. exists ho, po, do'. split; reflexivity.
  - destruct t as [| |ht fz kd sz f]; try discriminate Ep. cbn [sub_at] in Ep. destruct (flookup k f) as [s|] eqn:Ek; [|discriminate Ep].
    cbn [recombine] in E. destruct others as [|o l]; [congruence|]. cbn [length Nat.eqb] in E.
    destruct (check_frozen _); [discriminate E|]. destruct (forallb _ _); [cbn [negb] in E|discriminate E]. destruct (frecombine f (o :: l)) as [f' u] eqn:Ef. injection E as <- ->.
    destruct (frecombine_at _ _ _ _ _ Ef Ek) as (subs & s' & F & Er & Ek').
    assert (Hn : NoDup (fkeys f)) by (apply Hi). assert (His : tinv s). { destruct Hi as (_ & _ & _ & Hi). now apply (proj1 (ftinv_in f) Hi k), flookup_in. }
    assert (Hss : Forall (same_shape s) subs).
    { clear - Hs F Ek Hn. induction F as [|x y l' m Hx F IH]; [constructor|]. inversion Hs as [|? ? Hx' Hs']; subst. constructor; [|now apply IH].
      destruct x as [| |hx fx kx sx g]; try easy. destruct Hx' as (_ & _ & Hx'). cbn in Hx. destruct (proj1 (fsame_in f g) Hx' k s (flookup_in _ _ _ Ek)) as (y' & E1 & E2). congruence. }
    assert (Hne : subs <> []) by (inversion F; congruence).
    destruct (IH s subs s' h p d His Hne Hss Er Ep Hu) as (h2 & p2 & d2 & E2 & L2 & xs & Fx & M).
    exists h2, p2, d2. cbn [sub_at]. rewrite Ek'. split; [exact E2|]. split; [exact L2|]. exists xs. split; [|exact M].
    inversion Fx as [|? ? ? ? (ho & po & do' & H1 & H2) Fx']; subst. constructor; [exists ho, po, do'; rewrite Ek; split; [exact H1|reflexivity]|].
    eapply Forall2_impl'; [|eapply Forall2_chain; [exact F|exact Fx']]. cbn beta. intros x y _ (q & Hq & hq & pq & dq & E3 & E4). exists hq, pq, dq.
    destruct x as [| |hx fx kx sx g]; try discriminate Hq. cbn in Hq. rewrite Hq. auto.
  - destruct t as [|ht pt dt|]; try discriminate Ep. cbn [sub_at] in Ep.
    cbn [recombine] in E. destruct others as [|o l]; [congruence|]. cbn [length Nat.eqb] in E.
    destruct (check_frozen (PData ht pt dt)); [discriminate E|]. destruct (forallb _ _); [cbn [negb] in E|discriminate E].
    destruct (all_some params_of (o :: l)) as [ps|e] eqn:Eps; [|discriminate E]. destruct (recombine pt ps) as [p' [u|e]] eqn:Er; [|discriminate E]. destruct u.
    destruct (all_std _ _) as [arr|e]; [|discriminate E].
    assert (Et : exists d2, t' = PData ht p' d2).
    { cbn [set_std] in E. destruct (check_frozen (PData ht p' dt)); [discriminate E|]. destruct (bind _ _) as [x|e]; [|discriminate E].
      destruct (through p' value_get _) as [d2 v]. injection E as <- _. now exists d2. }
    destruct Et as [d2 ->]. destruct Hi as [Hip Hid]. pose proof (all_some_nth _ _ _ Eps) as F.
    assert (Hss : Forall (same_shape pt) ps).
    { clear - Hs F. induction F as [|x y l' m Hx F IH]; [constructor|]. inversion Hs as [|? ? Hx' Hs']; subst. constructor; [|now apply IH].
      destruct x as [|hx px dx|]; try easy. injection Hx as <-. now destruct Hx'. }
    assert (Hne : ps <> []) by (inversion F; congruence).
    destruct (IH pt ps p' h p d Hip Hne Hss Er Ep Hu) as (h2 & p2 & d3 & E2 & L2 & xs & Fx & M).
    exists h2, p2, d3. split; [exact E2|]. split; [exact L2|]. exists xs. split; [|exact M].
    inversion Fx as [|? ? ? ? (ho & po & do' & H1 & H2) Fx']; subst. constructor; [exists ho, po, do'; split; [exact H1|reflexivity]|].
    eapply Forall2_impl'; [|eapply Forall2_chain; [exact F|exact Fx']]. cbn beta. intros x y _ (q & Hq & hq & pq & dq & E3 & E4). exists hq, pq, dq.
    destruct x as [|hx px dx|]; try discriminate Hq. cbn in Hq. injection Hq as ->. auto.
Qed.

(** the mean of raw numbers is the mean of standardized ones *)
Lemma column_app j y ys : column j (y :: ys) = (nth j y 0 + column j ys)%Q.
Proof. reflexivity. Qed.
Lemma mean_std sig ref xs y : length sig = length y -> length ref = length y -> Forall (fun x => ~ x == 0)%Q sig -> mean_of xs y ->
  mean_of (map (fun x => map2 Qdiv (map2 Qminus x ref) sig) xs) (map2 Qdiv (map2 Qminus y ref) sig).
Proof.
  intros Hs Hr Hz [M1 M2]. assert (L : length (map2 Qdiv (map2 Qminus y ref) sig) = length y) by (repeat apply map2_length'; congruence). split.
  - intros x Hx. apply in_map_iff in Hx. destruct Hx as (x0 & <- & Hx). apply M1 in Hx. rewrite L. repeat apply map2_length'; congruence.
  - intros j Hj. rewrite L in Hj. assert (Hzj : ~ (nth j sig 0 == 0)%Q) by (apply (proj1 (Forall_forall _ _) Hz), nth_In; lia).
    rewrite (column_std (length y) sig ref) by (try assumption; apply Forall_forall; exact M1). rewrite map_length, <- (M2 j Hj).
    rewrite nth_map2; [|rewrite map2_length' with (n := length y); congruence|rewrite map2_length' with (n := length y); congruence].
    rewrite nth_map2 by congruence. field. exact Hzj.
Qed.

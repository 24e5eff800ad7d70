From Coq Require Import List Arith ZArith QArith Bool Lia.
From Verif.Model Require Import Prelude MultiValue Chain Portfolio Select Tuned.
From Verif.Spec Require Import Select Tuned.
From Verif.Proofs Require Import MultiValue Portfolio Select.
Import ListNotations.
Open Scope nat_scope.

Lemma ceil_div_one a b : 1 <= a -> a <= b -> ceil_div a b = 1.
Proof. intros A B. destruct (ceil_div_spec a b ltac:(lia)) as [C1 C2]. nia. Qed.

Section WithVars.
  Variable cv : nat -> nat.
  Variable el : nat -> nat -> bool.
  Notation good := (good cv).
  Notation works := (works cv).

  Lemma good_le : forall k n m o, good k n o -> m <= n -> good k m o.
  Proof. intros k n m o G L j U W. apply G; auto. lia. Qed.

  Lemma setup_one : forall nps b nw warmup su, nps <> [] -> 1 <= nw -> nw <= length nps ->
    portfolio_setup nps b nw warmup = Ok su -> su_sub_workers su = 1.
  Proof.
    intros nps b nw warmup su N W L E. unfold portfolio_setup in E.
    destruct (Nat.leb_spec nw (length nps)) as [_|]; [|lia].
    assert (0 < length nps) by (destruct nps; [congruence|cbn; lia]).
    destruct (Nat.eqb_spec (length nps - 0) 0); [lia|]. rewrite !Nat.sub_0_r in E.
    rewrite (ceil_div_one nw (length nps)) in E by lia.
    replace (if match warmup with Some r => Qeq_bool r 1 | None => false end then 1 else Nat.max 1 1) with 1 in E by (destruct warmup as [r|]; [destruct (Qeq_bool r 1)|]; reflexivity).
    repeat match type of E with (if ?c then _ else _) = _ => destruct c; try discriminate E end.
    destruct warmup as [r|]; [destruct b|]; try discriminate E; injection E as <-; reflexivity.
  Qed.

  Lemma good_mix_each : forall k nw os warmup, os <> [] -> (match warmup with Some r => (0 < r)%Q | None => True end) ->
    nw <= length os -> Forall (good k 1) os -> good (Datatypes.S k) nw (Mix os warmup).
  Proof.
    intros k nw os warmup N R L F i U W. unfold works, Select.works. cbn [create].
    pose proof U as ((b & E & B) & D & W1). rewrite E.
    assert (Hne : map opt_np os <> []) by (destruct os; [congruence|discriminate]).
    destruct (portfolio_setup (map opt_np os) (Some b) (i_workers i) warmup) as [su|e] eqn:Es.
    - cbn [bind]. destruct (setup_usable _ _ _ _ _ Hne W1 B R Es) as ((sb & Esb & Hsb) & Ew & Hsw).
      pose proof (setup_one _ _ _ _ _ Hne W1 ltac:(rewrite map_length; lia) Es) as H1. rewrite H1 in Ew.
      rewrite Esb, Ew, !map_map. apply zip_works; auto.
      clear - F U Hsb W1. induction F as [|o os G F IH]; constructor; [|exact IH].
      replace (if opt_np o then 1 else 1) with 1 by (destruct (opt_np o); reflexivity). split; [|cbn; lia].
      apply G; [apply inner_usable; auto|cbn; lia].
    - exfalso. destruct (Verif.Props.Portfolio.C70_setup_errors _ _ _ _ _ Hne W1 Es) as [(_ & F' & L')|(_ & _ & Hb)]; [|discriminate Hb].
      rewrite map_length in L'. lia.
  Qed.

  Lemma good_ng10 : forall nw v, good 10 nw (Ng v).
  Proof. intros nw v j U W. apply every_works; exact U. Qed.
  Lemma good_cobyla_sqp : forall k np ps o, 1 <= k -> (forall n, In (Units n) ps -> 1 <= n) -> length ps = 2 -> good k 1 o -> good (Datatypes.S k) 1 (cobyla_sqp np ps o).
  Proof.
    intros k np ps o K P L G. apply good_chain; [exact P|cbn; lia|]. repeat apply Forall_cons; try apply Forall_nil; auto;
      (eapply good_mono; [apply good_seq; reflexivity|lia]).
  Qed.
  Lemma good_multi_cma : good 2 1 multi_cma.
  Proof. apply good_mix_each; [discriminate|reflexivity|cbn; lia|]. repeat constructor; apply good_leaf; reflexivity. Qed.
  Lemma good_multi_ds : good 2 1 multi_ds.
  Proof. apply good_mix_each; [discriminate|reflexivity|cbn; lia|]. repeat constructor; apply good_seq; reflexivity. Qed.

  Ltac one := eapply good_mono; [solve [apply good_seq; reflexivity | apply good_leaf; reflexivity | apply good_meta_model
    | apply good_meta, good_seq; reflexivity | apply good_meta, good_leaf; reflexivity | apply good_multi_cma | apply good_multi_ds | apply good_ng10
    | apply good_genetic_de | apply good_three]|lia].
  Ltac cs := eapply good_mono; [apply (good_cobyla_sqp 2); [lia | cbn; intros ? N; repeat (destruct N as [N|N]; [discriminate N|]); destruct N | reflexivity | one]|lia].
  Ltac ch k := eapply good_mono; [apply (good_chain cv k); [cbn; intros ? N; repeat (destruct N as [N|N]; [discriminate N|]); destruct N | reflexivity | repeat apply Forall_cons; try apply Forall_nil; one]|lia].

  Definition good_family (f : family) : Prop :=
    Forall (good 11 1) [f_2 f; f_3 f; f_7 f; f_14 f; f_29 f; f_59 f; f_wide2 f; f_wide f; f_large f; f_chain f; f_multi f; f_last f].
  Lemma good_fcarola6 : good 11 1 fcarola6. Proof. ch 10. Qed.
  Lemma good_carola14 : good 11 1 carola14. Proof. ch 10. Qed.
  Lemma good_chain_meta_sqp : good 11 1 chain_meta_sqp. Proof. ch 10. Qed.
  Lemma good_carolas : good_family carolas.
  Proof. repeat apply Forall_cons; try apply Forall_nil; cbn; first [cs | ch 10 | one]. Qed.
  Lemma good_mixed : good_family mixed.
  Proof. repeat apply Forall_cons; try apply Forall_nil; cbn; first [cs | ch 10 | one]. Qed.
  Lemma good_dss : good_family dss.
  Proof. repeat apply Forall_cons; try apply Forall_nil; cbn; first [cs | ch 10 | one]. Qed.

  Lemma good_smooth : forall nw, good 2 nw smooth_mix.
  Proof.
    intros nw. apply good_mix; [discriminate|reflexivity|exists (Leaf ALengler); cbn; auto|]. repeat constructor; apply good_leaf; reflexivity.
  Qed.
  Lemma good_arrays : forall k nw t o, 2 <= k -> good k nw o -> good k nw (arrays t o).
  Proof. intros k nw t o K G. unfold arrays. destruct (discrete_array t); [|exact G]. eapply good_mono; [apply good_smooth|exact K]. Qed.
  Lemma alone_one : forall i, alone i = true -> i_workers i = 1.
  Proof. intros i H. apply andb_true_iff in H as [_ H]. now apply Nat.eqb_eq. Qed.
  Lemma good_last : forall c two i, good 11 1 two -> good 11 (i_workers i) (last_part c two i).
  Proof.
    intros c two i G. unfold last_part.
    match goal with |- good _ _ (if ?c then _ else if ?c' then _ else _) => destruct c eqn:E1; [|destruct c' eqn:E2] end.
    - apply andb_true_iff in E1 as [E1 _]. apply andb_true_iff in E1 as [E1 _]. apply andb_true_iff in E1 as [E1 _]. now rewrite (alone_one _ E1).
    - apply andb_true_iff in E2 as [E2 _]. apply andb_true_iff in E2 as [E2 _]. apply andb_true_iff in E2 as [E2 _]. now rewrite (alone_one _ E2).
    - clear. repeat match goal with |- good _ _ (if ?c then _ else _) => destruct c end; one.
  Qed.
  Lemma good_when : forall c i f d, (forall o b, c = true -> i_budget i = Some b -> f (i_dim i) b = Some o -> good 12 (i_workers i) o) -> good 12 (i_workers i) d ->
    good 12 (i_workers i) (otherwise (when c i f) d).
  Proof.
    intros c i f d H G. unfold when. destruct c; [|exact G]. destruct (i_budget i) as [b|] eqn:B; [|exact G].
    destruct (f (i_dim i) b) as [o|] eqn:E; [|exact G]. exact (H o b eq_refl eq_refl E).
  Qed.
  Lemma in_family : forall f o, good_family f -> In o [f_2 f; f_3 f; f_7 f; f_14 f; f_29 f; f_59 f; f_wide2 f; f_wide f; f_large f; f_chain f; f_multi f; f_last f] -> good 12 1 o.
  Proof. intros f o G I. unfold good_family in G. rewrite Forall_forall in G. eapply good_mono; [apply G, I|lia]. Qed.

  Ltac cases H := repeat match type of H with (if ?c then _ else _) = Some _ => destruct c end; try discriminate H; injection H as <-.
  Lemma by_dimension_good : forall f d b o, good_family f -> by_dimension f d b = Some o -> good 12 1 o.
  Proof. intros f d b o G H. unfold by_dimension in H. cases H; apply (in_family f _ G); cbn; auto 15. Qed.
  Lemma wide_good : forall f d b o, good_family f -> wide f d b = Some o -> good 12 1 o.
  Proof. intros f d b o G H. unfold wide in H. cases H; apply (in_family f _ G); cbn; auto 15. Qed.
  Lemma large_good : forall f d b o, good_family f -> large f d b = Some o -> good 12 1 o.
  Proof. intros f d b o G H. unfold large in H. cases H; apply (in_family f _ G); cbn; auto 15. Qed.
  Lemma small_good : forall f d b o, good_family f -> small f d b = Some o -> good 12 1 o.
  Proof. intros f d b o G H. unfold small in H. cases H; first [apply (in_family f _ G); cbn; auto 15; fail | one]. Qed.
  Lemma wide9_good : forall d b o, wide9 d b = Some o -> good 12 1 o.
  Proof. intros d b o H. unfold wide9 in H. cases H; [one|ch 10]. Qed.
  Lemma first_good : forall x y o, (forall o, x = Some o -> good 12 1 o) -> (forall o, y = Some o -> good 12 1 o) -> first x y = Some o -> good 12 1 o.
  Proof. intros [x|] y o Hx Hy H; cbn in H; [injection H as <-|]; auto. Qed.

  Lemma last_field : forall f, good_family f -> good 11 1 (f_last f).
  Proof. intros f G. unfold good_family in G. rewrite Forall_forall in G. apply G; cbn; auto 15. Qed.
  Lemma good_carola2' : good 11 1 carola2.
  Proof. apply (last_field carolas good_carolas). Qed.

  Lemma table_good : forall f t, good_family f -> good 12 (i_workers (t_info t)) (pick_table f t).
  Proof.
    intros f t G. unfold pick_table. apply good_arrays; [lia|]. apply good_when.
    - intros o b A _ H. rewrite (alone_one _ A). revert H.
      apply first_good; [intros ?; apply by_dimension_good, G|]. intros ?. apply first_good; [intros ?; apply wide_good, G|]. intros ?.
      apply first_good; intros ?; [apply large_good, G|apply small_good, G].
    - eapply good_mono; [apply good_last, last_field, G|lia].
  Qed.
  Lemma ioh7_good : forall t, good 12 (i_workers (t_info t)) (pick_ioh7 t).
  Proof. intros t. unfold pick_ioh7. apply good_arrays; [lia|]. eapply good_mono; [apply good_last, good_carola2'|lia]. Qed.
  Lemma ioh8_good : forall t, good 12 (i_workers (t_info t)) (pick_ioh8 t).
  Proof.
    intros t. unfold pick_ioh8. apply good_arrays; [lia|]. apply good_when.
    - intros o b A _ H. rewrite (alone_one _ A). revert H. apply small_good, good_carolas.
    - eapply good_mono; [apply good_last, good_carola2'|lia].
  Qed.
  Lemma ioh9_good : forall t, good 12 (i_workers (t_info t)) (pick_ioh9 t).
  Proof.
    intros t. unfold pick_ioh9. apply good_arrays; [lia|]. apply good_when.
    - intros o b A _ H. rewrite (alone_one _ A). revert H. apply first_good; [intros ?; apply wide9_good|]. intros ?.
      apply first_good; intros ?; [apply large_good, good_carolas|apply small_good, good_carolas].
    - eapply good_mono; [apply good_last, good_carola2'|lia].
  Qed.
  Lemma ioh10_good : forall t, good 12 (i_workers (t_info t)) (pick_ioh10 t).
  Proof.
    intros t. unfold pick_ioh10. apply good_arrays; [lia|]. apply good_when.
    - intros o b A _ H. rewrite (alone_one _ A). revert H. apply first_good; [intros ?; apply wide_good, good_carolas|]. intros ?.
      apply first_good; intros ?; [apply large_good, good_carolas|apply small_good, good_carolas].
    - eapply good_mono; [apply good_last, good_carola2'|lia].
  Qed.
  Lemma good_when14 : forall c i f d, (forall o b, c = true -> i_budget i = Some b -> f (i_dim i) b = Some o -> good 14 (i_workers i) o) -> good 14 (i_workers i) d ->
    good 14 (i_workers i) (otherwise (when c i f) d).
  Proof.
    intros c i f d H G. unfold when. destruct c; [|exact G]. destruct (i_budget i) as [b|] eqn:B; [|exact G].
    destruct (f (i_dim i) b) as [o|] eqn:E; [|exact G]. exact (H o b eq_refl eq_refl E).
  Qed.
  Lemma pick_large_good : forall big f t, good_family f ->
    (forall b o, i_budget (t_info t) = Some b -> big (i_dim (t_info t)) b = Some o -> good 14 (i_workers (t_info t)) o) ->
    good 14 (i_workers (t_info t)) (pick_large big f t).
  Proof.
    intros big f t G H. unfold pick_large. apply good_arrays; [lia|]. apply good_when14.
    - intros o b _ B E. exact (H b o B E).
    - eapply good_mono; [apply table_good, G|lia].
  Qed.
  Lemma vlpcma_good : forall f t, good_family f ->
    good 14 (i_workers (t_info t)) (pick_large (fun d b => if 2000 * d <? b then Some (Meta false (Some (Leaf AVLPCMA))) else None) f t).
  Proof. intros f t G. apply pick_large_good; [exact G|]. intros b o _ H. cases H. one. Qed.
  Lemma ioh21_good : forall t, good 14 (i_workers (t_info t)) (pick_ioh21 t).
  Proof. intros t. apply vlpcma_good, good_carolas. Qed.
  Lemma pick_ds2_good : forall t, good 14 (i_workers (t_info t)) (pick_ds2 t).
  Proof. intros t. unfold pick_ds2. destruct (with_budget _ _); [apply ioh21_good|apply vlpcma_good, good_dss]. Qed.
  Lemma ioh4_good : forall i, good 14 (i_workers i) (pick_ioh4 i).
  Proof. intros i. eapply good_mono; [apply good_last, good_carola2'|lia]. Qed.
  Lemma arity_good : forall a i, sequential a = false -> good 14 (i_workers i) (pick_arity (Leaf a) i).
  Proof.
    intros a i H. unfold pick_arity. destruct (_ && _); [eapply good_mono; [apply good_leaf, H|lia]|].
    eapply good_mono; [apply good_last, good_carola2'|lia].
  Qed.

  (** restarts *)
  Lemma num_bounds : forall k d b, 1 <= k -> 1 <= d -> 2 * k * d < b -> 2 <= b / (k * d) /\ b / (k * d) <= b.
  Proof.
    intros k d b K D H. assert (k * d <> 0) by nia. split.
    - apply Nat.div_le_lower_bound; [assumption|]. lia.
    - apply Nat.div_le_upper_bound; [assumption|]. nia.
  Qed.
  Lemma two_thousand : 2000 = 2 * 1000.
  Proof. reflexivity. Qed.
  Lemma if_restarts_some : forall nw d b o x, 1 <= d -> if_restarts nw d b o = Some x -> exists num, x = o num /\ 2 <= num /\ num <= b /\ nw <= num.
  Proof.
    intros nw d b o x D. unfold if_restarts. rewrite two_thousand. assert (K : 1 <= 1000) by (apply Nat.leb_le; reflexivity). revert K. generalize 1000. intros k K H.
    destruct (_ && _) eqn:C in H; [|discriminate H]. injection H as <-. apply andb_true_iff in C as [C1 C2].
    apply Nat.ltb_lt in C1. apply Nat.leb_le in C2. exists (b / (k * d)). split; [reflexivity|]. destruct (num_bounds k d b K D C1). auto.
  Qed.
  Lemma restarts_good : forall o t, usable (t_info t) ->
    (forall b num, i_budget (t_info t) = Some b -> 2 <= num -> num <= b -> i_workers (t_info t) <= num -> good 14 (i_workers (t_info t)) (o b num)) ->
    good 14 (i_workers (t_info t)) (pick_large (fun d b => if_restarts (i_workers (t_info t)) d b (o b)) carolas t).
  Proof.
    intros o t (_ & D & _) H. apply pick_large_good; [apply good_carolas|]. intros b x B E.
    destruct (if_restarts_some _ _ _ _ _ D E) as (num & -> & N & Nb & L). apply H; assumption.
  Qed.
  Lemma in_firstn : forall (A : Type) (n : nat) (l : list A) (x : A), In x (firstn n l) -> In x l.
  Proof. intros A n l x I. rewrite <- (firstn_skipn n l). apply in_or_app. now left. Qed.
  Lemma copies_good : forall k w o num nw, (0 < w)%Q -> 1 <= num -> nw <= num -> good k 1 o -> good (2 + k) nw (copies w o num).
  Proof.
    intros k w o num nw W N L G. unfold copies. apply good_mix_each; [destruct num; [lia|discriminate]|exact W|rewrite repeat_length; exact L|].
    apply Forall_forall. intros x I. apply repeat_spec in I as ->. apply good_scaled, G.
  Qed.
  Lemma four_good : forall w t num, (0 < w)%Q -> 2 <= num -> usable (t_info t) -> i_workers (t_info t) <= num -> good 14 (i_workers (t_info t)) (four_kinds w t num).
  Proof.
    intros w t num W N U L. unfold four_kinds. apply good_mix_each; [destruct num; [lia|discriminate]|exact W| |].
    - rewrite app_length, firstn_length, repeat_length. cbn [length]. lia.
    - assert (S : good 13 1 (Scaled (pick_table carolas t))).
      { apply good_scaled. eapply good_le; [apply table_good, good_carolas|destruct U as (_ & _ & U); exact U]. }
      apply Forall_app. split.
      + apply Forall_forall. intros x I.
        assert (J : In x [Scaled (pick_table carolas t); fcarola6; chain_meta_sqp; Meta false (Some (Leaf ACmaFmin2))]) by (eapply in_firstn; exact I).
        destruct J as [<-|[<-|[<-|[<-|[]]]]]; [exact S|eapply good_mono; [apply good_fcarola6|lia]|eapply good_mono; [apply good_chain_meta_sqp|lia]|one].
      + apply Forall_forall. intros x I. apply repeat_spec in I as ->. exact S.
  Qed.
  Lemma turn_good : forall s t b num, 2 <= num -> 1 <= b -> good 14 (i_workers (t_info t)) (in_turn s t b num).
  Proof.
    intros s t b num N B. unfold in_turn.
    assert (G : good 12 (i_workers (t_info t)) (ioh11_with (Some (ceil_div b num)) t)).
    { unfold ioh11_with. pose proof (table_good carolas (TInfo (set_budget (Some (ceil_div b num)) (t_info t)) (t_array t) (t_real t) (t_hp t) (t_neural t) (t_constraints t) (t_enforce t)) good_carolas) as G. exact G. }
    apply good_chain.
    - intros n I. apply repeat_spec in I as [= ->]. apply ceil_div_pos; lia.
    - cbn [length]. now rewrite !repeat_length.
    - apply Forall_cons.
      + destruct s; [apply good_scaled; exact G|eapply good_mono; [exact G|lia]].
      + apply Forall_forall. intros x I. apply repeat_spec in I as ->. apply good_scaled; exact G.
  Qed.

  Lemma good_ng_ln : forall nw, good 14 nw ng_ln.
  Proof. intros nw. ch 10. Qed.
  Lemma good_noisy_rl2 : forall nw, good 14 nw noisy_rl2.
  Proof. intros nw. ch 10. Qed.

  Definition fine (v : tuned) (t : tinfo) : Prop := exists l, start cv el 14 v t = Ok l /\ sound (i_workers (t_info t)) l.
  Lemma fine_plain : forall v t o, usable (t_info t) -> tpick cv el v t = Ok (Plain o) -> good 14 (i_workers (t_info t)) o -> fine v t.
  Proof.
    intros v t o U E G. destruct (G (inner (i_budget (t_info t)) (i_workers (t_info t)) (t_info t)) (usable_inner _ U) (le_n _)) as (l & El & S).
    exists l. unfold start. rewrite E. split; [exact El|exact S].
  Qed.
  Lemma fine_ds3 : forall v t, usable (t_info t) -> tpick cv el v t = Ok NgDS3 -> fine v t.
  Proof.
    intros v t U E. pose proof U as ((b & B & B1) & D & W). unfold fine, start. rewrite E. cbn [bind]. rewrite B. unfold chain_budgets. cbn [map app option_map].
    set (b1 := part_budget (Some b) (i_workers (t_info t)) Tenth). set (b2 := Nat.max 4 _).
    assert (H1 : 1 <= b1) by apply Nat.le_max_l. assert (H2 : 1 <= b2) by lia.
    destruct (good_leaf cv (i_workers (t_info t)) ALognormal eq_refl (inner (Some b1) (i_workers (t_info t)) (t_info t))) as (l1 & E1 & S1); [apply inner_usable; auto|cbn; lia|].
    rewrite (create_mono cv 1 14 _ _ _ ltac:(lia) E1). cbn [bind].
    destruct (pick_ds2_good (tinner (Some b2) (i_workers (t_info t)) t) (inner (Some b2) (i_workers (t_info t)) (t_info (tinner (Some b2) (i_workers (t_info t)) t)))) as (l2 & E2 & S2).
    { apply inner_usable; auto. cbn [tinner t_info]. apply inner_usable; auto. }
    { cbn. lia. }
    rewrite E2. cbn [bind]. exists (l1 ++ l2). split; [reflexivity|]. apply sound_app; [exact S1|exact S2].
  Qed.
  Lemma fine_rw2 : forall v t, usable (t_info t) -> tpick cv el v t = Ok RW2 -> fine v t.
  Proof.
    intros v t U E. pose proof U as ((b & B & B1) & D & W). unfold fine, start. rewrite E. cbn [bind]. rewrite B.
    destruct (portfolio_setup [false; false; false] (Some b) (i_workers (t_info t)) (Some (33 # 100)%Q)) as [su|e] eqn:Es.
    - cbn [bind]. destruct (setup_usable [false; false; false] b (i_workers (t_info t)) (Some (33 # 100)%Q) su ltac:(discriminate) W B1 eq_refl Es) as ((sb & Esb & Hsb) & Ew & Hsw).
      rewrite Ew, Esb. cbn [map]. apply zip_works; [|discriminate].
      assert (G : forall o, good 11 (i_workers (t_info t)) o -> Select.works cv 14 o (inner (Some sb) (su_sub_workers su) (t_info t)) /\ i_workers (inner (Some sb) (su_sub_workers su) (t_info t)) <= i_workers (t_info t)).
      { intros o G. split; [|cbn; lia]. eapply works_mono; [apply G; [apply inner_usable; auto; lia|cbn; lia]|lia]. }
      apply Forall2_cons; [apply G|apply Forall2_cons; [apply G; one|apply Forall2_cons; [apply G; one|apply Forall2_nil]]].
      unfold default_mix. apply good_mix; [destruct (12 * _ <=? _); discriminate|exact I| |].
      + exists (Leaf AScrHammersley). split; [apply in_or_app; cbn; auto|reflexivity].
      + apply Forall_app; split; [destruct (12 * _ <=? _)|]; repeat apply Forall_cons; try apply Forall_nil; one.
    - exfalso. destruct (Verif.Props.Portfolio.C70_setup_errors [false; false; false] _ _ _ _ ltac:(discriminate) W Es) as [(_ & F & _)|(_ & _ & Hb)]; [|discriminate Hb].
      apply Forall_inv in F. discriminate F.
  Qed.

  Lemma fine_picks : forall v t r, usable (t_info t) -> picks cv 9 r (t_info t) -> tpick cv el v t = bind r (fun o => Ok (Plain o)) -> fine v t.
  Proof. intros v t r U (o & -> & G) E. apply fine_plain with o; [exact U|exact E|]. eapply good_mono; [exact G|lia]. Qed.
  Lemma pick_ioh_picks : forall c1 c2 i, usable i -> picks cv 8 (pick_ioh cv c1 c2 i) i.
  Proof.
    intros c1 c2 i U. unfold pick_ioh. destruct (i_continuous i && has_noise i); [eapply picks_intro; [apply good_noisy_mix|lia]|].
    match goal with |- picks _ _ (if ?c then _ else _) _ => destruct c eqn:E1 end; [|match goal with |- picks _ _ (if ?c then _ else _) _ => destruct c eqn:E2 end].
    - apply andb_true_iff in E1 as [E1 _]. apply andb_true_iff in E1 as [E1 _]. eapply picks_intro; [apply good_carola2, alone_one, E1|lia].
    - apply andb_true_iff in E2 as [E2 _]. apply andb_true_iff in E2 as [E2 _]. eapply picks_intro; [apply good_carola2, alone_one, E2|lia].
    - apply bounded_picks; [exact U|]. eapply picks_mono; [apply pick16_picks, U|lia].
  Qed.
  Lemma dsrw_fine : forall own t, usable (t_info t) -> (own = false -> quiet (t_info t) = true -> forall b, i_budget (t_info t) = Some b -> b < 12 * i_dim (t_info t)) ->
    exists o, pick_dsrw cv own t = Ok o /\ good 14 (i_workers (t_info t)) o.
  Proof.
    intros own t U H. pose proof U as ((b & B & B1) & _). unfold pick_dsrw. rewrite B.
    destruct (pick39_picks cv (t_info t) U) as (o & Eo & G).
    destruct (quiet (t_info t)) eqn:Q; cbn [andb].
    - destruct (Nat.leb_spec (12 * i_dim (t_info t)) b) as [L|L].
      + destruct own; [|specialize (H eq_refl eq_refl b B); lia].
        rewrite Eo. cbn [bind]. eexists. split; [reflexivity|]. eapply good_mono; [apply (good_mix cv 13)|lia]; [discriminate|reflexivity|exists (Leaf APSO); cbn; auto|].
        repeat apply Forall_cons; try apply Forall_nil; [one|one|eapply good_mono; [exact G|lia]].
      + destruct (with_budget _ _); [eexists; split; [reflexivity|apply pick_ds2_good]|]. exists o. split; [exact Eo|eapply good_mono; [exact G|lia]].
    - destruct (with_budget _ _); [eexists; split; [reflexivity|apply pick_ds2_good]|]. exists o. split; [exact Eo|eapply good_mono; [exact G|lia]].
  Qed.
  Lemma csec1x_fine : forall v ratio t, usable (t_info t) -> tpick cv el v t = pick_csec1x cv el ratio t ->
    ~ (t_real t = true /\ t_hp t = true /\ t_neural t = false /\ t_constraints t = false /\ i_continuous (t_info t) = true /\ has_noise (t_info t) = false /\
       exists b, i_budget (t_info t) = Some b /\ 12 * i_dim (t_info t) <= b) -> fine v t.
  Proof.
    intros v ratio t U E NB. pose proof U as ((b & B & B1) & _). unfold pick_csec1x in E. rewrite B in E.
    destruct (discrete_array t); [eapply fine_plain; [exact U|exact E|one]|].
    match type of E with _ = (if ?c then _ else _) => destruct c eqn:C1 end; [eapply fine_plain; [exact U|exact E|apply pick_ds2_good]|].
    destruct (t_constraints t) eqn:CC; [eapply fine_plain; [exact U|exact E|apply good_ng_ln]|].
    match type of E with _ = (if ?c then _ else _) => destruct c eqn:C2 end.
    { repeat (apply andb_true_iff in C2 as [C2 _]). apply Nat.eqb_eq in C2. eapply fine_plain; [exact U|exact E|]. rewrite C2. one. }
    match type of E with _ = (if ?c then _ else _) => destruct c eqn:C3 end; [eapply fine_plain; [exact U|exact E|one]|].
    match type of E with _ = (if ?c then _ else _) => destruct c eqn:C4 end.
    { eapply fine_picks; [exact U| |exact E]. eapply picks_mono; [apply pick39_picks, U|lia]. }
    match type of E with _ = (if ?c then _ else _) => destruct c eqn:C5 end; [eapply fine_plain; [exact U|exact E|apply good_noisy_rl2]|].
    match type of E with _ = (if ?c then _ else _) => destruct c eqn:C6 end; [eapply fine_plain; [exact U|exact E|one]|].
    match type of E with _ = (if ?c then _ else _) => destruct c eqn:C7 end.
    { apply andb_true_iff in C7 as [R N]. apply negb_true_iff in N.
      destruct (dsrw_fine false t U) as (o & Eo & G).
      - intros _ Qi b' Eb. destruct (Nat.le_gt_cases (12 * i_dim (t_info t)) b') as [L|L]; [|exact L]. exfalso. apply NB.
        unfold quiet in Qi. apply andb_true_iff in Qi as [Qc Qn]. apply negb_true_iff in Qn.
        rewrite R, N, Qc in C4. destruct (t_hp t) eqn:Hp; [|discriminate C4]. repeat split; eauto.
      - rewrite Eo in E. eapply fine_plain; [exact U|exact E|exact G]. }
    match type of E with _ = (if ?c then _ else _) => destruct c eqn:C8 end; [eapply fine_plain; [exact U|exact E|apply ioh21_good]|].
    match type of E with _ = (if ?c then _ else _) => destruct c eqn:C9 end; [eapply fine_plain; [exact U|exact E|apply ioh4_good]|].
    match type of E with _ = (if ?c then _ else _) => destruct c eqn:C10 end; [eapply fine_ds3; [exact U|exact E]|].
    eapply fine_plain; [exact U|exact E|apply pick_ds2_good].
  Qed.

  Lemma every_fine : forall v t, usable (t_info t) -> ~ unlucky v t -> fine v t.
  Proof.
    intros v t U NB. pose proof U as ((b & B & B1) & D & W).
    assert (P12 : forall o, good 12 (i_workers (t_info t)) o -> good 14 (i_workers (t_info t)) o) by (intros o G; eapply good_mono; [exact G|lia]).
    assert (T11 : good 12 1 (pick_table carolas t)) by (eapply good_le; [apply table_good, good_carolas|exact W]).
    assert (QP : forall n d, (0 < Z.pos n # d)%Q) by (intros; reflexivity).
    destruct v.
    1-3: eapply fine_picks; [exact U| |reflexivity]; eapply picks_mono; [apply pick_ioh_picks, U|lia].
    - eapply fine_plain; [exact U|reflexivity|apply ioh4_good].
    - destruct (quiet (t_info t)) eqn:Qi; [destruct (12 * i_dim (t_info t) <=? b) eqn:Lb|].
      + eapply fine_rw2; [exact U|]. cbn [tpick]. now rewrite Qi, B, Lb.
      + eapply fine_plain; [exact U|cbn [tpick]; rewrite Qi, B, Lb; reflexivity|apply ioh4_good].
      + eapply fine_plain; [exact U|cbn [tpick]; rewrite Qi; reflexivity|apply ioh4_good].
    - eapply fine_plain; [exact U|reflexivity|apply arity_good; reflexivity].
    - eapply fine_plain; [exact U|reflexivity|apply arity_good; reflexivity].
    - eapply fine_plain; [exact U|reflexivity|apply P12, ioh7_good].
    - eapply fine_plain; [exact U|reflexivity|apply P12, ioh8_good].
    - eapply fine_plain; [exact U|reflexivity|apply P12, ioh9_good].
    - eapply fine_plain; [exact U|reflexivity|apply P12, ioh10_good].
    - eapply fine_plain; [exact U|reflexivity|apply P12, table_good, good_carolas].
    - eapply fine_plain; [exact U|reflexivity|apply restarts_good; [exact U|]]. intros. apply (copies_good 12); auto; lia.
    - eapply fine_plain; [exact U|reflexivity|apply restarts_good; [exact U|]]. intros. apply four_good; auto.
    - eapply fine_plain; [exact U|reflexivity|apply restarts_good; [exact U|]]. intros. apply four_good; auto.
    - eapply fine_plain; [exact U|reflexivity|apply restarts_good; [exact U|]]. intros. apply (copies_good 12); auto; lia.
    - eapply fine_plain; [exact U|reflexivity|apply restarts_good; [exact U|]]. intros. apply (copies_good 12); auto; [lia|]. eapply good_mono; [apply good_carola14|lia].
    - eapply fine_plain; [exact U|reflexivity|apply restarts_good; [exact U|]]. intros. apply turn_good; lia.
    - eapply fine_plain; [exact U|reflexivity|apply restarts_good; [exact U|]]. intros. apply turn_good; lia.
    - eapply fine_plain; [exact U|reflexivity|apply pick_large_good; [apply good_carolas|]]. intros b' o _ H. cases H; destruct (4 <? _); one.
    - eapply fine_plain; [exact U|reflexivity|apply pick_large_good; [apply good_carolas|]]. intros b' o _ H. cases H; destruct (4 <? _); one.
    - eapply fine_plain; [exact U|reflexivity|apply ioh21_good].
    - eapply fine_plain; [exact U|reflexivity|apply P12, table_good, good_mixed].
    - eapply fine_plain; [exact U|reflexivity|apply vlpcma_good, good_dss].
    - eapply fine_plain; [exact U|reflexivity|apply pick_ds2_good].
    - destruct (dsrw_fine true t U) as (o & Eo & G); [discriminate|]. eapply fine_plain; [exact U| |exact G]. cbn [tpick]. now rewrite Eo.
    - destruct (tpick cv el CSEC t) as [c|e] eqn:E; cbn [tpick] in E; unfold pick_csec in E.
      + assert (P : forall o, good 14 (i_workers (t_info t)) o -> Plain o = c -> fine CSEC t).
        { intros o G <-. eapply fine_plain; [exact U| |exact G]. exact E. }
        match type of E with (if ?c then _ else _) = _ => destruct c eqn:C1 end; [eapply P; [apply ioh21_good|now injection E]|].
        match type of E with (if ?c then _ else _) = _ => destruct c eqn:C2 end; [eapply P; [apply ioh4_good|now injection E]|].
        match type of E with (if ?c then _ else _) = _ => destruct c eqn:C3 end; [|eapply P; [apply pick_ds2_good|now injection E]].
        eapply fine_ds3; [exact U|]. cbn [tpick]. unfold pick_csec. now rewrite C1, C2, C3.
      + repeat match type of E with (if ?c then _ else _) = _ => destruct c; try discriminate E end.
    - eapply csec1x_fine; [exact U|reflexivity|]. intros H. apply NB. split; auto.
    - eapply csec1x_fine; [exact U|reflexivity|]. intros H. apply NB. split; auto.
  Qed.
  Lemma start_mono : forall j k v t l, j <= k -> start cv el j v t = Ok l -> start cv el k v t = Ok l.
  Proof.
    intros j k v t l H. unfold start. destruct (tpick cv el v t) as [c|e]; [|discriminate]. cbn [bind]. destruct c as [o| |].
    - apply create_mono, H.
    - destruct (chain_budgets _ _ _) as [|b1 [|b2 [|? ?]]]; try discriminate. intros E. apply bind_ok in E as (l1 & E1 & E). apply bind_ok in E as (l2 & E2 & E).
      rewrite (create_mono cv _ _ _ _ _ H E1). cbn [bind]. rewrite (create_mono cv _ _ _ _ _ H E2). exact E.
    - destruct (portfolio_setup _ _ _ _) as [su|e]; [|discriminate]. cbn [bind]. destruct (su_workers su) as [|w1 [|w2 [|w3 [|? ?]]]]; try discriminate.
      apply zip_create_mono. intros o i l0 _ E0. eapply create_mono; [exact H|exact E0].
  Qed.

  (** one worker *)
  Lemma hundreds : forall d, 300 * d = 3 * (100 * d) /\ 1000 * d = 10 * (100 * d) /\ 2000 * d = 20 * (100 * d) /\ 3000 * d = 30 * (100 * d).
  Proof. intros d. rewrite !Nat.mul_assoc. repeat split. Qed.
  Definition runs (o : opt) (i : info) (l : list algo) : Prop := create cv 14 o i = Ok (map (fun a => (a, 1)) l).
  Lemma table_runs : forall d h b o, h = 100 * d -> 1 < d -> d < 50 -> 3 * h <= b -> b <= 20 * h ->
    first (if (3 * h <? b) && (b <? 30 * h) then
        if d =? 2 then Some carola14 else if d <? 4 then Some carola4 else if d <? 8 then Some carola5 else
        if d <? 15 then Some carola9 else if d <? 30 then Some carola8 else if d <? 60 then Some carola9 else None
      else None) o =
    if 3 * h <? b then Some (if d =? 2 then carola14 else if d <? 4 then carola4 else if d <? 8 then carola5 else if d <? 15 then carola9 else if d <? 30 then carola8 else carola9)
    else o.
  Proof.
    intros d h b o -> D1 D2 L U. destruct (Nat.ltb_spec (3 * (100 * d)) b) as [H|H]; [|reflexivity]. destruct (Nat.ltb_spec b (30 * (100 * d))); [|lia]. cbn [andb].
    destruct (d =? 2); [reflexivity|]. destruct (d <? 4); [reflexivity|]. destruct (d <? 8); [reflexivity|]. destruct (d <? 15); [reflexivity|].
    destruct (d <? 30); [reflexivity|]. destruct (Nat.ltb_spec d 60); [reflexivity|lia].
  Qed.
  Lemma multi_runs : forall k b i, 1 <= b -> create cv (2 + k) multi_cma (inner (Some b) 1 i) = Ok [(ACMAinit, 1); (ACMAinit, 1); (ACMAinit, 1)].
  Proof.
    intros k b i B. change (2 + k) with (Datatypes.S (1 + k)). cbn [create multi_cma repeat inner i_budget i_workers map opt_np sequential].
    destruct (portfolio_setup [false; false; false] (Some b) 1 (Some (1 # 10)%Q)) as [su|e] eqn:Es.
    - destruct (setup_usable [false; false; false] b 1 (Some (1 # 10)%Q) su ltac:(discriminate) (le_n 1) B eq_refl Es) as (_ & Ew & Hw).
      cbn [bind]. rewrite Ew. assert (Ew' : su_sub_workers su = 1) by lia. rewrite Ew'. reflexivity.
    - exfalso. destruct (Verif.Props.Portfolio.C70_setup_errors [false; false; false] _ _ _ _ ltac:(discriminate) (le_n 1) Es) as [(_ & F & _)|(_ & _ & Hb)]; [|discriminate Hb].
      apply Forall_inv in F. discriminate F.
  Qed.
  Lemma one_worker : forall depth t b, 14 <= depth -> ordinary t -> i_workers (t_info t) = 1 ->
    i_budget (t_info t) = Some b -> 1 < i_dim (t_info t) < 50 -> 30 * i_dim (t_info t) <= b ->
    start cv el depth CSEC11 t = Ok (map (fun a => (a, 1)) (one_after_the_other (i_dim (t_info t)) b)).
  Proof.
    intros depth t b Hd ((R & C) & Fc & Nn) W B [D1 D2] L. apply start_mono with 14; [exact Hd|].
    assert (A : alone (t_info t) = true) by (unfold alone, quiet; now rewrite Fc, Nn, W).
    assert (Da : discrete_array t = false) by (unfold discrete_array; rewrite Fc; now rewrite andb_false_r).
    assert (Qi : quiet (t_info t) = true) by (unfold quiet; now rewrite Fc, Nn).
    assert (P : tpick cv el CSEC11 t = Ok (Plain (if 300 * i_dim (t_info t) <=? b then pick_ioh21 t else pick_ioh4 (t_info t)))).
    { cbn [tpick]. unfold pick_csec1x. rewrite B, Da, R, C, A, Qi, !andb_false_r. cbn [andb negb].
      unfold small_dim. apply Nat.ltb_lt in D1, D2. apply Nat.leb_le in L. rewrite D1, D2, L. cbn [andb]. now destruct (300 * _ <=? b). }
    unfold start. rewrite P. cbn [bind]. rewrite W, B. clear P.
    unfold one_after_the_other.
    destruct (hundreds (i_dim (t_info t))) as (E3 & E10 & E20 & E30).
    assert (Hh : exists h, h = 100 * i_dim (t_info t)) by eauto. destruct Hh as (h & Hh). rewrite <- Hh in E3, E10, E20, E30.
    unfold pick_ioh21, pick_large, pick_table, arrays, when, pick_ioh4, last_part, with_budget. rewrite Da, A, B, Qi. cbn [andb].
    unfold by_dimension, wide, large, small. cbn [f_2 f_3 f_7 f_14 f_29 f_59 f_wide2 f_wide f_large f_chain f_multi f_last carolas].
    rewrite E3, E10, E20, E30. clear E3 E10 E20 E30.
    destruct t as [[bu nw d dp de co di ar me ob bo] ta tr th tn tc te]. cbn [t_info i_dim i_budget i_workers] in *. subst bu nw.
    destruct (Nat.leb_spec (3 * h) b) as [L3|L3].
    - destruct (Nat.ltb_spec (20 * h) b) as [L20|L20]; [reflexivity|]. unfold otherwise at 1.
      rewrite table_runs by lia. destruct (Nat.ltb_spec (3 * h) b) as [L3'|L3'].
      + cbn [otherwise andb]. destruct (Nat.eqb_spec (3 * h) b) as [E|_]; [lia|]. cbn [andb].
        destruct (Nat.eqb_spec d 2) as [-> |D2'].
        * unfold carola14. change 14 with (Datatypes.S (2 + 11)). rewrite create_chain. cbn [inner i_budget i_workers].
          unfold chain_budgets. cbn [map app zip_create]. change (Info (Some ?x) 1 ?d ?dp ?de ?co ?di ?ar ?me 0 ?bo) with (inner (Some x) 1 (Info (Some b) 1 d dp de co di ar me ob bo)).
          rewrite (multi_runs 11) by apply Nat.le_max_l. reflexivity.
        * destruct d as [|[|d]]; try lia.
          destruct (Nat.ltb_spec (Datatypes.S (Datatypes.S d)) 4); [destruct (Nat.leb_spec 8 (Datatypes.S (Datatypes.S d))); [lia|reflexivity]|].
          destruct (Nat.ltb_spec (Datatypes.S (Datatypes.S d)) 8); [destruct (Nat.leb_spec 8 (Datatypes.S (Datatypes.S d))); [lia|reflexivity]|].
          destruct (Nat.leb_spec 8 (Datatypes.S (Datatypes.S d))); [|lia].
          destruct (_ <? 15); [reflexivity|]. destruct (_ <? 30); reflexivity.
      + assert (b = 3 * h) by lia. subst b. rewrite Nat.eqb_refl. cbn [andb first].
        destruct (Nat.ltb_spec (30 * h) (3 * h)); [lia|]. destruct (Nat.ltb_spec (3 * h) (30 * d)); [lia|]. cbn [andb].
        destruct (Nat.ltb_spec (3 * h) (3 * h)); [lia|]. rewrite !andb_false_r. cbn [andb first].
        destruct (Nat.leb_spec (3 * h) (3 * h)); [|lia]. destruct (Nat.ltb_spec (3 * h) (30 * h)); [|lia]. cbn [andb].
        destruct (Nat.ltb_spec d 30).
        * cbn [otherwise]. rewrite (multi_runs 12) by lia. reflexivity.
        * cbn [otherwise]. destruct (Nat.ltb_spec (3 * h) (10 * h)); [|lia]. destruct (Nat.ltb_spec (20 * d) (3 * h)); [|lia]. destruct (Nat.ltb_spec 1 d); [|lia]. destruct (Nat.ltb_spec d 100); [|lia]. cbn [andb].
          destruct d as [|[|d]]; try lia. reflexivity.
    - destruct (Nat.ltb_spec (20 * h) b); [lia|]. destruct (Nat.eqb_spec (3 * h) b); [lia|]. destruct (Nat.ltb_spec (3 * h) b); [lia|]. cbn [andb].
      destruct (Nat.ltb_spec b (10 * h)); [|lia]. destruct (Nat.ltb_spec (20 * d) b); [|lia]. destruct (Nat.ltb_spec 1 d); [|lia]. destruct (Nat.ltb_spec d 100); [|lia]. cbn [andb].
      destruct d as [|[|d]]; try lia. reflexivity.
  Qed.

  Lemma one_worker8 : forall depth t b, 14 <= depth -> ordinary t -> i_workers (t_info t) = 1 ->
    i_budget (t_info t) = Some b -> 1 < i_dim (t_info t) < 50 -> 30 * i_dim (t_info t) <= b < 300 * i_dim (t_info t) ->
    start cv el depth NgIoh8 t = Ok (map (fun a => (a, 1)) (one_after_the_other8 (i_dim (t_info t)))).
  Proof.
    intros depth t b Hd ((R & C) & Fc & Nn) W B [D1 D2] [L1 L2]. apply start_mono with 14; [exact Hd|].
    assert (A : alone (t_info t) = true) by (unfold alone, quiet; now rewrite Fc, Nn, W).
    assert (Da : discrete_array t = false) by (unfold discrete_array; rewrite Fc; now rewrite andb_false_r).
    unfold start. cbn [tpick]. cbn [bind]. rewrite W, B. unfold one_after_the_other8.
    destruct (hundreds (i_dim (t_info t))) as (E3 & E10 & E20 & E30).
    assert (Hh : exists h, h = 100 * i_dim (t_info t)) by eauto. destruct Hh as (h & Hh). rewrite <- Hh in E3, E10, E20, E30.
    unfold pick_ioh8, arrays, when, last_part, with_budget. rewrite Da, A, B. cbn [andb].
    unfold small. cbn [f_chain f_multi carolas]. rewrite E3 in *. rewrite E10, E30. clear E3 E10 E20 E30.
    destruct t as [[bu nw d dp de co di ar me ob bo] ta tr th tn tc te]. cbn [t_info i_dim i_budget i_workers] in *. subst bu nw.
    destruct (Nat.ltb_spec b (30 * d)); [lia|]. destruct (Nat.leb_spec (30 * d) b); [|lia].
    destruct (Nat.ltb_spec b (3 * h)); [|lia]. cbn [andb].
    destruct (Nat.eqb_spec d 2) as [->|N2]; [reflexivity|]. destruct (Nat.ltb_spec d 15) as [L15|L15].
    - cbn [otherwise]. destruct d as [|[|d]]; try lia. reflexivity.
    - destruct (Nat.leb_spec (3 * h) b); [lia|]. cbn [andb otherwise].
      destruct (Nat.ltb_spec b (10 * h)); [|lia]. destruct (Nat.ltb_spec (20 * d) b); [|lia]. destruct (Nat.ltb_spec 1 d); [|lia].
      destruct (Nat.ltb_spec d 100); [|lia]. cbn [andb]. destruct d as [|[|d]]; try lia. reflexivity.
  Qed.

  Lemma noise : forall depth t b, 14 <= depth -> unmarked t -> i_budget (t_info t) = Some b ->
    i_continuous (t_info t) = true -> i_disc (t_info t) = false -> i_metrizable (t_info t) = true -> i_det (t_info t) = false ->
    start cv el depth CSEC11 t = Ok [(ATBPSA, i_workers (t_info t))].
  Proof.
    intros depth t b Hd (R & C) B Fc Di Me De. apply start_mono with 14; [exact Hd|].
    assert (Hn : has_noise (t_info t) = true) by (unfold has_noise; now rewrite De, andb_false_r).
    assert (Qi : quiet (t_info t) = false) by (unfold quiet; now rewrite Hn, andb_false_r).
    assert (A : alone (t_info t) = false) by (unfold alone; now rewrite Qi).
    assert (Da : discrete_array t = false) by (unfold discrete_array; rewrite Fc; now rewrite andb_false_r).
    assert (K : forall f, pick_table f t = Ng VBase).
    { intros f. unfold pick_table, arrays, when, last_part. rewrite Da, A, Hn, Di, Me. reflexivity. }
    assert (P : tpick cv el CSEC11 t = Ok (Plain (Ng VBase))).
    { cbn [tpick]. unfold pick_csec1x. rewrite B, Da, R, C, A, Qi, !andb_false_r. cbn [andb negb].
      unfold pick_ds2, pick_ds, pick_ioh21, pick_large, arrays, when. rewrite Da, Qi, !K. cbn [otherwise]. now destruct (with_budget _ _). }
    unfold start. rewrite P. cbn [bind]. rewrite B. change 14 with (Datatypes.S 13). rewrite create_ng.
    unfold pick, pick_base, real_noise. cbn [inner i_budget i_disc i_det i_continuous i_workers]. rewrite De, Fc, Di, andb_false_r. reflexivity.
  Qed.
End WithVars.

(** direct search *)
Fixpoint nods (o : opt) : bool :=
  match o with
  | Leaf ADSproba => false
  | Leaf _ => true
  | Ng VDSBase => false
  | Ng _ => true
  | Chain _ _ os => forallb nods os
  | Mix os _ => forallb nods os
  | Meta _ (Some o) => nods o
  | Meta _ None => true
  | Scaled o => nods o
  | CMandAS2 => true
  end.
Lemma nods_repeat : forall o n, nods o = true -> forallb nods (repeat o n) = true.
Proof. intros o n H. induction n; [reflexivity|]. cbn. now rewrite H. Qed.
Ltac dig E := repeat (match type of E with
  | (if ?c then _ else _) = Ok _ => destruct c
  | match ?c with Some _ => _ | None => _ end = Ok _ => destruct c
  | Err _ = Ok _ => discriminate E
  | Ok _ = Ok _ => injection E as <-; try reflexivity; try (cbn; repeat match goal with |- context [if ?c then _ else _] => destruct c end; reflexivity); try (cbn; apply nods_repeat; reflexivity)
  end).
Section Nods.
  Variable cv : nat -> nat.
  Lemma n_meta : forall i o, pick_metacma i = Ok o -> nods o = true.
  Proof. intros i o E. unfold pick_metacma in E. dig E. Qed.
  Lemma n4 : forall i o, pick4 i = Ok o -> nods o = true.
  Proof. intros i o E. unfold pick4 in E. dig E. Qed.
  Lemma n8 : forall i o, pick8 i = Ok o -> nods o = true.
  Proof. intros i o E. unfold pick8 in E. dig E; eapply n4, E. Qed.
  Lemma n10 : forall i o, pick10 i = Ok o -> nods o = true.
  Proof. intros i o E. unfold pick10 in E. dig E; eapply n8, E. Qed.
  Lemma n12 : forall i o, pick12 cv i = Ok o -> nods o = true.
  Proof. intros i o E. unfold pick12 in E. dig E; eapply n10, E. Qed.
  Lemma n15 : forall i o, pick15 cv i = Ok o -> nods o = true.
  Proof. intros i o E. unfold pick15 in E. dig E; eapply n12, E. Qed.
  Lemma n16 : forall i o, pick16 cv i = Ok o -> nods o = true.
  Proof. intros i o E. unfold pick16 in E. dig E; eapply n15, E. Qed.
  Lemma n39b : forall i r o, (forall o, r = Ok o -> nods o = true) -> pick39_bounded cv r i = Ok o -> nods o = true.
  Proof. intros i r o H E. unfold pick39_bounded in E. cbv zeta in E. dig E; apply H, E. Qed.
  Lemma n39 : forall i o, pick39 cv i = Ok o -> nods o = true.
  Proof. intros i o E. unfold pick39 in E. dig E. eapply n39b; [|exact E]. intros ? [= <-]. reflexivity. Qed.
  Lemma pick_nods : forall v i o, v <> VDSBase -> pick cv v i = Ok o -> nods o = true.
  Proof.
    intros v i o V E. destruct v; try (now elim V); cbn [pick] in E;
      eauto using n_meta, n4, n8, n10, n12, n15, n16, n39.
    all: clear V.
    - unfold pick_base in E. dig E.
    - unfold pick_shiwa in E. dig E; eauto using n_meta, n4, n8, n10, n12, n15, n16, n39.
    - unfold pick13 in E. dig E; eauto using n_meta, n4, n8, n10, n12, n15, n16, n39.
    - unfold pick14 in E. dig E; eauto using n_meta, n4, n8, n10, n12, n15, n16, n39.
    - unfold pick21, pick_restarts in E. dig E; eauto using n16.
    - unfold pick36, pick_restarts in E. dig E; eauto using n16.
    - unfold pick38 in E. cbv zeta in E. dig E; eauto using n16.
    - unfold pickRW in E. dig E; eauto using n39. apply bind_ok in E as (x & Ex & [= <-]). cbn. now rewrite (n39 _ _ Ex).
    - unfold pick_wiz in E. cbv zeta in E. dig E. eapply n39b; [|exact E]. apply n16.
  Qed.
  Lemma zip_nods : forall f os is l, (forall o i l, In o os -> f o i = Ok l -> forall w, ~ In (ADSproba, w) l) ->
    zip_create f os is = Ok l -> forall w, ~ In (ADSproba, w) l.
  Proof.
    intros f os. induction os as [|o os IH]; intros is l H E w; cbn in E; destruct is as [|i is]; try discriminate E.
    - injection E as <-. intros [].
    - apply bind_ok in E as (l1 & E1 & E). apply bind_ok in E as (l2 & E2 & [= <-]). intros I. apply in_app_or in I as [I|I].
      + exact (H o i l1 (or_introl eq_refl) E1 w I).
      + refine (IH is l2 _ E2 w I). intros o' i' l' J. apply H. now right.
  Qed.
  Lemma create_nods : forall k o i l, nods o = true -> create cv k o i = Ok l -> forall w, ~ In (ADSproba, w) l.
  Proof.
    induction k as [|k IH]; intros o i l N E w; [discriminate E|]. destruct o as [a|v|np ps os|os wu|np [o|]|o|]; cbn [create] in E.
    - destruct (_ && _); [discriminate E|]. injection E as <-. intros [[= ->]|[]]. discriminate N.
    - apply bind_ok in E as (o & Po & E). eapply IH; [|exact E]. eapply pick_nods; [|exact Po]. intros ->. discriminate N.
    - eapply zip_nods; [|exact E]. intros o j l' I E' w'. eapply IH; [|exact E']. cbn in N. rewrite forallb_forall in N. exact (N o I).
    - apply bind_ok in E as (su & Es & E). eapply zip_nods; [|exact E]. intros o j l' I E' w'. eapply IH; [|exact E']. cbn in N. rewrite forallb_forall in N. exact (N o I).
    - eapply IH; [|exact E]. exact N.
    - eapply IH; [|exact E]. now destruct (1 <? _).
    - eapply IH; [|exact E]. exact N.
    - apply bind_ok in E as (o & Po & E). eapply IH; [|exact E]. unfold pick_as2 in Po. dig Po.
  Qed.
End Nods.
Definition onods (x : option opt) : Prop := match x with Some o => nods o = true | None => True end.
Ltac digg := repeat match goal with |- onods (if ?c then _ else _) => destruct c | |- nods (if ?c then _ else _) = true => destruct c end; try exact I; try reflexivity.
Lemma onods_first : forall x y, onods x -> onods y -> onods (first x y).
Proof. intros [o|] y H K; assumption. Qed.
Lemma otherwise_nods : forall x o, onods x -> nods o = true -> nods (otherwise x o) = true.
Proof. intros [x|] o H K; assumption. Qed.
Lemma arrays_nods : forall t o, nods o = true -> nods (arrays t o) = true.
Proof. intros t o H. unfold arrays. now destruct (discrete_array t). Qed.
Lemma when_nods : forall c i f, (forall d b, onods (f d b)) -> onods (when c i f).
Proof. intros c i f H. unfold when. destruct c; [|exact I]. destruct (i_budget i); [apply H|exact I]. Qed.
Lemma last_nods : forall c two i, nods two = true -> nods (last_part c two i) = true.
Proof. intros c two i H. unfold last_part. digg; exact H. Qed.
Lemma carolas_nods : forall t, nods (pick_table carolas t) = true.
Proof.
  intros t. unfold pick_table. apply arrays_nods, otherwise_nods; [|now apply last_nods].
  apply when_nods. intros d b. repeat apply onods_first; unfold by_dimension, wide, large, small; digg.
Qed.
Lemma ioh21_nods : forall t, nods (pick_ioh21 t) = true.
Proof. intros t. unfold pick_ioh21, pick_large. apply arrays_nods, otherwise_nods; [|apply carolas_nods]. apply when_nods. intros d b. digg. Qed.

Lemma few_table : forall f d b, 1 <= d -> b <= d ->
  first (by_dimension f d b) (first (wide f d b) (first (large f d b) (small f d b))) = if (d <? 50) && (30 <? d) then Some (f_chain f) else None.
Proof.
  intros f d b D B. unfold by_dimension, wide, large, small. destruct (hundreds d) as (E3 & _ & _ & E30). rewrite E3, E30. clear E3 E30.
  destruct (Nat.ltb_spec (3 * (100 * d)) b); [lia|]. destruct (Nat.ltb_spec (30 * (100 * d)) b); [lia|].
  destruct (Nat.ltb_spec b (30 * d)); [|lia]. destruct (Nat.leb_spec (30 * d) b); [lia|]. destruct (Nat.leb_spec (3 * (100 * d)) b); [lia|]. cbn [andb first].
  destruct (_ && _); reflexivity.
Qed.
Lemma direct_search : forall cv el depth t b, 14 <= depth -> 1 <= i_dim (t_info t) -> 1 <= i_workers (t_info t) -> i_budget (t_info t) = Some b ->
  if quiet (t_info t) && (i_workers (t_info t) =? 1) && (b <=? i_dim (t_info t)) && (30 <? i_dim (t_info t)) && (i_dim (t_info t) <? 50)
  then start cv el depth NgDS2 t = Ok [(ADSproba, 1); (ASQP, 1)]
  else forall l w, start cv el depth NgDS2 t = Ok l -> ~ In (ADSproba, w) l.
Proof.
  intros cv el depth t b Hd D W B. unfold start. cbn [tpick bind].
  assert (N : nods (pick_ds2 t) = true -> forall l w, create cv depth (pick_ds2 t) (inner (i_budget (t_info t)) (i_workers (t_info t)) (t_info t)) = Ok l -> ~ In (ADSproba, w) l).
  { intros N l w E. eapply create_nods; eassumption. }
  unfold pick_ds2 in *. unfold with_budget in *. rewrite B in *.
  destruct (Nat.ltb_spec (i_dim (t_info t)) b) as [L|L].
  - destruct (Nat.leb_spec b (i_dim (t_info t))); [lia|]. rewrite andb_false_r. cbn [andb]. apply N, ioh21_nods.
  - destruct (Nat.leb_spec b (i_dim (t_info t))) as [_|]; [|lia]. rewrite andb_true_r.
    assert (P : pick_ds t = arrays t (otherwise (if alone (t_info t) && ((i_dim (t_info t) <? 50) && (30 <? i_dim (t_info t))) then Some chain_meta_ds_sqp else None)
                (last_part false ds2 (t_info t)))).
    { unfold pick_ds, pick_large, pick_table, when. rewrite B. destruct (hundreds (i_dim (t_info t))) as (_ & _ & E20 & _). rewrite E20. clear E20 N.
      destruct (Nat.ltb_spec (20 * (100 * i_dim (t_info t))) b); [lia|]. rewrite few_table by assumption.
      unfold arrays. destruct (discrete_array t); [reflexivity|]. destruct (quiet (t_info t)); cbn [otherwise]; destruct (alone (t_info t)); reflexivity. }
    rewrite P in *. clear P. fold (alone (t_info t)).
    assert (La : nods (last_part false ds2 (t_info t)) = true).
    { unfold last_part, with_budget. rewrite B. destruct (hundreds (i_dim (t_info t))) as (_ & E10 & _ & _). rewrite E10.
      clear E10 N. destruct (Nat.ltb_spec (20 * i_dim (t_info t)) b); destruct (Nat.leb_spec (10 * (100 * i_dim (t_info t))) b); try lia.
      rewrite !andb_false_r. cbn [andb]. digg. }
    destruct (alone (t_info t)) eqn:A; cbn [andb]; [|apply N, arrays_nods; exact La].
    destruct (30 <? _) eqn:D30, (_ <? 50) eqn:D50; cbn [andb otherwise] in *; try (apply N, arrays_nods; exact La).
    assert (Fc : i_continuous (t_info t) = true).
    { unfold alone, quiet in A. now destruct (i_continuous (t_info t)). }
    unfold arrays, discrete_array. rewrite Fc, andb_false_r. cbn [andb negb]. rewrite (alone_one _ A).
    apply create_mono with 14; [exact Hd|]. destruct t as [[bu nw d dp de co di ar me ob bo] ta tr th tn tc te]. reflexivity.
Qed.

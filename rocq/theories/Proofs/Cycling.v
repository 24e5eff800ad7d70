(** Lemmas about the team pursuit. *)
From Coq Require Import Bool Arith List ZArith QArith Lia Lqa Sorting.Permutation.
From Verif Require Import Model.Prelude Model.MultiValue Model.Cycling Spec.Cycling Proofs.MultiValue.
Import ListNotations.
Open Scope nat_scope.
Open Scope list_scope.

Lemma set_nth_length {A} i (x : A) l : List.length (set_nth i x l) = List.length l.
Proof.
  unfold set_nth. rewrite app_length. rewrite <- (firstn_skipn i l) at 3. rewrite app_length. f_equal. now destruct (skipn i l).
Qed.
Lemma set_nth_map {A B} (f : A -> B) i x l : map f (set_nth i x l) = set_nth i (f x) (map f l).
Proof.
  unfold set_nth. rewrite map_app, firstn_map, skipn_map. f_equal. now destruct (skipn i l).
Qed.
Lemma set_nth_same {A} i (x : A) l : nth_error l i = Some x -> set_nth i x l = l.
Proof.
  unfold set_nth. revert i. induction l as [|y l IH]; intros [|i]; cbn; try easy; [congruence|]. intros E. f_equal. now apply IH.
Qed.
Lemma set_nth_error {A} i (x : A) l j : nth_error (set_nth i x l) j =
  if j =? i then match nth_error l i with Some _ => Some x | None => None end else nth_error l j.
Proof.
  unfold set_nth. revert i j. induction l as [|y l IH]; intros [|i] [|j]; cbn; try easy; try (now destruct (j =? i)).
Qed.

(** ** Formations, by enumeration of the cyclic orders *)
Definition bases (men : bool) : list (list nat) :=
  if men then
    [[1;2;3;4]; [4;1;2;3]; [3;4;1;2]; [2;3;4;1];
     [0;1;2;3]; [0;3;1;2]; [0;2;3;1]; [1;0;2;3]; [3;0;1;2]; [2;0;3;1];
     [1;2;0;3]; [3;1;0;2]; [2;3;0;1]; [1;2;3;0]; [3;1;2;0]; [2;3;1;0]]
  else [[1;2;3]; [3;1;2]; [2;3;1]].
Fixpoint masks (n : nat) : list (list bool) :=
  match n with 0 => [[]] | S m => map (cons true) (masks m) ++ map (cons false) (masks m) end.
Lemma masks_in l : In l (masks (List.length l)).
Proof. induction l as [|[] l IH]; cbn; [now left| |]; apply in_or_app; [left|right]; now apply in_map. Qed.
(** no rider left at position 0 has energy *)
Definition fits (al : list bool) (b : list nat) : bool := forallb (fun ap => negb (fst ap : bool) || (0 <? snd ap)) (combine al b).
Definition list_eqb (a b : list nat) : bool := if list_eq_dec Nat.eq_dec a b then true else false.
Definition startable (men : bool) (k : nat) : bool := if men then 3 <=? k else k =? 3.
Fixpoint nins (x : nat) (l : list nat) : list nat := match l with [] => [x] | y :: l' => if x <=? y then x :: l else y :: nins x l' end.
Lemma nins_perm x l : Permutation (x :: l) (nins x l).
Proof. induction l as [|y l IH]; cbn; [easy|]. destruct (x <=? y); [easy|]. rewrite <- IH. apply perm_swap. Qed.
Lemma nsort_perm l : Permutation l (fold_right nins [] l).
Proof. induction l as [|x l IH]; cbn; [easy|]. rewrite <- nins_perm. now apply perm_skip. Qed.
Lemma bases_formation men b : In b (bases men) -> exists k, 3 <= k /\ formation k b.
Proof.
  intros I. exists (List.length (filter (fun p => 0 <? p) b)).
  assert (T : forallb (fun b => let f := filter (fun p => 0 <? p) b in
     (3 <=? List.length f) && list_eqb (fold_right nins [] f) (seq 1 (List.length f))) (bases men) = true) by (destruct men; vm_compute; reflexivity).
  rewrite forallb_forall in T. specialize (T b I). cbv zeta in T. apply andb_prop in T as [T1 T2]. apply Nat.leb_le in T1. split; [easy|].
  unfold list_eqb in T2. unfold formation. destruct (list_eq_dec _ _ _) as [E|]; [|easy]. rewrite <- E. apply nsort_perm.
Qed.
Definition start_positions (men go : bool) (al : list bool) (ps : list nat) : list nat :=
  let ps := if men && (count_alive al =? 3) then validate_order ps else ps in if go then transition al ps else ps.
Lemma start_table men go al b : In b (bases men) -> List.length al = List.length b -> fits al b = true ->
  startable men (count_alive al) = true ->
  let ps := start_positions men go al (mask al b) in
  In ps (bases men) /\ fits al ps = true /\ (exists li, leader ps = Some li) /\
  (exists k, 3 <= k /\ formation k ps).
Proof.
  intros I L F K.
  assert (T : forallb (fun b => forallb (fun al => implb (fits al b && startable men (count_alive al))
      (let ps := start_positions men go al (mask al b) in
       existsb (list_eqb ps) (bases men) && fits al ps && match leader ps with Some _ => true | None => false end))
      (masks (List.length b))) (bases men) = true) by (destruct men, go; vm_compute; reflexivity).
  rewrite forallb_forall in T. specialize (T b I). rewrite forallb_forall in T.
  specialize (T al). rewrite <- L in T. specialize (T (masks_in al)). rewrite F, K in T. cbn [andb implb] in T.
  cbv zeta in *. set (ps := start_positions men go al (mask al b)) in *.
  apply andb_prop in T as [T T3]. apply andb_prop in T as [T1 T2].
  apply existsb_exists in T1 as (b' & Ib & E). unfold list_eqb in E. destruct (list_eq_dec Nat.eq_dec ps b'); [|easy]. subst b'.
  split; [easy|]. split; [easy|]. split; [destruct (leader ps) as [li|]; [now exists li|easy]|].
  exact (bases_formation men ps Ib).
Qed.
Lemma bases_bound men b p : In b (bases men) -> In p b -> p <= 4.
Proof. intros I J. destruct men; cbn in I; repeat (destruct I as [<-|I]; [cbn in J; lia|]); easy. Qed.
Lemma bases_length men b : In b (bases men) -> List.length b = if men then 4 else 3.
Proof. intros I. destruct men; cbn in I; repeat (destruct I as [<-|I]; [easy|]); easy. Qed.
Lemma leader_from_spec i ps li : leader_from i ps = Some li -> exists j, li = i + j /\ nth_error ps j = Some 1.
Proof.
  revert i. induction ps as [|p ps IH]; intros i; cbn; [easy|]. destruct (Nat.eqb_spec p 1).
  - intros [= <-]. exists 0. split; [lia|]. cbn. congruence.
  - intros H. apply IH in H as (j & -> & H). exists (S j). split; [lia|easy].
Qed.

Section Race.
  Variable V : Type.
  Variable v0 : V.
  Variable pace_motion : V -> nat -> Q -> result (Q * V).
  Variable follow_motion : V -> nat -> Q -> Q -> result (Q * V).
  Notation rider := (rider V).
  Notation sim := (sim V).
  Notation ride := (ride V pace_motion follow_motion).
  Notation follow_all := (follow_all V follow_motion).
  Notation segments := (segments V pace_motion follow_motion).

  Lemma place_positions ps (team : list rider) : List.length ps = List.length team -> positions V (place V ps team) = ps.
  Proof.
    unfold positions, place. revert ps. induction team as [|r team IH]; intros [|p ps]; cbn; intros L; try easy.
    f_equal. apply IH. lia.
  Qed.
  Lemma place_alive ps (team : list rider) : List.length ps = List.length team -> alive V (place V ps team) = alive V team.
  Proof.
    unfold alive, place. revert ps. induction team as [|r team IH]; intros [|p ps]; cbn; intros L; try easy.
    f_equal. apply IH. lia.
  Qed.
  Lemma place_fatigue ps (team : list rider) : List.length ps = List.length team -> map (r_fatigue V) (place V ps team) = map (r_fatigue V) team.
  Proof.
    unfold place. revert ps. induction team as [|r team IH]; intros [|p ps]; cbn; intros L; try easy.
    f_equal. apply IH. lia.
  Qed.
  Lemma mask_length al ps : List.length al = List.length ps -> List.length (mask al ps) = List.length ps.
  Proof. intros L. unfold mask. rewrite map_length, combine_length. lia. Qed.
  Lemma mask_mask al ps : mask al (mask al ps) = mask al ps.
  Proof. unfold mask. revert ps. induction al as [|[] al IH]; intros [|p ps]; cbn; try easy; now rewrite IH. Qed.
  Lemma pos_length (team : list rider) : List.length (positions V team) = List.length team. Proof. apply map_length. Qed.
  Lemma alive_length (team : list rider) : List.length (alive V team) = List.length team. Proof. apply map_length. Qed.

  (** the invariant between segments *)
  Definition inv (men : bool) (team : list rider) : Prop :=
    exists b, In b (bases men) /\ List.length team = List.length b /\ fits (alive V team) b = true /\
      mask (alive V team) (positions V team) = mask (alive V team) b.

  (** what the riding of a segment keeps *)
  Definition kept (a b : list rider) : Prop :=
    Forall2 (fun r r' => r_pos V r' = r_pos V r /\ r_fatigue V r' = r_fatigue V r /\ (r_pos V r = 0 -> r_energy V r' = r_energy V r)) a b.
  Lemma kept_refl a : kept a a.
  Proof. induction a; constructor; auto. Qed.
  Lemma kept_trans a b c : kept a b -> kept b c -> kept a c.
  Proof.
    intros H. revert c. induction H as [|x y a b (H1 & H2 & H3) H IH]; intros c G; inversion G as [|? z ? ? (G1 & G2 & G3) G']; subst; constructor.
    - split; [congruence|]. split; [congruence|]. intros Z. rewrite G3 by congruence. auto.
    - now apply IH.
  Qed.
  Lemma kept_positions a b : kept a b -> positions V b = positions V a.
  Proof. unfold positions. induction 1 as [|x y a b (H1 & _) H IH]; cbn; [easy|]. now rewrite H1, IH. Qed.
  Lemma kept_fatigue a b : kept a b -> map (r_fatigue V) b = map (r_fatigue V) a.
  Proof. induction 1 as [|x y a b (_ & H1 & _) H IH]; cbn; [easy|]. now rewrite H1, IH. Qed.
  Lemma follow_all_kept d team team' : follow_all d team = Ok team' -> kept team team'.
  Proof.
    revert team'. induction team as [|r team IH]; intros team'; cbn [Cycling.follow_all]; [intros [= <-]; constructor|].
    destruct (Nat.ltb_spec 1 (r_pos V r)).
    - unfold follow. destruct (nth_error _ _); [|easy]. destruct (follow_motion _ _ _ _) as [[p v]|e]; cbn; [|easy].
      destruct (Cycling.follow_all _ _ d team) as [t|e] eqn:E; cbn; [|easy]. intros [= <-]. constructor; [|now apply IH]. cbn. repeat split; auto. lia.
    - cbn. destruct (Cycling.follow_all _ _ d team) as [t|e] eqn:E; cbn; [|easy]. intros [= <-]. constructor; [|now apply IH]. auto.
  Qed.
  Lemma set_nth_kept li l l' team : nth_error team li = Some l -> r_pos V l' = r_pos V l -> r_fatigue V l' = r_fatigue V l ->
    r_pos V l <> 0 -> kept team (set_nth li l' team).
  Proof.
    unfold set_nth. revert li. induction team as [|r team IH]; intros [|li]; cbn; try easy.
    - intros [= ->] A B C. constructor; [split; [easy|]; split; [easy|]; intros H; now elim C|apply kept_refl].
    - intros E A B C. constructor; [auto|]. now apply IH.
  Qed.
  Lemma ride_kept fuel li power dist rid time team t team' :
    ride fuel li power dist rid time team = Ok (t, team') -> nth_error (positions V team) li = Some 1 -> kept team team'.
  Proof.
    revert rid time team. induction fuel as [|f IH]; intros rid time team; cbn; (destruct (qlt rid dist); [|intros [= <- <-] _; apply kept_refl]); [easy|].
    intros H P. unfold positions in P. rewrite nth_error_map in P. destruct (nth_error team li) as [l|] eqn:El; [|easy]. cbn in P. injection P as P.
    unfold set_pace in H. destruct (pace_motion _ _ _) as [[d v]|e]; cbn in H; [|easy].
    destruct (follow_all d _) as [team1|e] eqn:Ef; cbn in H; [|easy].
    apply follow_all_kept in Ef.
    assert (K : kept team team1).
    { eapply kept_trans; [|exact Ef]. eapply set_nth_kept; [exact El| | |]; cbn; auto. lia. }
    eapply kept_trans; [exact K|]. apply (IH _ _ _ H). rewrite (kept_positions _ _ K). unfold positions. rewrite nth_error_map, El. cbn. now rewrite P.
  Qed.
  (** the errors of a segment come from the motions or from the fuel *)
  Definition harmless (e : exn) : Prop := e = OutOfFuel \/ (exists v f p, pace_motion v f p = Err e) \/ exists v f c d, follow_motion v f c d = Err e.
  Lemma follow_all_err d team e : Forall (fun p => p <= 4) (positions V team) -> follow_all d team = Err e -> harmless e.
  Proof.
    induction team as [|r team IH]; cbn [Cycling.follow_all positions map]; [easy|]. intros F. apply Forall_cons_iff in F as [F1 F2].
    destruct (Nat.ltb_spec 1 (r_pos V r)).
    - unfold follow. destruct (nth_error drafting_coefficients _) as [c|] eqn:E.
      + destruct (follow_motion _ _ _ _) as [[p v]|e'] eqn:Ef; cbn.
        * destruct (Cycling.follow_all _ _ d team) as [t|e'] eqn:E'; cbn; [easy|]. intros [= <-]. now apply IH.
        * intros [= <-]. right; right. eauto.
      + apply nth_error_None in E. cbn in E. lia.
    - cbn. destruct (Cycling.follow_all _ _ d team) as [t|e'] eqn:E'; cbn; [easy|]. intros [= <-]. now apply IH.
  Qed.
  Lemma ride_err fuel li power dist rid time team e :
    ride fuel li power dist rid time team = Err e -> nth_error (positions V team) li = Some 1 -> Forall (fun p => p <= 4) (positions V team) -> harmless e.
  Proof.
    revert rid time team. induction fuel as [|f IH]; intros rid time team; cbn; (destruct (qlt rid dist); [|easy]); [intros [= <-] _ _; now left|].
    intros H P F. pose proof P as P'. unfold positions in P. rewrite nth_error_map in P. destruct (nth_error team li) as [l|] eqn:El; [|easy]. cbn in P. injection P as P.
    unfold set_pace in H. destruct (pace_motion _ _ _) as [[d v]|e'] eqn:Ep; cbn in H; [|injection H as <-; right; left; eauto].
    match type of El with nth_error team li = Some l => set (l' := Rider V (r_start V l) (r_total V l) (r_pos V l) (burn (r_energy V l) power) (r_fatigue V l) v) in H end.
    assert (K : kept team (set_nth li l' team)) by (eapply set_nth_kept; [exact El| | |]; cbn; auto; lia).
    destruct (follow_all d _) as [team1|e'] eqn:Ef; cbn in H.
    - apply follow_all_kept in Ef. apply (IH _ _ _ H); rewrite (kept_positions _ _ Ef), (kept_positions _ _ K); easy.
    - injection H as <-. apply (follow_all_err d _ _) in Ef; [easy|]. rewrite (kept_positions _ _ K). easy.
  Qed.
  Lemma ride_time fuel li power dist rid time team t team' :
    ride fuel li power dist rid time team = Ok (t, team') -> (time <= t)%Q /\ ((rid < dist)%Q -> (time < t)%Q).
  Proof.
    revert rid time team. induction fuel as [|f IH]; intros rid time team; cbn; destruct (qlt rid dist) eqn:E; try easy.
    - apply qlt_false in E. intros [= <- <-]. split; [lra|]. intros H. lra.
    - destruct (nth_error team li) as [l|]; [|easy]. unfold set_pace. destruct (pace_motion _ _ _) as [[d v]|e']; cbn; [|easy].
      destruct (follow_all d _) as [team1|e']; cbn; [|easy]. intros H. apply IH in H as [H _]. split; [lra|]. intros _. lra.
    - apply qlt_false in E. intros [= <- <-]. split; [lra|]. intros H. lra.
  Qed.

  Lemma fits_kept a b ps : kept a b -> positions V a = ps -> fits (alive V a) ps = true -> fits (alive V b) ps = true.
  Proof.
    intros K <-. unfold fits, alive, positions. induction K as [|x y a b (H1 & H2 & H3) K IH]; cbn [map combine forallb fst snd]; [easy|]. intros F.
    apply andb_prop in F as [F1 F2]. rewrite IH by easy. rewrite andb_true_r.
    destruct (r_pos V x) as [|p] eqn:E; [|now rewrite orb_true_r].
    change (0 <? 0) with false in *. rewrite orb_false_r in *. unfold has_energy in *. now rewrite H3.
  Qed.
  Lemma tire_positions li (team : list rider) : positions V (tire V li team) = positions V team.
  Proof.
    unfold tire, positions. rewrite map_map.
    assert (R : forall r : rider, r_pos V (recover V r) = r_pos V r) by (intros r; unfold recover; now destruct (1 <? r_pos V r)).
    rewrite (map_ext _ (r_pos V) R). destruct (nth_error team li) as [l|] eqn:E; [|easy].
    rewrite set_nth_map. cbn. apply set_nth_same. now rewrite nth_error_map, E.
  Qed.
  Lemma tire_alive li (team : list rider) : alive V (tire V li team) = alive V team.
  Proof.
    unfold tire, alive. rewrite map_map.
    assert (R : forall r : rider, has_energy V (recover V r) = has_energy V r) by (intros r; unfold recover; now destruct (1 <? r_pos V r)).
    rewrite (map_ext _ (has_energy V) R). destruct (nth_error team li) as [l|] eqn:E; [|easy].
    rewrite set_nth_map. apply set_nth_same. rewrite nth_error_map, E. easy.
  Qed.
  Lemma tire_fatigue li m (team : list rider) : Forall (fun f => f <= m) (map (r_fatigue V) team) ->
    Forall (fun f => f <= m + 2) (map (r_fatigue V) (tire V li team)).
  Proof.
    intros F. unfold tire. rewrite map_map. rewrite Forall_forall in *. intros f I. apply in_map_iff in I as (r & <- & I).
    assert (R : r_fatigue V (recover V r) <= r_fatigue V r) by (unfold recover; destruct (1 <? r_pos V r); cbn; lia).
    assert (B : r_fatigue V r <= m + 2); [|lia].
    destruct (nth_error team li) as [l|] eqn:E.
    - apply In_nth_error in I as [j I]. rewrite set_nth_error, E in I. destruct (j =? li).
      + injection I as <-. cbn. assert (r_fatigue V l <= m) by (apply F; apply in_map; eapply nth_error_In; eauto). lia.
      + assert (r_fatigue V r <= m) by (apply F; apply in_map; eapply nth_error_In; eauto). lia.
    - assert (r_fatigue V r <= m) by (apply F; now apply in_map). lia.
  Qed.
  Lemma inv_remaining men team :
    (exists b, In b (bases men) /\ positions V team = b /\ fits (alive V team) b = true) -> inv men (snd (remaining V team)).
  Proof.
    intros (b & I & E & F). exists b. cbn [snd remaining].
    assert (L : List.length (mask (alive V team) (positions V team)) = List.length team)
      by (rewrite mask_length; rewrite ?alive_length, ?pos_length; easy).
    split; [easy|]. split.
    - unfold place. rewrite map_length, combine_length, L. rewrite <- E, pos_length. lia.
    - rewrite place_alive, place_positions by easy. rewrite mask_mask, E. easy.
  Qed.

  (** one segment which starts: the positions, the errors and the invariant *)
  Definition started (men : bool) (tr : list bool) (i : nat) (team0 : list rider) : list rider :=
    let (k, team) := remaining V team0 in
    let team := if men && (k =? 3) then place V (validate_order (positions V team)) team else team in
    if takes tr i then place V (transition (alive V team) (positions V team)) team else team.
  Lemma validate_length ps : List.length (validate_order ps) = List.length ps.
  Proof.
    unfold validate_order. generalize (seq 0 (List.length ps)). intros l. revert ps. induction l as [|i l IH]; intros ps; cbn; [easy|].
    rewrite IH. unfold validate_at. destruct (nth i ps 0 =? 4); [|easy]. cbv zeta.
    destruct (_ =? 0); [now rewrite !set_nth_length|]. destruct (_ =? 0); now rewrite !set_nth_length.
  Qed.
  Lemma transition_length al ps : List.length al = List.length ps -> List.length (transition al ps) = List.length ps.
  Proof.
    unfold transition. generalize (seq 0 (List.length ps)). intros l. revert ps. induction l as [|i l IH]; intros ps L; cbn; [easy|].
    assert (E : List.length (transition_at al ps i) = List.length ps).
    { unfold transition_at. destruct (nth i ps 0) as [|[|p]]; rewrite ?set_nth_length, ?mask_length; easy. }
    rewrite IH; lia.
  Qed.
  Lemma started_spec (men : bool) tr i (team : list rider) : List.length team = (if men then 4 else 3) ->
    alive V (started men tr i team) = alive V team /\
    map (r_fatigue V) (started men tr i team) = map (r_fatigue V) team /\
    positions V (started men tr i team) = start_positions men (takes tr i) (alive V team) (mask (alive V team) (positions V team)).
  Proof.
    intros L. unfold started, start_positions, remaining. set (t1 := place V (mask (alive V team) (positions V team)) team).
    assert (L1 : List.length (mask (alive V team) (positions V team)) = List.length team) by (rewrite mask_length; now rewrite ?alive_length, ?pos_length).
    assert (A1 : alive V t1 = alive V team) by now apply place_alive.
    assert (P1 : positions V t1 = mask (alive V team) (positions V team)) by now apply place_positions.
    assert (F1 : map (r_fatigue V) t1 = map (r_fatigue V) team) by now apply place_fatigue.
    assert (Lt : List.length t1 = List.length team) by (rewrite <- (alive_length t1), A1; apply alive_length).
    clearbody t1. set (c := men && (count_alive (alive V team) =? 3)).
    set (t2 := if c then place V (validate_order (positions V t1)) t1 else t1).
    assert (Lv : List.length (validate_order (positions V t1)) = List.length t1) by now rewrite validate_length, pos_length.
    assert (A2 : alive V t2 = alive V team) by (unfold t2; destruct c; [now rewrite place_alive|easy]).
    assert (P2 : positions V t2 = if c then validate_order (mask (alive V team) (positions V team)) else mask (alive V team) (positions V team))
      by (unfold t2; destruct c; [rewrite place_positions by easy; now rewrite P1|easy]).
    assert (F2 : map (r_fatigue V) t2 = map (r_fatigue V) team) by (unfold t2; destruct c; [now rewrite place_fatigue|easy]).
    assert (Lt2 : List.length t2 = List.length team) by (rewrite <- (alive_length t2), A2; apply alive_length).
    clearbody t2. destruct (takes tr i); [|now rewrite <- P2].
    assert (L2 : List.length (transition (alive V t2) (positions V t2)) = List.length t2)
      by (rewrite transition_length; rewrite ?alive_length, ?pos_length; easy).
    rewrite place_alive, place_fatigue, place_positions by easy. rewrite A2, P2. auto.
  Qed.
  Lemma inv_length (men : bool) (team : list rider) : inv men team -> List.length team = if men then 4 else 3.
  Proof. intros (b & I & L & _). rewrite L. now apply bases_length. Qed.
  Lemma started_inv men tr i team : inv men team -> startable men (fst (remaining V team)) = true ->
    exists b li k, positions V (started men tr i team) = b /\ In b (bases men) /\ fits (alive V (started men tr i team)) b = true /\
      leader b = Some li /\ 3 <= k /\ formation k b.
  Proof.
    intros H K. pose proof (inv_length _ _ H) as L. destruct H as (b & I & Lb & F & M).
    destruct (started_spec men tr i team L) as (A & _ & P). cbn in K. rewrite M in P.
    destruct (start_table men (takes tr i) (alive V team) b I) as (T1 & T2 & (li & T3) & (k & T4 & T5)); [now rewrite alive_length|easy|easy|].
    rewrite <- P in *. rewrite A. now exists (positions V (started men tr i team)), li, k.
  Qed.

  (** a segment, seen from outside *)
  Lemma segments_cons men fuel n race tr i power rest s :
    segments men fuel n race tr i (power :: rest) s =
    if startable men (fst (remaining V (s_team V s))) then
      let team := started men tr i (s_team V s) in
      let time := if takes tr i then tplus (s_time V s) (12#100) else s_time V s in
      match leader (positions V team) with
      | None => Err AttributeError
      | Some li =>
          bind (ride fuel li power (segment_distance n i) 0 0 team) (fun tt =>
            let kt := remaining V (tire V li (snd tt)) in
            let log := s_log V s ++ [map (fun r => (r_pos V r, r_fatigue V r)) team] in
            segments men fuel n race tr (S i) rest
              (if 3 <=? fst kt
               then Sim V (snd kt) (tplus time (fst tt)) (s_prop V s + segment_distance n i / race)%Q (s_profile V s ++ [Some (segment_distance n i / fst tt)%Q]) log
               else Sim V (snd kt) None (s_prop V s) (s_profile V s ++ [None]) log))
      end
    else Ok (Sim V (snd (remaining V (s_team V s))) None (s_prop V s) (s_profile V s ++ repeat None (S (List.length rest))) (s_log V s)).
  Proof. reflexivity. Qed.

  Definition good_entry (i : nat) (e : list (nat * nat)) : Prop :=
    (exists k, 3 <= k /\ formation k (map fst e)) /\ Forall (fun pf => snd pf <= 2 * i) e.
  Definition good_log (l : list (list (nat * nat))) : Prop := forall i e, nth_error l i = Some e -> good_entry i e.
  Lemma good_log_snoc l e : good_log l -> good_entry (List.length l) e -> good_log (l ++ [e]).
  Proof.
    intros H G i x E. destruct (Nat.lt_ge_cases i (List.length l)).
    - rewrite nth_error_app1 in E by easy. now apply H.
    - rewrite nth_error_app2 in E by easy. destruct (i - List.length l) as [|j] eqn:D; [|now destruct j].
      cbn in E. injection E as <-. now replace i with (List.length l) by lia.
  Qed.
  Lemma entry_fatigue m (team : list rider) : Forall (fun f => f <= m) (map (r_fatigue V) team) ->
    Forall (fun pf => snd pf <= m) (map (fun r => (r_pos V r, r_fatigue V r)) team).
  Proof. rewrite !Forall_map. cbn. easy. Qed.

  (** the whole race: invariant, log and errors *)
  Lemma segments_inv men fuel n race tr pacing : forall i s, inv men (s_team V s) -> good_log (s_log V s) -> List.length (s_log V s) = i ->
    Forall (fun f => f <= 2 * i) (map (r_fatigue V) (s_team V s)) ->
    match segments men fuel n race tr i pacing s with
    | Ok s' => inv men (s_team V s') /\ good_log (s_log V s')
    | Err e => harmless e
    end.
  Proof.
    induction pacing as [|power rest IH]; intros i s I G L F; [now cbn|].
    rewrite segments_cons. destruct (startable men _) eqn:K.
    - destruct (started_inv men tr i _ I K) as (b & li & k & P & Ib & Fb & Lb & K3 & Fo). cbv zeta.
      destruct (started_spec men tr i (s_team V s) (inv_length _ _ I)) as (A & Fa & _).
      set (team := started men tr i (s_team V s)) in *. clearbody team. rewrite P, Lb.
      assert (P1 : nth_error (positions V team) li = Some 1).
      { rewrite P. apply leader_from_spec in Lb as (j & -> & E). easy. }
      destruct (ride fuel li power (segment_distance n i) 0 0 team) as [[t team1]|e] eqn:R; cbn [bind fst snd].
      + pose proof (ride_kept _ _ _ _ _ _ _ _ _ R P1) as Kt.
        assert (P2 : positions V (tire V li team1) = b) by (rewrite tire_positions, (kept_positions _ _ Kt); easy).
        assert (F2 : fits (alive V (tire V li team1)) b = true) by (rewrite tire_alive; now apply (fits_kept team)).
        assert (I2 : inv men (snd (remaining V (tire V li team1)))) by (apply inv_remaining; now exists b).
        assert (Fa2 : Forall (fun f => f <= 2 * S i) (map (r_fatigue V) (snd (remaining V (tire V li team1))))).
        { cbn [remaining snd]. rewrite place_fatigue by (rewrite mask_length; now rewrite ?alive_length, ?pos_length).
          replace (2 * S i) with (2 * i + 2) by lia. apply tire_fatigue. rewrite (kept_fatigue _ _ Kt), Fa. easy. }
        assert (G2 : good_log (s_log V s ++ [map (fun r => (r_pos V r, r_fatigue V r)) team])).
        { apply good_log_snoc; [easy|]. split.
          - exists k. split; [easy|]. rewrite map_map. change (formation k (positions V team)). now rewrite P.
          - rewrite L. apply entry_fatigue. now rewrite Fa. }
        assert (L2 : List.length (s_log V s ++ [map (fun r => (r_pos V r, r_fatigue V r)) team]) = S i) by (rewrite app_length; cbn; lia).
        destruct (3 <=? _); apply IH; cbn [s_team s_log]; easy.
      + apply (ride_err _ _ _ _ _ _ _ _ R P1). rewrite P, Forall_forall. intros p Hp. now apply (bases_bound men b).
    - cbn [s_team s_log]. split; [|easy].
      destruct I as (b & I & L' & Fb & M). exists b. cbn [snd remaining].
      assert (Lm : List.length (mask (alive V (s_team V s)) (positions V (s_team V s))) = List.length (s_team V s))
        by (rewrite mask_length; rewrite ?alive_length, ?pos_length; easy).
      split; [easy|]. split; [unfold place; rewrite map_length, combine_length, Lm; lia|].
      rewrite place_alive, place_positions by easy. rewrite mask_mask. easy.
  Qed.

  (** times, proportions and velocities *)
  Fixpoint taken (tr : list bool) (i : nat) (m : nat) : nat :=
    match m with 0 => 0 | S m' => (if takes tr i then 1 else 0) + taken tr (S i) m' end.
  Lemma length_of_pos n i : (0 < length_of n i)%Q.
  Proof. unfold length_of. destruct (i =? 0); [reflexivity|]. destruct (i =? n - 1); reflexivity. Qed.
  Lemma length_of_eq n i : (segment_distance n i == length_of n i)%Q.
  Proof. unfold segment_distance, length_of. destruct (i =? 0); cbn [orb]; [reflexivity|]. destruct (i =? n - 1); reflexivity. Qed.
  Lemma segments_time men fuel n race tr pacing : (0 < race)%Q -> forall i s s', segments men fuel n race tr i pacing s = Ok s' ->
    exists vs, s_profile V s' = s_profile V s ++ vs /\ List.length vs = List.length pacing /\
      (s_prop V s' == s_prop V s + ridden n i vs / race)%Q /\
      (s_time V s' = None <-> s_time V s = None \/ In None vs) /\
      forall t, s_time V s' = Some t -> exists t0 ws, s_time V s = Some t0 /\ vs = map Some ws /\ Forall (fun w => (0 < w)%Q) ws /\
        (t == t0 + riding_time n i ws + (12#100) * qnat (taken tr i (List.length pacing)))%Q.
  Proof.
    intros Rp. induction pacing as [|power rest IH]; intros i s s' H.
    - cbn in H. injection H as <-. exists []. rewrite app_nil_r. split; [easy|]. split; [easy|]. split; [cbn; field; lra|]. split; [cbn; tauto|].
      intros t E. exists t, []. split; [easy|]. split; [easy|]. split; [constructor|]. cbn. unfold qnat. cbn. ring.
    - rewrite segments_cons in H. destruct (startable men _).
      + cbv zeta in H. destruct (leader _) as [li|]; [|easy].
        destruct (ride fuel li power (segment_distance n i) 0 0 _) as [[t team1]|e] eqn:R; cbn [bind fst snd] in H; [|easy].
        apply ride_time in R as [_ R].
        assert (Ht : (0 < t)%Q) by (apply R; rewrite length_of_eq; apply length_of_pos). clear R.
        destruct (3 <=? _).
        * apply IH in H as (vs & E1 & E2 & E3 & E4 & E5). cbn [s_profile s_prop s_time] in *.
          exists (Some (segment_distance n i / t)%Q :: vs). rewrite <- app_assoc in E1. split; [easy|]. split; [cbn; lia|].
          split; [cbn [ridden]; rewrite E3, length_of_eq; field; lra|]. split.
          -- rewrite E4. cbn [In]. destruct (takes tr i); destruct (s_time V s); cbn; intuition discriminate.
          -- intros T ET. destruct (E5 T ET) as (t0 & ws & A & B & C & D).
             assert (Hp : (0 < segment_distance n i / t)%Q).
             { apply Qlt_shift_div_l; [easy|]. rewrite Qmult_0_l, length_of_eq. apply length_of_pos. }
             pose proof (length_of_pos n i) as Lp.
             assert (Q1 : (length_of n i / (segment_distance n i / t) == t)%Q) by (rewrite length_of_eq; field; split; lra).
             destruct (s_time V s) as [ts|] eqn:Es; [|destruct (takes tr i); discriminate].
             exists ts, ((segment_distance n i / t)%Q :: ws). split; [easy|]. split; [cbn; now rewrite B|]. split; [now constructor|].
             cbn [riding_time List.length taken]. rewrite D, Q1.
             destruct (takes tr i); cbn [tplus option_map] in A; injection A as <-; unfold qnat; rewrite Nat2Z.inj_add, inject_Z_plus; cbn; ring.
        * apply IH in H as (vs & E1 & E2 & E3 & E4 & E5). cbn [s_profile s_prop s_time] in *.
          exists (None :: vs). rewrite <- app_assoc in E1. split; [easy|]. split; [cbn; lia|].
          split; [cbn [ridden]; rewrite E3; field; lra|]. split; [cbn [In]; rewrite E4; tauto|].
          intros T ET. destruct (E5 T ET) as (t0 & ws & A & _). discriminate.
      + injection H as <-. cbn [s_profile s_prop s_time]. exists (repeat None (S (List.length rest))). split; [easy|].
        split; [now rewrite repeat_length|]. split; [|split].
        * assert (Z : forall m j, (ridden n j (repeat None m) == 0)%Q) by (induction m as [|m IHm]; intros j; cbn; [reflexivity|rewrite IHm; ring]).
          rewrite Z. field. lra.
        * cbn. tauto.
        * discriminate.
  Qed.

  (** fatigue *)
  Definition entry (team : list rider) : list (nat * nat) := map (fun r => (r_pos V r, r_fatigue V r)) team.
  Definition tired (e : nat * nat) (f : nat) : Prop := f = fatigue_after (fst e) (snd e).
  Lemma recover_tired (team : list rider) : (forall j, nth_error (positions V team) j <> Some 1) ->
    Forall2 tired (entry team) (map (r_fatigue V) (map (recover V) team)).
  Proof.
    induction team as [|r team IH]; intros U; cbn; constructor.
    - specialize (U 0). cbn in U. unfold tired, recover. cbn [fst snd]. destruct (r_pos V r) as [|[|p]] eqn:E; cbn; [lia|now elim U|reflexivity].
    - apply IH. intros j. apply (U (S j)).
  Qed.
  Lemma tire_tired : forall (team : list rider) li, nth_error (positions V team) li = Some 1 ->
    (forall j, nth_error (positions V team) j = Some 1 -> j = li) -> Forall2 tired (entry team) (map (r_fatigue V) (tire V li team)).
  Proof.
    induction team as [|r team IH]; intros [|li] P U; try easy; cbn in P.
    - injection P as P. unfold tire. cbn [nth_error set_nth firstn skipn app map entry]. constructor.
      + unfold tired, recover. cbn [fst snd with_fatigue r_pos]. rewrite P. cbn. lia.
      + apply recover_tired. intros j J. specialize (U (S j) J). discriminate.
    - assert (Hp : r_pos V r <> 1) by (intros E; specialize (U 0); cbn in U; rewrite E in U; specialize (U eq_refl); discriminate).
      assert (X : tire V (S li) (r :: team) = recover V r :: tire V li team).
      { unfold tire. cbn [nth_error]. destruct (nth_error team li); reflexivity. }
      rewrite X. cbn [map entry]. constructor.
      + unfold tired, recover. cbn [fst snd]. destruct (r_pos V r) as [|[|p]] eqn:E; cbn; [lia|easy|reflexivity].
      + apply IH; [exact P|]. intros j J. specialize (U (S j) J). lia.
  Qed.
  Lemma bases_unique men b j : In b (bases men) -> nth_error b j = Some 1 -> leader b = Some j.
  Proof. intros I. destruct men; cbn in I; repeat (destruct I as [<-|I]; [do 5 (destruct j as [|j]; [cbn; easy|]); destruct j; easy|]); easy. Qed.
  Definition chained (l : list (list (nat * nat))) : Prop :=
    forall i e e', nth_error l i = Some e -> nth_error l (S i) = Some e' -> Forall2 tired e (map snd e').
  Definition last_rel (l : list (list (nat * nat))) (fs : list nat) : Prop :=
    match rev l with [] => Forall (fun f => f = 0) fs | e :: _ => Forall2 tired e fs end.
  Definition starts_rested (l : list (list (nat * nat))) : Prop := forall e, nth_error l 0 = Some e -> Forall (fun pf => snd pf = 0) e.
  Lemma chained_snoc l (team : list rider) : chained l -> starts_rested l -> last_rel l (map (r_fatigue V) team) ->
    chained (l ++ [entry team]) /\ starts_rested (l ++ [entry team]).
  Proof.
    intros C S0 R. assert (M : map snd (entry team) = map (r_fatigue V) team) by (unfold entry; now rewrite map_map). split.
    - intros i e e' E E'. destruct (Nat.lt_ge_cases (S i) (List.length l)).
      + rewrite nth_error_app1 in E, E' by lia. now apply (C i).
      + rewrite nth_error_app2 in E' by lia. destruct (S i - List.length l) as [|k] eqn:D; [|now destruct k]. cbn in E'. injection E' as <-. rewrite M.
        rewrite nth_error_app1 in E by lia. unfold last_rel in R. assert (Z : exists l', l = l' ++ [e]).
        { exists (firstn i l). rewrite <- (firstn_skipn i l) at 1. f_equal. clear - E D H. assert (L : List.length l = Datatypes.S i) by (assert (i < List.length l) by (apply nth_error_Some; congruence); lia).
          revert l E L D H. induction i as [|i IH]; intros [|a l] E L D H; cbn in *; try easy; [destruct l; cbn in *; [congruence|lia]|]. apply IH; try easy; lia. }
        destruct Z as [l' ->]. now rewrite rev_app_distr in R.
    - intros e E. destruct l as [|a l]; [|now apply S0]. cbn in E. injection E as <-. unfold last_rel in R. cbn in R.
      unfold entry. rewrite Forall_map in *. easy.
  Qed.
  Lemma segments_fatigue men fuel n race tr pacing : forall i s s', inv men (s_team V s) -> chained (s_log V s) -> starts_rested (s_log V s) ->
    last_rel (s_log V s) (map (r_fatigue V) (s_team V s)) ->
    segments men fuel n race tr i pacing s = Ok s' -> chained (s_log V s') /\ starts_rested (s_log V s').
  Proof.
    induction pacing as [|power rest IH]; intros i s s' I C S0 R; [now intros [= <-]|].
    rewrite segments_cons. destruct (startable men _) eqn:K; [|now intros [= <-]].
    destruct (started_inv men tr i _ I K) as (b & li & k & P & Ib & Fb & Lb & K3 & Fo). cbv zeta.
    destruct (started_spec men tr i (s_team V s) (inv_length _ _ I)) as (A & Fa & _).
    set (team := started men tr i (s_team V s)) in *. clearbody team. rewrite P, Lb.
    assert (P1 : nth_error (positions V team) li = Some 1).
    { rewrite P. pose proof Lb as Lb'. apply leader_from_spec in Lb' as (j & -> & E). easy. }
    destruct (ride fuel li power (segment_distance n i) 0 0 team) as [[t team1]|e] eqn:Rd; cbn [bind fst snd]; [|easy].
    pose proof (ride_kept _ _ _ _ _ _ _ _ _ Rd P1) as Kt.
    assert (P2 : positions V (tire V li team1) = b) by (rewrite tire_positions, (kept_positions _ _ Kt); easy).
    assert (F2 : fits (alive V (tire V li team1)) b = true) by (rewrite tire_alive; now apply (fits_kept team)).
    assert (I2 : inv men (snd (remaining V (tire V li team1)))) by (apply inv_remaining; now exists b).
    assert (En : entry team1 = entry team).
    { clear - Kt. unfold entry. induction Kt as [|x y a b (H1 & H2 & _) Kt IH]; cbn; [easy|]. now rewrite H1, H2, IH. }
    assert (T : Forall2 tired (entry team) (map (r_fatigue V) (snd (remaining V (tire V li team1))))).
    { cbn [remaining snd]. rewrite place_fatigue by (rewrite mask_length; now rewrite ?alive_length, ?pos_length). rewrite <- En.
      apply tire_tired; rewrite (kept_positions _ _ Kt); [exact P1|]. rewrite P. intros j J. apply (bases_unique men b j Ib) in J. congruence. }
    rewrite <- Fa in R. destruct (chained_snoc _ team C S0 R) as [C2 S2].
    assert (R2 : last_rel (s_log V s ++ [entry team]) (map (r_fatigue V) (snd (remaining V (tire V li team1))))).
    { unfold last_rel. rewrite rev_app_distr. exact T. }
    destruct (3 <=? _); apply IH; cbn [s_team s_log]; easy.
  Qed.
  (** one segment: the steps of the leader *)
  Lemma ride_steps fuel li power dist : forall rid time team t team', ride fuel li power dist rid time team = Ok (t, team') ->
    exists ds, (t == time + (1#10) * qnat (List.length ds))%Q /\ (dist <= rid + total ds)%Q /\
      (forall k, k < List.length ds -> (rid + total (firstn k ds) < dist)%Q) /\
      Forall (fun d => exists v f v', pace_motion v f power = Ok (d, v')) ds.
  Proof.
    induction fuel as [|fuel IH]; intros rid time team t team'; cbn [Cycling.ride]; destruct (qlt rid dist) eqn:E; try easy;
      try (intros [= <- <-]; apply qlt_false in E; exists []; cbn; unfold qnat; cbn; split; [ring|]; split; [lra|]; split; [lia|constructor]).
    apply qlt_iff in E. destruct (nth_error team li) as [l|]; [|easy]. unfold set_pace. destruct (pace_motion _ _ _) as [[d v]|e] eqn:Ep; cbn [bind fst snd]; [|easy].
    destruct (follow_all d _) as [team1|e]; cbn [bind]; [|easy]. intros H. apply IH in H as (ds & A & B & C & F). exists (d :: ds).
    assert (Q1 : (qnat (S (List.length ds)) == 1 + qnat (List.length ds))%Q) by (unfold qnat; rewrite Nat2Z.inj_succ; unfold Z.succ; rewrite inject_Z_plus; ring).
    split; [cbn [List.length]; rewrite A, Q1; ring|]. destruct (qle (rid + d) dist) eqn:Q2.
    - split; [cbn; unfold total in B; lra|]. split; [|constructor; eauto]. intros [|k] Hk; cbn; [lra|]. cbn in Hk. specialize (C k ltac:(lia)). unfold total in C. lra.
    - apply qle_false in Q2. destruct ds as [|d' ds].
      + split; [cbn; lra|]. split; [|constructor; eauto]. intros [|k] Hk; cbn in *; [lra|lia].
      + specialize (C 0 ltac:(cbn; lia)). cbn in C. lra.
  Qed.
End Race.

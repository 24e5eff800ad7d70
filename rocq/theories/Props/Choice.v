(** C39: choices among options (the sampling itself is in Props/Discretization.v); C64: choices with transitions. *)
From Coq Require Import Reals ZArith Bool Lra Lia List.
From Verif.Model Require Import Prelude Discretization RTransforms Choice.
From Verif.Proofs Require Import RTransforms Discretization Choice.
From Verif.Props Require Discretization.
Import ListNotations.
Open Scope R_scope.

Section Choices.
Context {S V : Type}.
Variable nopts : nat.
Variable try_set : nat -> V -> S -> S * bool.
Variable read : nat -> S -> V.
Variable deterministic : bool.
Let get := get_value read deterministic.
Let set := set_value nopts try_set.
Let run := run nopts try_set read deterministic.

(** Weights are arrays of a row of [nopts] numbers for each repetition. *)
Definition shaped (reps : nat) (ws : list (list weight)) : Prop := length ws = reps /\ Forall (fun r => length r = nopts) ws.
Definition shaped_call (reps : nat) (o : call S V) : Prop :=
  match o with CRaw ws _ _ | CMutate ws _ _ => shaped reps ws | _ => True end.
Definition right_length (reps : nat) (o : call S V) : Prop := match o with CSet vs => length vs = reps | _ => True end.

Definition inv (P : nat -> Prop) (reps : nat) (c : choice S) : Prop :=
  shaped reps (weights c) /\ forall ks, cache c = Some ks -> Forall (fun k => (k < nopts)%nat) ks /\ P (length ks).
Lemma get_indices_inv (P : nat -> Prop) reps c rands : (0 < nopts)%nat -> P reps -> inv P reps c ->
  let '(c', r) := get_indices deterministic c rands in
  inv P reps c' /\ options c' = options c /\ exists ks, r = Ok ks /\ cache c' = Some ks.
Proof.
  intros Hn HP ((Hl & Hw) & Hc). unfold get_indices. destruct (cache c) as [ks|] eqn:Ec.
  - split; [split; [split; assumption|]|]; [intros ks' E; apply Hc; congruence|]. split; [reflexivity|eauto].
  - destruct (encode_rows_ok (weights c) deterministic rands) as (ks & E & H2).
    { apply Forall_forall. intros r Hr E. rewrite Forall_forall in Hw. apply Hw in Hr. rewrite E in Hr. cbn in Hr. lia. }
    rewrite E. split; [split; [split; assumption|]|].
    + cbn [cache]. intros ks' Ek. injection Ek as <-. split.
      * clear - H2 Hw. induction H2 as [|r k rs ks Hk H2 IH]; [constructor|]. inversion Hw; subst. constructor; [assumption|auto].
      * assert (length ks = length (weights c)) as -> by (clear - H2; induction H2; cbn; congruence). now rewrite Hl.
    + split; [reflexivity|]. exists ks. split; reflexivity.
Qed.
Lemma step_inv (P : nat -> Prop) reps c o : (0 < nopts)%nat -> P reps -> (forall vs, o = CSet vs -> P (length vs)) -> shaped_call reps o -> inv P reps c ->
  inv P reps (step nopts try_set read deterministic c o).
Proof.
  intros Hn HP HS Ho Hi. destruct o as [rands|vs|ws s rands|ws mut rands|]; cbn [step shaped_call] in *.
  - unfold get_value. pose proof (get_indices_inv P reps c rands Hn HP Hi) as H. destruct (get_indices deterministic c rands) as [c' r]. apply H.
  - unfold set_value. destruct (frozen c); [exact Hi|]. destruct (place_all nopts try_set vs (options c)) as [s' [ks|]] eqn:E.
    + apply place_all_some in E as (H1 & H2). specialize (HS vs eq_refl). rewrite <- H1 in HS.
      destruct Hi as ((Hl & Hw) & Hc). destruct (Nat.eqb (length ks) (length (weights c))) eqn:El.
      * apply Nat.eqb_eq in El. split; [split|]; cbn [fst weights cache].
        -- rewrite map_length. congruence.
        -- apply Forall_forall. intros r Hr. apply in_map_iff in Hr as (k & <- & _). unfold reset_row. now rewrite map_length, seq_length.
        -- intros ks' Ek. injection Ek as <-. auto.
      * split; [split; assumption|]. cbn. intros ks' Ek. injection Ek as <-. auto.
    + exact Hi.
  - unfold set_raw. destruct (frozen c); [exact Hi|]. pose proof (get_indices_inv P reps (mkchoice s ws None false) rands Hn HP) as H.
    destruct (get_indices deterministic _ rands) as [c' r]. apply H. split; [exact Ho|]. discriminate.
  - unfold mutate, set_raw. destruct (frozen c); [exact Hi|]. pose proof (get_indices_inv P reps (mkchoice (options c) ws None false) rands Hn HP) as H.
    destruct (get_indices deterministic _ rands) as [c' r]. destruct H as (H1 & H2 & ks & -> & Ek). { split; [exact Ho|]. discriminate. }
    cbn [bind]. rewrite Ek. destruct H1 as (H1 & H3). split; [exact H1|]. cbn. intros ks' E. apply H3. congruence.
  - exact Hi.
Qed.
Lemma run_inv (P : nat -> Prop) reps s calls : (0 < nopts)%nat -> P reps -> (forall vs, In (CSet vs) calls -> P (length vs)) -> Forall (shaped_call reps) calls ->
  inv P reps (run (new_choice nopts s reps) calls).
Proof.
  intros Hn HP HS Hf. unfold run, Choice.run. assert (Hi : inv P reps (new_choice nopts s reps)).
  { split; [split|discriminate]; cbn; [apply repeat_length|]. apply Forall_forall. intros r Hr. apply repeat_spec in Hr as ->. apply repeat_length. }
  revert Hi. generalize (new_choice nopts s reps). induction Hf as [|o calls Ho Hf IH]; intros c Hi; [exact Hi|]. cbn [fold_left]. apply IH.
  - intros vs H. apply HS. now right.
  - apply step_inv; auto. intros vs ->. apply HS. now left.
Qed.
(** After any history of reads, sets (failed or not), changes of the weights, mutations and freezing, with any draws, a
    choice reads values of its options, one for each repetition unless values of a wrong number were set. *)
Theorem C39_history (s : S) (reps : nat) (calls : list (call S V)) (rands : list R) : (0 < nopts)%nat -> Forall (shaped_call reps) calls ->
  let c := run (new_choice nopts s reps) calls in
  exists ks, snd (get c rands) = Ok (map (fun k => read k (options c)) ks) /\ Forall (fun k => (k < nopts)%nat) ks /\
    options (fst (get c rands)) = options c /\
    (Forall (right_length reps) calls -> length ks = reps).
Proof.
  intros Hn Hf c. pose proof (run_inv (fun _ => True) reps s calls Hn I (fun _ _ => I) Hf) as Hi. fold c in Hi.
  pose proof (get_indices_inv _ reps c rands Hn I Hi) as H. unfold get, get_value. destruct (get_indices deterministic c rands) as [c' r] eqn:E.
  destruct H as (H1 & H2 & ks & -> & Ek). exists ks. cbn [fst snd bind]. rewrite H2. split; [reflexivity|]. split; [now apply H1|]. split; [reflexivity|].
  intros Hr. rewrite Forall_forall in Hr. assert (Hi' : inv (fun n => n = reps) reps c) by (apply run_inv; auto; intros vs Hv; now apply Hr in Hv).
  pose proof (get_indices_inv _ reps c rands Hn eq_refl Hi') as H. rewrite E in H. destruct H as ((_ & H) & _). now apply H.
Qed.
(** The value is drawn once: reading again, with any draws, gives the same. *)
Theorem C39_kept (c : choice S) (rands rands' : list R) (vs : list V) : snd (get c rands) = Ok vs ->
  get (fst (get c rands)) rands' = (fst (get c rands), Ok vs).
Proof.
  unfold get, get_value, get_indices. intros H. destruct (cache c) as [ks|] eqn:Ec.
  - cbn in H |- *. rewrite Ec. cbn. now rewrite <- H.
  - destruct (encode_rows (weights c) deterministic rands) as [ks|e]; [|discriminate]. cbn in *. now rewrite <- H.
Qed.
(** Setting a value accepted by an option, then reading, gives this value (without repetitions). *)
Theorem C39_set_get_parameter (c c' : choice S) (v : V) (rands : list R) : (forall k s s', try_set k v s = (s', true) -> read k s' = v) ->
  set c [v] = (c', Ok tt) -> snd (get c' rands) = Ok [v].
Proof.
  intros Hlens E. unfold set, set_value in E. destruct (frozen c); [discriminate|]. cbn [place_all] in E.
  destruct (place try_set (seq 0 nopts) v (options c)) as [s' [k|]] eqn:Ek; [|discriminate]. cbn [option_map] in E.
  apply place_some in Ek as (_ & s0 & Hk). apply Hlens in Hk. destruct (Nat.eqb _ _); [|discriminate]. injection E as <-. cbn. now rewrite Hk.
Qed.
(** Setting a frozen choice is refused and changes nothing. *)
Theorem C39_frozen (c : choice S) (vs : list V) : frozen c = true -> set c vs = (c, Err RuntimeError).
Proof. intros H. unfold set, set_value. now rewrite H. Qed.
End Choices.

Section Constants.
Context {V : Type}.
Variables (same : V -> V -> bool) (opts : list V) (deterministic : bool).
Let nopts := length opts.
Let read (k : nat) (_ : unit) : option V := nth_error opts k.
Let get := get_value read deterministic.
Let set := set_value nopts (const_set same opts).
(** Constants: any values equal to options can be set, and are read back. *)
Theorem C39_set_get (c : choice unit) (vs : list V) (rands : list R) : frozen c = false -> length vs = length (weights c) ->
  Forall (fun v => exists w, In w opts /\ same v w = true) vs ->
  exists c' ws, set c vs = (c', Ok tt) /\ snd (get c' rands) = Ok (map Some ws) /\ Forall2 (fun v w => In w opts /\ same v w = true) vs ws.
Proof.
  intros Hf Hl Hv. assert (H : exists ks ws, place_all nopts (const_set same opts) vs tt = (tt, Some ks) /\ map (fun k => read k tt) ks = map Some ws /\ Forall2 (fun v w => In w opts /\ same v w = true) vs ws).
  { clear Hl. induction Hv as [|v vs (w & Hin & Hs) Hv IH]; [exists [], []; repeat split; constructor|]. destruct IH as (ks & ws & E1 & E2 & E3).
    cbn [place_all]. destruct (place (const_set same opts) (seq 0 nopts) v tt) as [[] [k|]] eqn:Ek.
    - apply place_const_some in Ek as (_ & (w' & Hw & Hs') & _). rewrite E1. exists (k :: ks), (w' :: ws). cbn. unfold read at 1. rewrite Hw. repeat split; [congruence|].
      constructor; [|assumption]. split; [eapply nth_error_In, Hw|assumption].
    - exfalso. assert (Hseq : Forall (fun k => (k < length opts)%nat) (seq 0 nopts)) by (apply Forall_forall; intros k Hk; apply in_seq in Hk; unfold nopts in *; lia).
      rewrite (place_const_none same opts v _ Hseq) in Ek.
      apply In_nth_error in Hin as (k & Hk). assert (k < length opts)%nat by (apply nth_error_Some; congruence).
      rewrite (Ek k w) in Hs; [discriminate| |exact Hk]. apply in_seq. unfold nopts. lia. }
  destruct H as (ks & ws & E1 & E2 & E3). unfold set, set_value. rewrite Hf. destruct (options c). rewrite E1.
  assert (length ks = length vs) as El by (apply place_all_some in E1; apply E1). rewrite El, Hl, Nat.eqb_refl. eexists _, ws. split; [reflexivity|].
  split; [|exact E3]. cbn. now rewrite E2.
Qed.
(** Constants: when a value is not among the options, the set is refused and nothing changes. *)
Theorem C39_refused (c : choice unit) (vs : list V) (v : V) : frozen c = false -> In v vs -> (forall w, In w opts -> same v w = false) ->
  set c vs = (c, Err ValueError).
Proof.
  intros Hf Hin Hno. unfold set, set_value. rewrite Hf. destruct c as [[] ws ca fr]. cbn [options] in *.
  assert (E : place_all nopts (const_set same opts) vs tt = (tt, None)).
  { induction vs as [|u vs IH]; [destruct Hin|]. cbn [place_all]. destruct (place (const_set same opts) (seq 0 nopts) u tt) as [[] [k|]] eqn:Ek.
    - destruct Hin as [->|Hin]; [|now rewrite IH]. exfalso. apply place_const_some in Ek as (_ & (w & Hw & Hs) & _). rewrite (Hno w) in Hs; [discriminate|]. eapply nth_error_In, Hw.
    - reflexivity. }
  rewrite E. cbn in *. now rewrite Hf.
Qed.
End Constants.
(** The hypotheses are met. *)
Example C39_set_get_example : exists c', set_value 3 (const_set Z.eqb [5; 7; 9]%Z) (new_choice 3 tt 2) [9; 5]%Z = (c', Ok tt) /\
  snd (get_value (fun k (_ : unit) => nth_error [5; 7; 9]%Z k) false c' []) = Ok [Some 9; Some 5]%Z.
Proof. eexists. split; reflexivity. Qed.

(** Findings. Repetitions over parameters share the options: setting (3, 5) reads (5, 5). *)
Theorem C39_repetitions_refuted : exists c', let try_set := mixed_set (fun _ => false) in
  set_value 2 try_set (new_choice 2 [0; 0]%Z 2) [3; 5]%Z = (c', Ok tt) /\ snd (get_value mixed_read true c' []) = Ok [5; 5]%Z.
Proof. eexists. split; reflexivity. Qed.
(** A refused set may change the value of options, hence the value read. *)
Theorem C39_refused_set_changes_refuted : let c := new_choice 1 [2]%Z 2 in let try_set := mixed_set (fun _ => false) in
  snd (get_value mixed_read true c []) = Ok [2; 2]%Z /\
  exists c', set_value 1 try_set c [3; -1]%Z = (c', Err ValueError) /\ snd (get_value mixed_read true c' []) = Ok [3; 3]%Z.
Proof. split; [reflexivity|]. eexists. split; reflexivity. Qed.
(** A set of a wrong number of values is refused, but then the choice reads these values. *)
Theorem C39_wrong_length_refuted : exists c', set_value 2 (const_set Z.eqb [5; 7]%Z) (new_choice 2 tt 2) [7; 5; 7]%Z = (c', Err ValueError) /\
  snd (get_value (fun k (_ : unit) => nth_error [5; 7]%Z k) false c' []) = Ok [Some 7; Some 5; Some 7]%Z.
Proof. eexists. split; reflexivity. Qed.

(** C64: choices with transitions. [cdf], [ppf]: those of the normal distribution, or any density. *)
Section Transitions.
Context {S V : Type}.
Variable nopts : nat.
Variable try_set : nat -> V -> S -> S * bool.
Variable read : nat -> S -> V.
Variables cdf ppf : R -> R.
Hypothesis Hdens : density cdf ppf.
Hypothesis Hn : (0 < nopts)%nat.
Let index_of := index_of nopts cdf ppf.

Lemma nopts_pos : 1 <= INR nopts.
Proof. apply (le_INR 1) in Hn. exact Hn. Qed.
Lemma index_of_eq raw : index_of raw = Z.min (Z.of_nat nopts - 1) (Z.max 0 (rne (INR nopts * cdf raw - 1 / 2))).
Proof.
  unfold index_of, Choice.index_of. pose proof eps12_small as He. f_equal.
  - apply rne_spec. rewrite minus_IZR, <- INR_IZR_INZ. lra.
  - f_equal; [apply rne_spec; lra|]. f_equal. cbn. unfold Rdiv. rewrite Rinv_1, Rmult_1_r. ring.
Qed.
(** The index is always that of an option. *)
Theorem C64_index (raw : R) : (0 <= index_of raw < Z.of_nat nopts)%Z.
Proof. rewrite index_of_eq. lia. Qed.
(** The options have equal shares of the distribution: the index is [k] when the raw number is between the quantiles
    k/n and (k+1)/n. *)
Theorem C64_uniform (raw : R) (k : nat) : (k < nopts)%nat -> INR k / INR nopts < cdf raw < INR (1 + k) / INR nopts -> index_of raw = Z.of_nat k.
Proof.
  intros Hk (H1 & H2). rewrite index_of_eq. pose proof nopts_pos as Hp.
  assert (E1 : INR k < INR nopts * cdf raw). { apply (Rmult_lt_compat_l (INR nopts)) in H1; [|lra]. replace (INR nopts * (INR k / INR nopts)) with (INR k) in H1 by (field; lra). exact H1. }
  assert (E2 : INR nopts * cdf raw < INR k + 1). { apply (Rmult_lt_compat_l (INR nopts)) in H2; [|lra]. replace (INR nopts * (INR (1 + k) / INR nopts)) with (INR (1 + k)) in H2 by (field; lra). rewrite plus_INR in H2. change (INR 1) with 1 in H2. lra. }
  rewrite (rne_spec _ (Z.of_nat k)); [lia|]. rewrite <- INR_IZR_INZ. lra.
Qed.
(** At a quantile k/n itself, the index is the even one of the two options which share it. *)
Theorem C64_boundary (raw : R) (k : nat) : (0 < k < nopts)%nat -> cdf raw = INR k / INR nopts ->
  index_of raw = Z.of_nat (if Nat.even k then k else k - 1).
Proof.
  intros Hk Hc. rewrite index_of_eq, Hc. pose proof nopts_pos as Hp. replace (INR nopts * (INR k / INR nopts)) with (INR k) by (field; lra).
  assert (Hr : rne (INR k - 1 / 2) = Z.of_nat (if Nat.even k then k else k - 1)).
  { unfold rne. assert (Hi : Int_part (INR k - 1 / 2) = (Z.of_nat k - 1)%Z).
    { pose proof (Int_part_bounds (INR k - 1 / 2)) as Hb. rewrite INR_IZR_INZ in *. set (f := Int_part _) in *. clearbody f.
      assert (H1 : IZR f < IZR (Z.of_nat k)) by lra. assert (H2 : IZR (Z.of_nat k - 2) < IZR f) by (rewrite minus_IZR; lra).
      apply lt_IZR in H1, H2. lia. }
    rewrite Hi, minus_IZR, <- INR_IZR_INZ. destruct (Rlt_dec _ (1 / 2)); [lra|]. destruct (Rlt_dec (1 / 2) _); [lra|].
    rewrite Z.even_sub. change (Z.even 1) with false. replace (Z.even (Z.of_nat k)) with (Nat.even k).
    - destruct (Nat.even k); cbn; lia.
    - clear. assert (E : forall m, Nat.even m = Z.even (Z.of_nat m) /\ Nat.even (Datatypes.S m) = Z.even (Z.of_nat (Datatypes.S m))).
      { induction m as [|m (IH1 & IH2)]; [now split|]. split; [exact IH2|]. replace (Z.of_nat (Datatypes.S (Datatypes.S m))) with (Z.of_nat m + 2)%Z by lia.
        rewrite Z.even_add. cbn [Nat.even]. rewrite IH1. now destruct (Z.even (Z.of_nat m)). }
      apply E. }
  rewrite Hr. destruct (Nat.even k); lia.
Qed.
(** Larger raw numbers never have smaller indices. *)
Lemma rne_mono x y : x <= y -> (rne x <= rne y)%Z.
Proof.
  intros H. destruct (Z_le_gt_dec (rne x) (rne y)) as [|G]; [assumption|]. exfalso. pose proof (rne_near x). pose proof (rne_near y).
  assert (IZR (rne y) + 1 <= IZR (rne x)) by (rewrite <- plus_IZR; apply IZR_le; lia). assert (x = y) by lra. subst. lia.
Qed.
Theorem C64_increasing (raw raw' : R) : raw <= raw' -> (index_of raw <= index_of raw')%Z.
Proof.
  intros H. rewrite !index_of_eq. assert (Hc : cdf raw <= cdf raw'). { destruct H as [H| ->]; [left; now apply Hdens|lra]. }
  pose proof nopts_pos. assert (INR nopts * cdf raw - 1 / 2 <= INR nopts * cdf raw' - 1 / 2) as Hm by nra. apply rne_mono in Hm. lia.
Qed.
(** Setting an index then reading gives it back; others are refused. *)
Theorem C64_set_get_index (k : Z) : INR nopts <= 5 * 10 ^ 8 -> (0 <= k < Z.of_nat nopts)%Z ->
  exists raw, raw_of nopts cdf ppf k = Ok raw /\ index_of raw = k.
Proof.
  intros Hmax Hk. pose proof nopts_pos as Hp. unfold raw_of, transition_transform. cbn [in_range apply].
  assert (Hk0 : 0 <= IZR k) by (apply IZR_le; lia). assert (Hk1 : IZR k + 1 <= INR nopts) by (rewrite INR_IZR_INZ, <- plus_IZR; apply IZR_le; lia).
  destruct (Rlt_dec (INR nopts) (IZR k - - (1 / 2))); [lra|]. destruct (Rlt_dec (IZR k - - (1 / 2)) 0); [lra|]. eexists. split; [reflexivity|].
  rewrite index_of_eq. set (q := (IZR k - - (1 / 2) - 0) / (INR nopts - 0)).
  assert (Hq : INR nopts * q = IZR k + 1 / 2) by (unfold q; field; lra).
  assert (He : INR nopts * eps9 <= 1 / 2). { unfold eps9. apply (Rmult_le_reg_r (10 ^ 9)); [lra|]. rewrite Rmult_assoc, Rinv_l by lra. lra. }
  assert (Hq1 : eps9 <= q). { apply (Rmult_le_reg_l (INR nopts)); [lra|]. lra. }
  assert (Hq2 : q <= 1 - eps9). { apply (Rmult_le_reg_l (INR nopts)); [lra|]. rewrite Hq, Rmult_minus_distr_l. lra. }
  unfold rclip. rewrite Rmax_left by exact Hq1. rewrite Rmin_left by exact Hq2. rewrite Rmult_1_l. pose proof eps9_small.
  destruct Hdens as (_ & _ & _ & Hinv). rewrite Hinv by lra. rewrite Hq. rewrite (rne_spec _ k); [lia|]. lra.
Qed.
Theorem C64_refused_index (k : Z) : (k < 0 \/ Z.of_nat nopts <= k)%Z -> raw_of nopts cdf ppf k = Err ValueError.
Proof.
  intros H. unfold raw_of, transition_transform. cbn [in_range]. destruct (Rlt_dec (INR nopts) (IZR k - - (1 / 2))); [reflexivity|].
  destruct (Rlt_dec (IZR k - - (1 / 2)) 0); [reflexivity|]. exfalso. rewrite INR_IZR_INZ in *. destruct H as [H|H].
  - assert (IZR k <= -1) by (apply IZR_le; lia). lra.
  - apply IZR_le in H. lra.
Qed.

Lemma set_indices_ok c ks : INR nopts <= 5 * 10 ^ 8 -> length ks = length (raws (S:=S) c) -> Forall (fun k => (0 <= k < Z.of_nat nopts)%Z) ks ->
  exists c', set_indices nopts cdf ppf c ks = (c', Ok tt) /\ toptions c' = toptions c /\ tindices nopts cdf ppf c' = ks.
Proof.
  intros Hmax Hl Hk. unfold set_indices.
  assert (H : exists xs, raws_of nopts cdf ppf ks = Ok xs /\ length xs = length ks /\ map index_of xs = ks).
  { clear Hl. induction Hk as [|k ks Hk0 Hk IH]; [exists []; repeat split|]. destruct IH as (xs & E & El & Ei).
    destruct (C64_set_get_index k Hmax Hk0) as (x & Ex & Hx). exists (x :: xs). cbn [raws_of]. rewrite Ex. cbn [bind]. rewrite E. cbn. repeat split; congruence. }
  destruct H as (xs & E & El & Ei). rewrite E, El, Hl, Nat.eqb_refl. eexists. split; [reflexivity|]. split; [reflexivity|exact Ei].
Qed.
(** Mutation: each index moves by the drawn number of steps up or down, and stops at the first and last options. *)
Theorem C64_mutate (c : tchoice S) (transitions rands : list R) (ups : list bool) (mut : nat -> S -> S) : INR nopts <= 5 * 10 ^ 8 ->
  transitions <> [] -> length ups = length (raws c) ->
  exists c' moves, tmutate nopts cdf ppf c transitions rands ups mut = (c', Ok tt) /\
    length moves = length (raws c) /\ Forall (fun m => (m < length transitions)%nat) moves /\
    tindices nopts cdf ppf c' = map2 (fun (um : bool * nat) k => let t := if fst um then (k + Z.of_nat (snd um))%Z else (k - Z.of_nat (snd um))%Z in
        if Z.ltb t 0 then 0%Z else if Z.leb (Z.of_nat nopts) t then (Z.of_nat nopts - 1)%Z else t)
      (combine ups moves) (tindices nopts cdf ppf c) /\
    toptions c' = fold_left (fun s k => mut (Z.to_nat k) s) (nodup Z.eq_dec (tindices nopts cdf ppf c')) (toptions c).
Proof.
  intros Hmax Ht Hu. unfold tmutate. set (row := map log_weight transitions).
  assert (Hrow : length row = length transitions) by apply map_length.
  destruct (encode_rows_ok (repeat row (length (raws c))) false rands) as (moves & E & H2).
  { apply Forall_forall. intros r Hr. apply repeat_spec in Hr as ->. unfold row. destruct transitions; [congruence|discriminate]. }
  assert (Hlm : length moves = length (raws c)). { rewrite <- (repeat_length row (length (raws c))). clear - H2. induction H2; cbn; congruence. }
  assert (Hm : Forall (fun m => (m < length transitions)%nat) moves). { clear - H2 Hrow. remember (repeat row (length (raws c))) as rows eqn:Er. assert (Hr : Forall (fun r => r = row) rows) by (subst; apply Forall_forall; intros r Hr; now apply repeat_spec in Hr). clear Er.
    induction H2 as [|r m rs ms Hk H2 IH]; [constructor|]. inversion Hr; subst. constructor; [congruence|auto]. }
  rewrite E.
  set (ks := map2 (fun k d => zclip (k + d) 0 (Z.of_nat nopts - 1)) (tindices nopts cdf ppf c) (map2 (fun (up : bool) (m : nat) => if up then Z.of_nat m else (- Z.of_nat m)%Z) ups moves)).
  assert (Hks : ks = map2 (fun (um : bool * nat) k => let t := if fst um then (k + Z.of_nat (snd um))%Z else (k - Z.of_nat (snd um))%Z in
        if Z.ltb t 0 then 0%Z else if Z.leb (Z.of_nat nopts) t then (Z.of_nat nopts - 1)%Z else t)
      (combine ups moves) (tindices nopts cdf ppf c)).
  { unfold ks. clear - Hn. generalize (tindices nopts cdf ppf c). revert moves. induction ups as [|u ups IH]; intros [|m moves] [|k l]; cbn; try reflexivity.
    f_equal; [|apply IH]. unfold zclip. destruct u; (destruct (Z.ltb _ 0) eqn:E1; [apply Z.ltb_lt in E1|apply Z.ltb_ge in E1; destruct (Z.leb _ _) eqn:E2; [apply Z.leb_le in E2|apply Z.leb_gt in E2]]; lia). }
  destruct (set_indices_ok c ks Hmax) as (c' & Ec & Eo & Ei).
  { unfold ks. assert (Hl : forall A B C (f : A -> B -> C) a b, length a = length b -> length (map2 f a b) = length a) by (intros A B C f a; induction a; intros [|] H; cbn in *; try discriminate; auto).
    rewrite Hl; unfold tindices; rewrite map_length; [reflexivity|]. rewrite Hl; congruence. }
  { unfold ks. generalize (tindices nopts cdf ppf c), (map2 (fun (up : bool) (m : nat) => if up then Z.of_nat m else (- Z.of_nat m)%Z) ups moves). clear - Hn. intros l. induction l as [|k l IH]; intros [|d l']; cbn; constructor; [unfold zclip; lia|auto]. }
  fold ks. rewrite Ec. eexists _, moves. split; [reflexivity|]. split; [exact Hlm|]. split; [exact Hm|].
  unfold tindices in *. cbn [raws toptions]. rewrite Ei, Eo. split; [exact Hks|reflexivity].
Qed.
End Transitions.

Lemma nth_error_ext_local {A} (l l' : list A) : (forall k, nth_error l k = nth_error l' k) -> l = l'.
Proof.
  revert l'. induction l as [|x l IH]; intros l' H; destruct l' as [|y l'].
  - reflexivity.
  - specialize (H 0%nat). discriminate.
  - specialize (H 0%nat). discriminate.
  - f_equal; [specialize (H 0%nat); now injection H|]. apply IH. intros k. exact (H (Datatypes.S k)).
Qed.
(** The probability of a move is its share of the transitions (negative ones counting for zero). *)
Lemma nth_error_map_inv {A B} (f : A -> B) l i : nth_error (map f l) i = option_map f (nth_error l i).
Proof. revert i. induction l; intros [|i]; cbn; auto. Qed.
Theorem C64_move_probability (transitions : list R) (i : nat) (w : R) : (exists v, In v transitions /\ 0 < v) -> nth_error transitions i = Some w ->
  nth_error (probabilities (map clean (map log_weight transitions))) i = Some (Rmax 0 w / rsum (map (Rmax 0) transitions)).
Proof.
  intros (v & Hv & Hpos) Hw. set (row := map log_weight transitions).
  assert (Hne : row <> []) by (destruct transitions; [destruct Hv|discriminate]).
  destruct (Discretization.C39_probabilities row Hne) as (Hl & Hnn & Hsum & Hp & Hs). cbn zeta in *. set (p := probabilities (map clean row)) in *.
  assert (Hlen : length row = length transitions) by apply map_length.
  assert (Hno : ~ In WPInf row). { unfold row. intros H. apply in_map_iff in H as (x & E & _). unfold log_weight in E. destruct (Rlt_dec 0 x); [discriminate|]. destruct (Req_EM_T x 0); discriminate. }
  apply In_nth_error in Hv as (j & Hj).
  assert (Hrow : forall k x, nth_error transitions k = Some x -> nth_error row k = Some (log_weight x)) by (intros k x Hk; unfold row; rewrite nth_error_map_inv, Hk; reflexivity).
  assert (Hpj : exists b, nth_error p j = Some b). { destruct (nth_error p j) as [b|] eqn:E; [eauto|]. exfalso. apply nth_error_None in E. assert (j < length transitions)%nat by (apply nth_error_Some; congruence). lia. }
  destruct Hpj as (b & Hb).
  assert (Hfin : forall x, 0 < x -> log_weight x = WFin (ln x)) by (intros x Hx; unfold log_weight; destruct (Rlt_dec 0 x); [reflexivity|lra]).
  assert (Hall : forall k x a, nth_error transitions k = Some x -> nth_error p k = Some a -> a = Rmax 0 x * (b / v)).
  { intros k x a Hk Ha. destruct (Rlt_dec 0 x) as [Hx|Hx].
    - rewrite Rmax_right by lra. pose proof (Hs k j (ln x) (ln v) a b) as H. rewrite (Hrow k x Hk), (Hrow j v Hj), !Hfin in H by assumption.
      specialize (H eq_refl eq_refl Hno Ha Hb). rewrite !exp_ln in H by assumption. apply (Rmult_eq_reg_r v); [|lra]. rewrite H. field. lra.
    - rewrite Rmax_left by lra. rewrite Rmult_0_l. specialize (Hp k (log_weight x) a (Hrow k x Hk) Ha).
      assert (0 <= a) by (rewrite Forall_forall in Hnn; apply Hnn; eapply nth_error_In, Ha). destruct (Rlt_dec 0 a) as [Hlt|]; [|lra]. exfalso.
      apply Hp in Hlt. unfold log_weight in Hlt. destruct (Rlt_dec 0 x); [lra|]. destruct Hlt as [Hk1|[(Hk1 & _)|(_ & Hk1)]].
      + destruct (Req_EM_T x 0); discriminate.
      + destruct (Req_EM_T x 0); destruct Hk1; discriminate.
      + apply (Hk1 (log_weight v)); [eapply nth_error_In, Hrow, Hj|]. rewrite Hfin by assumption. eexists; reflexivity. }
  assert (Hmap : p = map (fun x => Rmax 0 x * (b / v)) transitions).
  { apply nth_error_ext_local. intros k. rewrite nth_error_map_inv. destruct (nth_error transitions k) as [x|] eqn:Ex; cbn.
    - destruct (nth_error p k) as [a|] eqn:Ea; [f_equal; eauto|]. exfalso. apply nth_error_None in Ea. assert (k < length transitions)%nat by (apply nth_error_Some; congruence). lia.
    - apply nth_error_None in Ex. apply nth_error_None. lia. }
  rewrite Hmap, nth_error_map_inv, Hw. cbn. f_equal. rewrite Hmap in Hsum.
  assert (Hr : rsum (map (fun x => Rmax 0 x * (b / v)) transitions) = rsum (map (Rmax 0) transitions) * (b / v)).
  { clear. induction transitions as [|x l IH]; cbn; [ring|]. rewrite IH. ring. }
  rewrite Hr in Hsum. set (t := rsum (map (Rmax 0) transitions)) in *. assert (t <> 0) by (intros E; rewrite E in Hsum; lra).
  apply (Rmult_eq_reg_l t); [|assumption]. replace (t * (Rmax 0 w * (b / v))) with (Rmax 0 w * (t * (b / v))) by ring. rewrite Hsum. field. assumption.
Qed.

(** Setting the data of a choice among constants: the value is that of the option at the index, then the raw number is
    that of an option (of this value). *)
Section Binning.
Context {V : Type}.
Variables (same : V -> V -> bool) (opts : list V) (d : V).
Variables cdf ppf : R -> R.
Hypothesis Hdens : density cdf ppf.
Hypothesis Hsame : forall v, same v v = true.
Theorem C64_binned (xs : list R) : (0 < length opts)%nat -> INR (length opts) <= 5 * 10 ^ 8 ->
  exists c', tset_raw (length opts) (const_set same opts) (fun k _ => nth k opts d) cdf ppf xs tt = (c', Ok tt) /\
    Forall2 (fun x k => exists v w, nth_error opts (Z.to_nat (index_of (length opts) cdf ppf x)) = Some v /\ nth_error opts (Z.to_nat k) = Some w /\ same v w = true)
      xs (tindices (length opts) cdf ppf c') /\
    (forall k, In k (tindices (length opts) cdf ppf c') -> (0 <= k)%Z) /\
    ((forall i j v w, nth_error opts i = Some v -> nth_error opts j = Some w -> same v w = true -> i = j) ->
       tindices (length opts) cdf ppf c' = map (index_of (length opts) cdf ppf) xs).
Proof.
  intros Hn Hmax. unfold tset_raw, tset. cbn [toptions raws]. set (vs := tget _ _ _ _ _).
  assert (H : exists ks, place_all (length opts) (const_set same opts) vs tt = (tt, Some ks) /\ length ks = length xs /\ Forall (fun k => (k < length opts)%nat) ks /\
     Forall2 (fun x k => exists v w, nth_error opts (Z.to_nat (index_of (length opts) cdf ppf x)) = Some v /\ nth_error opts k = Some w /\ same v w = true) xs ks).
  { unfold vs, tget, tindices. cbn [raws]. clear vs. induction xs as [|x xs IH]; [exists []; repeat split; constructor|]. destruct IH as (ks & E & El & Hf & H2).
    cbn [map place_all]. set (i := index_of (length opts) cdf ppf x). assert (Hi : (0 <= i < Z.of_nat (length opts))%Z) by now apply C64_index.
    assert (Hi' : (Z.to_nat i < length opts)%nat) by lia.
    assert (Ei : nth_error opts (Z.to_nat i) = Some (nth (Z.to_nat i) opts d)) by now apply nth_error_nth'.
    destruct (place (const_set same opts) (seq 0 (length opts)) (nth (Z.to_nat i) opts d) tt) as [[] [k|]] eqn:Ek.
    - rewrite E. exists (k :: ks). cbn. apply place_const_some in Ek as (Hk & (w & Hw & Hs) & _). repeat split; [congruence| |].
      + constructor; [lia|assumption].
      + constructor; [|assumption]. exists (nth (Z.to_nat i) opts d), w. auto.
    - exfalso. assert (Hseq : Forall (fun k => (k < length opts)%nat) (seq 0 (length opts))) by (apply Forall_forall; intros k Hk; apply in_seq in Hk; lia).
      rewrite (place_const_none same opts _ _ Hseq) in Ek. specialize (Ek (Z.to_nat i) _ (proj2 (in_seq _ _ _) (conj (Nat.le_0_l _) Hi')) Ei). rewrite Hsame in Ek. discriminate. }
  destruct H as (ks & E & El & Hf & H2). rewrite E.
  destruct (set_indices_ok (length opts) cdf ppf Hdens Hn (mktchoice tt xs) (map Z.of_nat ks) Hmax) as (c' & Ec & _ & Ei).
  { rewrite map_length. exact El. }
  { clear - Hf. induction Hf; cbn; constructor; [lia|assumption]. }
  exists c'. split; [exact Ec|]. rewrite Ei. split; [|split].
  - clear - H2. induction H2 as [|x k xs ks H H2 IH]; cbn; constructor; [|assumption]. now rewrite Nat2Z.id.
  - intros k Hk. apply in_map_iff in Hk as (j & <- & _). lia.
  - intros Hinj. clear - H2 Hinj Hn Hdens. induction H2 as [|x k xs ks (v & w & H1 & H3 & H4) H2 IH]; cbn; [reflexivity|]. f_equal; [|exact IH].
    rewrite <- (Hinj _ _ v w H1 H3 H4). apply Z2Nat.id. now apply C64_index.
Qed.
End Binning.
(** Findings. Among parameters, setting the data falls back on the first option that accepts the value: the second
    option is never chosen, and the value of the first is lost. *)
Theorem C64_binning_refuted (cdf ppf : R -> R) (x : R) : density cdf ppf -> 1 / 2 < cdf x ->
  index_of 2 cdf ppf x = 1%Z /\
  exists c', tset_raw 2 (mixed_set (fun _ => false)) mixed_read cdf ppf [x] [1; 2]%Z = (c', Ok tt) /\
    tindices 2 cdf ppf c' = [0%Z] /\ toptions c' = [2; 2]%Z.
Proof.
  intros Hd Hx. assert (Hi : index_of 2 cdf ppf x = 1%Z).
  { apply (C64_uniform 2 cdf ppf ltac:(lia) x 1); [lia|]. destruct Hd as (Hd & _). specialize (Hd x). cbn in *. lra. }
  split; [exact Hi|]. unfold tset_raw, tset, tget, tindices. cbn [map raws toptions]. rewrite Hi.
  change (place_all 2 (mixed_set (fun _ => false)) [mixed_read (Z.to_nat 1) [1; 2]%Z] [1; 2]%Z) with ([2; 2]%Z, Some [0%nat]). cbn match.
  destruct (set_indices_ok 2 cdf ppf Hd ltac:(lia) (mktchoice [2; 2]%Z [x]) [0%Z]) as (c' & Ec & Eo & Ei).
  { cbn. lra. } { reflexivity. } { constructor; [lia|constructor]. }
  exists c'. split; [exact Ec|]. split; [exact Ei|exact Eo].
Qed.
(** The mutation of an unordered choice fails if some option has parameters (or if the transitions have). *)
Theorem C64_unordered_refuted {S V} nopts (try_set : nat -> V -> S -> S * bool) read cdf ppf (c : tchoice S) (size_options : nat) (draws : list R) :
  length draws = length (raws c) -> (0 < size_options)%nat ->
  tmutate_unordered nopts try_set read cdf ppf c size_options draws = (c, Err ValueError).
Proof. intros H Hp. unfold tmutate_unordered. destruct (Nat.eqb_spec (length draws) (length (raws c) + size_options)); [lia|reflexivity]. Qed.
(** Otherwise, among distinct constants, its new indices are those of the draws, whatever the current ones. *)
Theorem C64_unordered {V} (same : V -> V -> bool) (opts : list V) (d : V) cdf ppf (c : tchoice unit) (draws : list R) :
  density cdf ppf -> (forall v, same v v = true) -> (0 < length opts)%nat -> INR (length opts) <= 5 * 10 ^ 8 ->
  (forall i j v w, nth_error opts i = Some v -> nth_error opts j = Some w -> same v w = true -> i = j) ->
  length draws = length (raws c) ->
  exists c', tmutate_unordered (length opts) (const_set same opts) (fun k _ => nth k opts d) cdf ppf c 0 draws = (c', Ok tt) /\
    tindices (length opts) cdf ppf c' = map (index_of (length opts) cdf ppf) draws.
Proof.
  intros Hd Hs Hn Hm Hinj H. unfold tmutate_unordered. rewrite Nat.add_0_r, H, Nat.eqb_refl. destruct (toptions c).
  destruct (C64_binned same opts d cdf ppf Hd Hs draws Hn Hm) as (c' & E & _ & _ & Hi). exists c'. split; [exact E|]. now apply Hi.
Qed.

(** The hypotheses are met: the Cauchy density (defined, unlike scipy's normal one). *)
Example C64_example : exists c', tset_raw 3 (const_set Z.eqb [5; 7; 9]%Z) (fun k _ => nth k [5; 7; 9]%Z 0%Z) cauchy_cdf cauchy_ppf [0; 0] tt = (c', Ok tt) /\
  tindices 3 cauchy_cdf cauchy_ppf c' = [1; 1]%Z.
Proof.
  destruct (C64_binned Z.eqb [5; 7; 9]%Z 0%Z cauchy_cdf cauchy_ppf cauchy_density Z.eqb_refl [0; 0]) as (c' & E & _ & _ & H); [cbn; lia|cbn; lra|].
  exists c'. split; [exact E|]. cbn [length] in H. rewrite H.
  - assert (Hi : index_of 3 cauchy_cdf cauchy_ppf 0 = 1%Z).
    { apply (C64_uniform 3 cauchy_cdf cauchy_ppf ltac:(lia) 0 1); [lia|]. unfold cauchy_cdf. rewrite atan_0. change (INR 1) with 1. change (INR (1 + 1)) with 2. replace (INR 3) with 3 by (cbn; ring). lra. }
    cbn. now rewrite Hi.
  - intros [|[|[|i]]] [|[|[|j]]] v w Hi Hj; cbn in *; intros E'; apply Z.eqb_eq in E'; congruence || (destruct i; discriminate) || (destruct j; discriminate) || auto.
Qed.
Example C64_transitions_example : nth_error (probabilities (map clean (map log_weight [1; 3; -2]))) 1 = Some (3 / 4).
Proof.
  rewrite (C64_move_probability [1; 3; -2] 1 3); [|exists 1; split; [now left|lra]|reflexivity]. f_equal. cbn.
  rewrite !Rmax_right by lra. rewrite Rmax_left by lra. field.
Qed.
Print Assumptions C39_history.
Print Assumptions C64_mutate.
Print Assumptions C64_boundary.
Print Assumptions C64_binned.

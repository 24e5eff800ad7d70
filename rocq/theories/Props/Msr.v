(** * C96: what the copies of a multiple run are told *)
From Coq Require Import List Arith QArith Bool Lia Lqa.
From Verif.Model Require Import Prelude MultiValue Pareto Hypervolume HypervolumePareto Msr.
From Verif.Model Require Float.
From Verif.Spec Require Import Msr.
From Verif.Proofs Require Import MultiValue Msr.
Import ListNotations.
Open Scope nat_scope.

Section C96.
  Variable S : Type.
  Variable sub_tell : nat -> Float.fl -> S -> S * result unit.

  Lemma logs_times draw d subs tells m rs : 1 <= d -> draw <> [] -> weights d draw -> length draw = length subs ->
    msr_run S sub_tell draw tells (msr_init S subs) = (m, rs) -> Forall (fun r => exists l, r = Ok l) rs ->
    exists hs, scalars tells None = map Ok hs /\ Forall plain hs /\
      forall i w log, nth_error draw i = Some w -> nth_error (ms_subs m) i = Some log -> (0 < total w)%Q /\ Forall2 (times (total w)) hs (snd log).
  Proof.
    intros Hd Hne HW HL E F. destruct (init_logs S sub_tell draw subs tells m rs Hne HL E F) as (hs & H1 & H2 & H3). exists hs. split; [exact H1|]. split; [exact H2|].
    intros i w log Hw Hi. assert (Hwi := proj1 (Forall_forall _ _) HW w (nth_error_In _ _ Hw)). destruct Hwi as (Lw & Pw).
    assert (Nw : w <> []) by (destruct w; [cbn in Lw; lia|discriminate]). split; [now apply total_pos|].
    assert (EL : snd log = map (fun h => weigh h w) hs).
    { pose proof (map_nth_error snd i _ Hi) as A. rewrite H3 in A. rewrite (map_nth_error (fun w => map (fun h => weigh h w) hs) i draw Hw) in A. now injection A. }
    rewrite EL. clear - H2 Nw Pw. induction H2 as [|h hs Hh H2 IH]; cbn; constructor; [now apply weigh_times|exact IH].
  Qed.

  (** With one objective, each copy is told the loss, times a positive number which is its own and does not change. *)
  Theorem C96_single : forall draw subs tells ls m rs, draw <> [] -> weights 1 draw -> length draw = length subs -> map snd tells = map (fun l => [l]) ls ->
    msr_run S sub_tell draw tells (msr_init S subs) = (m, rs) -> Forall (fun r => exists l, r = Ok l) rs ->
    forall i w log, nth_error draw i = Some w -> nth_error (ms_subs m) i = Some log -> (0 < total w)%Q /\ Forall2 (times (total w)) (map Float.Fin ls) (snd log).
  Proof.
    intros draw subs tells ls m rs Hne HW HL HT E F i w log Hw Hi. destruct (logs_times draw 1 subs tells m rs (le_n 1) Hne HW HL E F) as (hs & H1 & _ & H3).
    rewrite (scalars_single tells None ls HT) in H1. assert (EH : hs = map Float.Fin ls).
    { clear - H1. revert hs H1. induction ls as [|l ls IH]; intros hs H; destruct hs; try discriminate H; [reflexivity|]. cbn in *. injection H as <- H. f_equal. now apply IH. }
    rewrite EH in H3. exact (H3 i w log Hw Hi).
  Qed.
  (** With several objectives too: the copies are told the loss computed from the hypervolume, times a positive number. *)
  Theorem C96_hypervolume : forall draw d subs tells m rs, 2 <= d -> draw <> [] -> weights d draw -> length draw = length subs -> Forall (fun t => length (snd t) = d) tells ->
    msr_run S sub_tell draw tells (msr_init S subs) = (m, rs) -> Forall (fun r => exists l, r = Ok l) rs ->
    exists hs, hypervolume_losses (hp_init None 15 false) tells = map Ok hs /\
      forall i w log, nth_error draw i = Some w -> nth_error (ms_subs m) i = Some log -> (0 < total w)%Q /\ Forall2 (times (total w)) (map to_fl hs) (snd log).
  Proof.
    intros draw d subs tells m rs Hd Hne HW HL HT E F. destruct (logs_times draw d subs tells m rs ltac:(lia) Hne HW HL E F) as (hs & H1 & _ & H3).
    assert (HT' : Forall (fun t : nat * list Q => 2 <= length (snd t)) tells) by (eapply Forall_impl; [|exact HT]; cbn; lia).
    rewrite (scalars_several tells HT' None) in H1. change auto_bound with 15 in H1. revert H1. generalize (hypervolume_losses (hp_init None 15 false) tells). intros l H1.
    assert (K : exists ks, l = map Ok ks /\ hs = map to_fl ks).
    { clear - H1. revert hs H1. induction l as [|r l IH]; intros hs H; destruct hs as [|h hs]; try discriminate H; [exists []; split; reflexivity|]. cbn in H. injection H as A B.
      destruct r as [k|e]; [|discriminate A]. cbn in A. injection A as <-. destruct (IH hs B) as (ks & -> & ->). exists (k :: ks). split; reflexivity. }
    destruct K as (ks & -> & ->). exists ks. split; [reflexivity|exact H3].
  Qed.
  (** Hence all copies rank the candidates in the same way, whatever the weights: they all minimise the same function. *)
  Theorem C96_same_ranking : forall draw d subs tells m rs, 1 <= d -> draw <> [] -> weights d draw -> length draw = length subs ->
    msr_run S sub_tell draw tells (msr_init S subs) = (m, rs) -> Forall (fun r => exists l, r = Ok l) rs ->
    forall i j log log', nth_error (ms_subs m) i = Some log -> nth_error (ms_subs m) j = Some log' -> length (snd log) = length (snd log') /\
    forall t u a b a' b', nth_error (snd log) t = Some a -> nth_error (snd log) u = Some b -> nth_error (snd log') t = Some a' -> nth_error (snd log') u = Some b' ->
      Float.fl_lt a b = Float.fl_lt a' b'.
  Proof.
    intros draw d subs tells m rs Hd Hne HW HL E F i j log log' Hi Hj. destruct (logs_times draw d subs tells m rs Hd Hne HW HL E F) as (hs & H1 & H2 & H3).
    assert (LS : length (ms_subs m) = length draw).
    { destruct (init_logs S sub_tell draw subs tells m rs Hne HL E F) as (hs' & _ & _ & K). apply (f_equal (@length _)) in K. now rewrite !map_length in K. }
    assert (W : forall k, k < length (ms_subs m) -> exists w, nth_error draw k = Some w).
    { intros k Hk. destruct (nth_error draw k) eqn:N; [eauto|]. apply nth_error_None in N. lia. }
    destruct (W i ltac:(apply nth_error_Some; congruence)) as (w & Hw). destruct (W j ltac:(apply nth_error_Some; congruence)) as (w' & Hw').
    destruct (H3 i w log Hw Hi) as (P & T). destruct (H3 j w' log' Hw' Hj) as (P' & T').
    assert (LEN : forall k l l', Forall2 (times k) l l' -> length l = length l') by (intros k l l' G; induction G; cbn; congruence).
    split; [rewrite <- (LEN _ _ _ T), <- (LEN _ _ _ T'); reflexivity|]. intros t u a b a' b' Ha Hb Ha' Hb'.
    assert (N : forall k l l' t v, Forall2 (times k) l l' -> nth_error l' t = Some v -> exists h, nth_error l t = Some h /\ times k h v).
    { clear. intros k l l' t v G. revert t. induction G as [|x y l l' Hxy G IH]; intros t Ht; destruct t; try discriminate Ht; cbn in *; [injection Ht as <-; eauto|now apply IH]. }
    destruct (N _ _ _ t a T Ha) as (h1 & A1 & B1). destruct (N _ _ _ u b T Hb) as (h2 & A2 & B2).
    destruct (N _ _ _ t a' T' Ha') as (h1' & A1' & B1'). destruct (N _ _ _ u b' T' Hb') as (h2' & A2' & B2').
    assert (h1' = h1) by congruence. assert (h2' = h2) by congruence. subst h1' h2'.
    assert (P1 := proj1 (Forall_forall _ _) H2 h1 (nth_error_In _ _ A1)). assert (P2 := proj1 (Forall_forall _ _) H2 h2 (nth_error_In _ _ A2)).
    rewrite (times_lt (total w) h1 h2 a b P P1 P2 B1 B2), (times_lt (total w') h1 h2 a' b' P' P1 P2 B1' B2'). reflexivity.
  Qed.
  (** In particular the first vector of losses is told as 0 to all copies, not as a weighted sum. *)
  Theorem C96_first : forall draw d subs c losses m r, 2 <= d -> draw <> [] -> weights d draw -> length draw = length subs -> length losses = d ->
    msr_tell S sub_tell draw c losses (msr_init S subs) = (m, Ok r) ->
    forall log, In log (ms_subs m) -> exists v, snd log = [Float.Fin v] /\ (v == 0)%Q.
  Proof.
    intros draw d subs c losses m r Hd Hne HW HL Hl E log Hin.
    assert (ER : msr_run S sub_tell draw [(c, losses)] (msr_init S subs) = (m, [Ok r])) by (cbn [msr_run]; now rewrite E).
    destruct (C96_hypervolume draw d subs [(c, losses)] m [Ok r] Hd Hne HW HL ltac:(repeat constructor; exact Hl) ER ltac:(repeat constructor; eauto)) as (hs & H1 & H2).
    cbn in H1. destruct hs as [|h [|h' hs]]; try discriminate H1. cbn in H1. injection H1 as <-.
    destruct (In_nth_error _ _ Hin) as (i & Hi).
    assert (LS : length (ms_subs m) = length draw).
    { destruct (init_logs S sub_tell draw subs [(c, losses)] m [Ok r] Hne HL ER ltac:(repeat constructor; eauto)) as (hs' & _ & _ & K). apply (f_equal (@length _)) in K. now rewrite !map_length in K. }
    assert (i < length (ms_subs m)) by (apply nth_error_Some; congruence). destruct (nth_error draw i) as [w|] eqn:Hw; [|apply nth_error_None in Hw; lia].
    destruct (H2 i w log Hw Hi) as (_ & T). cbn in T. inversion T as [|x y l l' A B]; subst. inversion B; subst. destruct A as (v & -> & Ev). exists v. split; [reflexivity|]. rewrite Ev. ring.
  Qed.
  (** Unlike those of a portfolio, the tells stop at the first copy which refuses a candidate: the error is raised and the copies after it are left as they were. *)
  Theorem C96_stop : forall draw c losses m m' loss e, ms_coeffs m = [] \/ ms_coeffs m = draw -> length draw = length (ms_subs m) -> draw <> [] ->
    snd (scalar_loss c losses (ms_hp m)) = Ok loss -> msr_tell S sub_tell draw c losses m = (m', Err e) ->
    exists k w s log, nth_error draw k = Some w /\ nth_error (ms_subs m) k = Some (s, log) /\ snd (sub_tell c (weigh loss w) s) = Err e /\
      (forall i, k < i -> nth_error (ms_subs m') i = nth_error (ms_subs m) i) /\
      (forall i w s log, i < k -> nth_error draw i = Some w -> nth_error (ms_subs m) i = Some (s, log) ->
         snd (sub_tell c (weigh loss w) s) = Ok tt /\ nth_error (ms_subs m') i = Some (fst (sub_tell c (weigh loss w) s), log ++ [weigh loss w])).
  Proof.
    intros draw c losses m m' loss e HC HL Hne ES E. unfold msr_tell in E. destruct (scalar_loss c losses (ms_hp m)) as [hp r]. cbn in ES. subst r.
    set (coeffs := match ms_coeffs m with [] => draw | cs => cs end) in E. assert (EC : coeffs = draw) by (unfold coeffs; destruct HC as [-> | ->]; [reflexivity|destruct draw; reflexivity]).
    rewrite EC in E. clear EC coeffs HC. destruct (tell_copies S sub_tell c loss draw loss (ms_subs m)) as [subs' r] eqn:ET. injection E as <- ->. cbn [ms_subs].
    generalize dependent subs'. generalize loss at 2. generalize dependent draw. generalize (ms_subs m). clear m losses hp.
    induction l as [|[s log] subs IH]; intros draw HL Hne cand subs' ET; (destruct draw as [|w draw]; [congruence|]); [discriminate HL|]. cbn [tell_copies] in ET.
    destruct (sub_tell c (weigh loss w) s) as [s' [[]|e']] eqn:ES.
    - destruct (tell_copies S sub_tell c loss draw (weigh loss w) subs) as [subs1 r1] eqn:E1. injection ET as <- ->. injection HL as HL.
      destruct draw as [|w1 draw]; [cbn in E1; destruct subs; discriminate E1|].
      destruct (IH (w1 :: draw) HL ltac:(discriminate) _ _ E1) as (k & w' & s1 & log1 & A & B & C & D & F). exists (Datatypes.S k), w', s1, log1.
      split; [exact A|]. split; [exact B|]. split; [exact C|]. split.
      + intros i Hi. destruct i; [lia|]. cbn. apply D. lia.
      + intros i wi si logi Hi Hw Hs. destruct i; cbn in *; [|apply (F i); auto; lia]. injection Hw as <-. injection Hs as <- <-. rewrite ES. split; reflexivity.
    - injection ET as <- ->. exists 0, w, s, log. split; [reflexivity|]. split; [reflexivity|]. split; [rewrite ES; reflexivity|]. split; [|intros; lia].
      intros i Hi. destruct i; [lia|reflexivity].
  Qed.
End C96.
Print Assumptions C96_single.
Print Assumptions C96_hypervolume.
Print Assumptions C96_same_ranking.
Print Assumptions C96_first.
Print Assumptions C96_stop.

(** ** Refuted: each copy is told the sum of the objectives with its own weights *)
Definition accept (c : nat) (l : Float.fl) (s : unit) : unit * result unit := (s, Ok tt).
Theorem C96_weighted_refuted : ~ (forall draw subs tells m rs, weights 2 draw -> length draw = length subs -> Forall (fun t => length (snd t) = 2) tells ->
  msr_run unit accept draw tells (msr_init unit subs) = (m, rs) ->
  forall i w log, nth_error draw i = Some w -> nth_error (ms_subs m) i = Some log ->
    Forall2 (fun t v => exists q, v = Float.Fin q /\ (q == weighted_sum w (snd t))%Q) tells (snd log)).
Proof.
  intros H. specialize (H [[(1#2); (1#4)]; [(1#3); (2#3)]]%Q [tt; tt] [(0, [1; 2]%Q)] _ _ ltac:(repeat constructor) eq_refl ltac:(repeat constructor) eq_refl 0 _ _ eq_refl eq_refl).
  inversion H as [|? ? ? ? (q & E & V)]; subst. injection E as <-. vm_compute in V. discriminate V.
Qed.
Print Assumptions C96_weighted_refuted.
(** Refuted: the attribute [loss] of a candidate is the loss which was told for it. It is the loss told to the last copy. *)
Theorem C96_candidate_refuted : ~ (forall draw subs c l m r, weights 1 draw -> length draw = length subs ->
  msr_tell unit accept draw c [l] (msr_init unit subs) = (m, Ok r) -> exists q, r = Float.Fin q /\ (q == l)%Q).
Proof.
  intros H. specialize (H [[1#2]]%Q [tt] 0 4%Q _ _ ltac:(repeat constructor) eq_refl eq_refl). destruct H as (q & E & V). injection E as <-. vm_compute in V. discriminate V.
Qed.
Print Assumptions C96_candidate_refuted.
(** Refuted: telling a candidate succeeds when the copy which proposed it accepts it. Copies which know their own candidates only ([s]) refuse the others. *)
Definition own (c : nat) (l : Float.fl) (s : list nat) : list nat * result unit := if existsb (Nat.eqb c) s then (s, Ok tt) else (s, Err NotImplementedError).
Theorem C96_own_refuted : ~ (forall draw subs c l m r, weights 1 draw -> length draw = length subs -> (exists s, In s subs /\ In c s) ->
  msr_tell (list nat) own draw c [l] (msr_init (list nat) subs) = (m, r) -> exists v, r = Ok v).
Proof.
  intros H. specialize (H [[1#2]; [1#3]]%Q [[0]; [1]] 1 4%Q _ _ ltac:(repeat constructor) eq_refl ltac:(exists [1]; cbn; tauto) eq_refl). destruct H as (v & E). discriminate E.
Qed.
Print Assumptions C96_own_refuted.

(** ** Cases *)
Definition draw2 : list (list Q) := [[(1#2); (1#4)]; [(1#3); (2#3)]]%Q.
Definition tells17 : list (nat * list Q) := map (fun k => (k, [inject_Z (Z.of_nat (k + 1)); inject_Z (Z.of_nat (20 - k))])) (seq 0 15) ++ [(15, [3; 3]%Q); (16, [2; 2]%Q)].
Example C96_case : let '(m, rs) := msr_run unit accept draw2 tells17 (msr_init unit [tt; tt]) in
  forallb (fun r => match r with Ok _ => true | Err _ => false end) rs = true /\
  map (fun log => map (fun v => match v with Float.Fin q => Some (Qred q) | _ => None end) (skipn 14 (snd log))) (ms_subs m) =
    [[Some 0; Some (-615 # 4); Some (-351 # 2)]; [Some 0; Some (-205 # 1); Some (-234 # 1)]]%Q.
Proof. vm_compute. split; reflexivity. Qed.
Example C96_case_weights : weights 2 draw2 /\ Forall (fun t => length (snd t) = 2) tells17.
Proof. split; repeat constructor. Qed.

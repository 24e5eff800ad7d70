(** C76: simultaneous perturbation (SPSA) *)
From Coq Require Import List Arith Lia QArith Lqa Bool.
From Verif.Model Require Import Prelude MultiValue Spsa.
From Verif.Spec Require Import Spsa.
From Verif.Proofs Require Import MultiValue Spsa.
Import ListNotations.
Open Scope nat_scope.

Definition directed (d : nat) (r : round) : Prop := length (r_dir r) = d.

(** With asks and tells one after the other, the candidates go by pairs: both sides, at the distance [c j], of a centre
    which starts at the reference and moves against the slope estimated by the round before. *)
Theorem C76_rounds : forall a c d unused rs, (forall j, ~ (c j == 0)%Q) -> Forall (directed d) rs ->
  exists cands s ts, spsa_run a c (flat_map (events unused) rs) (spsa_init d) = Ok (cands, s) /\
    centres a c 0 rs (repeat 0%Q d) ts /\ perturbed c 0 ts rs cands.
Proof.
  intros a c d unused rs Hc F.
  destruct (run_rounds a c d Hc (repeat 0%Q d) unused rs 0 (spsa_init d) [repeat 0%Q d]) as (cands & s & ts & E & _ & C & P).
  - constructor. reflexivity.
  - exact F.
  - discriminate.
  - cbn [last] in C, P. eauto 6.
Qed.
Print Assumptions C76_rounds.

(** The recommendation is the mean of all the centres, from the first ask of a round to the first ask of the next one. *)
Theorem C76_recommendation : forall a c d unused rs dir l1 l2 k, (forall j, ~ (c j == 0)%Q) -> Forall (directed d) rs ->
  length dir = d ->
  exists cands s ts m, spsa_run a c (flat_map (events unused) rs ++ Ask dir :: firstn k [Tell l1; Ask unused; Tell l2]) (spsa_init d) = Ok (cands, s) /\
    centres a c 0 rs (repeat 0%Q d) ts /\ spsa_recommend s = Some m /\ mean_of d ts m.
Proof.
  intros a c d unused rs dir l1 l2 k Hc F Ld.
  destruct (run_rounds a c d Hc (repeat 0%Q d) unused rs 0 (spsa_init d) [repeat 0%Q d]) as (cands & s & ts & E & B & C & _).
  { constructor. reflexivity. } { exact F. } { discriminate. }
  cbn [last] in C. destruct (round_step a c d Hc _ _ _ _ dir B Ld) as (t & x1 & s1 & E1 & _ & _ & _ & (m & M & A) & K).
  destruct (K l1 unused) as (x2 & E2 & _ & R2 & _). destruct A as (_ & A & _). cbn [app] in A.
  assert (X : exists xs s', spsa_run a c (Ask dir :: firstn k [Tell l1; Ask unused; Tell l2]) s = Ok (xs, s') /\ spsa_recommend s' = Some m).
  { destruct k as [|[|[|k]]]; cbn [firstn spsa_run]; rewrite E1; cbn [bind fst snd spsa_run].
    - eexists _, _; split; [reflexivity|exact M].
    - eexists _, _; split; [reflexivity|]. rewrite R2. exact M.
    - rewrite E2. cbn [bind fst snd]. eexists _, _; split; [reflexivity|]. rewrite R2. exact M.
    - rewrite E2. cbn [bind fst snd]. rewrite firstn_nil. cbn [spsa_run bind fst snd]. eexists _, _; split; [reflexivity|]. exact M. }
  destruct X as (xs & s' & Ex & Mx). exists (cands ++ xs), s', (repeat 0%Q d :: ts), m.
  split; [|split; [exact C|split; [exact Mx|exact A]]]. rewrite run_app, E. cbn [bind fst snd]. rewrite Ex. reflexivity.
Qed.
Print Assumptions C76_recommendation.

Lemma linear_step a c g b d : (forall j, 0 <= a j)%Q -> (forall j, 0 < c j)%Q -> length g = d ->
  forall rs j t ts cands, Forall (directed d) rs -> length t = d ->
  centres a c j rs t ts -> perturbed c j ts rs cands -> played (fun x => dot g x + b)%Q rs cands ->
  forall p, In p ts -> length p = d /\ (dot g p <= dot g t)%Q.
Proof.
  intros Ha Hc Lg. induction rs as [|r rs IH]; intros j t ts cands F Lt C P Pl.
  - inversion C; subst. intros p [<-|[]]. split; [auto|apply Qle_refl].
  - inversion F as [|? ? Fr Frs]; subst. inversion C as [|? ? ? ? t' ts' O C']; subst.
    inversion P as [|? ? ? ? ? x1 x2 xs O1 O2 P']; subst. inversion Pl as [|? ? ? ? ? Q1 Q2 Pl']; subst.
    unfold directed in Fr. pose proof O as (Lt' & _).
    assert (D : (dot g t' <= dot g t)%Q).
    { rewrite (dot_line g t (r_dir r) t' _ O) by congruence. rewrite Q1, Q2.
      rewrite (dot_line g t (r_dir r) x1 _ O1), (dot_line g t (r_dir r) x2 _ O2) by congruence.
      pose proof (Hc j) as Cj. pose proof (Hc (S j)) as Cj'. pose proof (Ha (S j)) as Aj. set (q := dot g (r_dir r)).
      setoid_replace (dot g t + - (a (S j) * ((dot g t + c j * q + b - (dot g t + - c j * q + b)) / (2 * c (S j)))) * q)%Q
        with (dot g t - a (S j) * (c j / c (S j)) * (q * q))%Q by (field; lra).
      assert (0 <= a (S j) * (c j / c (S j)) * (q * q))%Q; [|lra].
      apply Qmult_le_0_compat; [apply Qmult_le_0_compat; [exact Aj|apply Qle_shift_div_l; lra]|]. destruct (Qlt_le_dec q 0).
      - setoid_replace (q * q)%Q with ((- q) * (- q))%Q by ring. apply Qmult_le_0_compat; lra.
      - apply Qmult_le_0_compat; lra. }
    intros p [<-|Hp]; [split; [auto|apply Qle_refl]|].
    destruct (IH (S j) t' ts' xs Frs ltac:(congruence) C' P' Pl' p Hp) as (A & B). split; [exact A|lra].
Qed.

(** When the loss is a linear function, the centres never go up, nor does the recommendation. *)
Theorem C76_linear : forall a c d unused rs dir g b cands s, (forall j, 0 <= a j)%Q -> (forall j, 0 < c j)%Q ->
  Forall (directed d) rs -> length dir = d -> length g = d ->
  spsa_run a c (flat_map (events unused) rs ++ [Ask dir]) (spsa_init d) = Ok (cands, s) ->
  played (fun x => dot g x + b)%Q rs (removelast cands) ->
  exists ts m, centres a c 0 rs (repeat 0%Q d) ts /\ (forall p, In p ts -> dot g p + b <= dot g (repeat 0 d) + b)%Q /\
    spsa_recommend s = Some m /\ (dot g m + b <= dot g (repeat 0 d) + b)%Q.
Proof.
  intros a c d unused rs dir g b cands s Ha Hc F Ld Lg E Pl.
  assert (Hc' : forall j, ~ (c j == 0)%Q) by (intros j; specialize (Hc j); lra).
  destruct (run_rounds a c d Hc' (repeat 0%Q d) unused rs 0 (spsa_init d) [repeat 0%Q d]) as (cs & s0 & ts & E0 & B & C & P).
  { constructor. reflexivity. } { exact F. } { discriminate. }
  cbn [last] in C, P. destruct (round_step a c d Hc' _ _ _ _ dir B Ld) as (t & x1 & s1 & E1 & _ & _ & _ & (m & M & A) & _).
  rewrite run_app, E0 in E. cbn [bind fst snd spsa_run] in E. rewrite E1 in E. cbn [bind fst snd spsa_run] in E. injection E as <- <-.
  rewrite removelast_last in Pl. destruct A as (_ & A & _). cbn [app] in A.
  pose proof (linear_step a c g b d Ha Hc Lg rs 0 _ _ _ F (repeat_length _ _) C P Pl) as G.
  exists (repeat 0%Q d :: ts), m. split; [exact C|]. split; [intros p Hp; destruct (G p Hp); lra|]. split; [exact M|].
  assert (K := dot_mean g d _ m A Lg (fun p Hp => proj1 (G p Hp))).
  set (pts := repeat 0%Q d :: ts) in *. set (z := dot g (repeat 0%Q d)) in *.
  assert (N : (0 < inject_Z (Z.of_nat (length pts)))%Q) by (apply (qnat_pos (length pts)); unfold pts; cbn; lia).
  assert (U : (fold_right Qplus 0 (map (dot g) pts) <= z * inject_Z (Z.of_nat (length pts)))%Q).
  { clearbody pts. clear - G. induction pts as [|p pts IH]; cbn [map fold_right length].
    - change (inject_Z (Z.of_nat 0)) with 0%Q. lra.
    - specialize (IH (fun q Hq => G q (or_intror Hq))). destruct (G p (or_introl eq_refl)) as (_ & Gp).
      change (inject_Z (Z.of_nat (S (length pts)))) with (qnat (S (length pts))). rewrite qnat_S. unfold qnat. lra. }
  assert (V : (dot g m <= z)%Q); [|lra].
  destruct (Qlt_le_dec z (dot g m)) as [H|H]; [exfalso|exact H].
  pose proof (Qmult_lt_compat_r _ _ _ N H). lra.
Qed.
Print Assumptions C76_linear.

(** A point which is told (for instance after [suggest]) before the first ask spoils everything: whatever happens next,
    all the candidates are NaN. *)
Theorem C76_suggestion_refuted : forall a c d loss evs,
  exists cands s, spsa_run a c (Tell loss :: evs) (spsa_init d) = Ok (cands, s) /\ Forall (fun x => x = None) cands.
Proof.
  intros a c d loss evs. destruct (ruined_run a c evs _ (suggested_ruined d loss)) as (cands & s & E & F). exists cands, s. auto.
Qed.
Print Assumptions C76_suggestion_refuted.

(** Asking twice (as when a candidate violates a constraint and another one is asked for) moves the centre again, along
    the new direction, with the losses of the old one. *)
Theorem C76_asked_again_refuted :
  ~ (forall a c d r dir1 dir2 xs1 s1 xs2 s2, (forall j, ~ (c j == 0)%Q) -> directed d r ->
      length dir1 = d -> length dir2 = d ->
      spsa_run a c (events [] r ++ [Ask dir1]) (spsa_init d) = Ok (xs1, s1) ->
      spsa_run a c (events [] r ++ [Ask dir1; Ask dir2]) (spsa_init d) = Ok (xs2, s2) ->
      spsa_recommend s2 = spsa_recommend s1).
Proof.
  intros H. specialize (H (fun _ => 1%Q) (fun _ => 1%Q) 1 (Round [1%Q] 0%Q 4%Q) [1%Q] [1%Q]). cbn in H.
  specialize (H _ _ _ _ (fun _ E => ltac:(discriminate E)) eq_refl eq_refl eq_refl eq_refl eq_refl). discriminate H.
Qed.
Print Assumptions C76_asked_again_refuted.

(** Two rounds in two dimensions *)
Example C76_nontrivial :
  let a := fun j => 1%Q in let c := fun j => (1 / inject_Z (Z.of_nat (S j)))%Q in
  match spsa_run a c (flat_map (events []) [Round [1; -(1)]%Q 0 2; Round [1; 1]%Q 3 0] ++ [Ask [1; 1]%Q]) (spsa_init 2) with
  | Ok (cands, s) =>
      Forall2 (fun x y => match x with Some x => Forall2 Qeq x y | None => False end) cands
        [[-(1); 1]; [1; -(1)]; [-(5) # 2; 3 # 2]; [-(3) # 2; 5 # 2]; [13 # 6; 37 # 6]]%Q /\
      match spsa_recommend s with Some m => Forall2 Qeq m [1 # 6; 17 # 6]%Q | None => False end
  | Err _ => False
  end.
Proof. vm_compute. repeat constructor. Qed.
(** Losses of a linear function meet the hypotheses of [C76_linear]: the candidates of the round are -1 and 1. *)
Example C76_linear_nontrivial :
  exists cands s, spsa_run (fun _ => 1%Q) (fun _ => 1%Q) (flat_map (events []) [Round [1%Q] (-(3))%Q 7%Q] ++ [Ask [1%Q]]) (spsa_init 1) = Ok (cands, s) /\
    played (fun x => dot [5%Q] x + 2)%Q [Round [1%Q] (-(3))%Q 7%Q] (removelast cands) /\
    match spsa_recommend s with Some m => Forall2 Qeq m [-(5) # 2]%Q | None => False end.
Proof.
  eexists _, _. split; [reflexivity|]. split; [|vm_compute; repeat constructor]. cbn [removelast].
  constructor; [reflexivity|reflexivity|constructor].
Qed.

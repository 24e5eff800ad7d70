(** C53: crossovers. *)
From Coq Require Import Arith ZArith Bool Lia List.
From Verif.Model Require Import Prelude Crossover.
From Verif.Spec Require Import Crossover.
From Verif.Proofs Require Import Crossover.
Import ListNotations.
Open Scope nat_scope.

Section C53.
Context {A : Type} (donor individual : list A).
Notation n := (length donor).
Hypothesis Hlen : length individual = n.

(** Variablewise: the coordinates other than [R] whose draw asks for it. *)
Theorem C53_variablewise (R : nat) (u : nat -> bool) :
  takes (fun i => i <> R /\ u i = true) donor individual (variablewise R u donor individual).
Proof. now apply variablewise_takes. Qed.

(** One point: what is after, or before, the point; both sides are non-empty. *)
Theorem C53_onepoint (R : nat) (flip : bool) : 1 <= R < n ->
  takes (fun i => if flip then R <= i else i < R) donor individual (onepoint R flip donor individual) /\
  (exists i, i < n /\ (if flip then R <= i else i < R)) /\ (exists i, i < n /\ ~ (if flip then R <= i else i < R)).
Proof.
  intros H. split; [apply onepoint_takes; [assumption|lia]|].
  destruct flip; split; (exists 0 + exists R); lia.
Qed.

(** Two points: what is inside, or outside, a window; both are non-empty. *)
Theorem C53_twopoints (c1 c2 : nat) (which : bool) (r : nat) (flip : bool) :
  2 <= n -> c1 <= n -> c2 <= n -> c1 <> c2 -> 1 <= r < n ->
  exists b0 b1 out, b0 < b1 <= n /\ ~ (b0 = 0 /\ b1 = n) /\
    twopoints c1 c2 which r flip donor individual = Ok out /\
    takes (fun i => if flip then b0 <= i < b1 else ~ (b0 <= i < b1)) donor individual out.
Proof.
  intros Hn H1 H2 Hne Hr. destruct (two_bounds_ok n c1 c2 which r Hn H1 H2 Hne Hr) as (b0 & b1 & E & Hb & Hp).
  unfold twopoints. rewrite E. cbn [bind]. exists b0, b1. eexists. split; [exact Hb|]. split; [exact Hp|]. split; [reflexivity|].
  destruct flip.
  - apply put_slice_takes; [exact Hlen|lia].
  - assert (L : length (put_slice 0 b0 (slice 0 b0 individual) donor) = n).
    { apply put_slice_length; [lia|apply slice_length; lia]. }
    eapply (takes_ext (fun i => 0 <= i < b0 \/ b1 <= i < n)); [intros i Hi; lia|].
    eapply takes_trans; [intros i; lia|apply put_slice_takes; [exact Hlen|lia]|].
    apply put_slice_takes; [congruence|lia].
Qed.

(** Rotated two points: a window of the individual moved to another place. *)
Theorem C53_rotated (c1 c2 : nat) (which : bool) (r s : nat) :
  2 <= n -> c1 <= n -> c2 <= n -> c1 <> c2 -> 1 <= r < n ->
  exists b0 b1, b0 < b1 <= n /\ ~ (b0 = 0 /\ b1 = n) /\
    (s < n + 1 - (b1 - b0) ->
     exists out, rotated_twopoints c1 c2 which r s donor individual = Ok out /\ length out = n /\
       forall i, i < n -> nth_error out i = if (b0 <=? i) && (i <? b1) then nth_error individual (s + (i - b0)) else nth_error donor i).
Proof.
  intros Hn H1 H2 Hne Hr. destruct (two_bounds_ok n c1 c2 which r Hn H1 H2 Hne Hr) as (b0 & b1 & E & Hb & Hp).
  exists b0, b1. split; [exact Hb|]. split; [exact Hp|]. intros Hs.
  unfold rotated_twopoints. rewrite E. cbn [bind]. destruct (Nat.ltb_spec b1 (n + 1)); [|lia].
  assert (Ls : length (slice s (s + b1 - b0) individual) = b1 - b0) by (rewrite slice_length; lia).
  eexists. split; [reflexivity|]. split; [apply put_slice_length; [lia|exact Ls]|].
  intros i Hi. rewrite put_slice_nth by (try exact Ls; lia).
  destruct (Nat.leb_spec b0 i), (Nat.ltb_spec i b1); cbn [andb]; try reflexivity.
  rewrite slice_nth. destruct (Nat.ltb_spec (i - b0) (s + b1 - b0 - s)); [reflexivity|lia].
Qed.

(** Voronoi: the positions nearer to the fourth point than to the three others; these three
    keep the values of the donor. *)
Theorem C53_voronoi (shape : list nat) (x1 x2 x3 x4 : list nat) : fold_right Nat.mul 1 shape = n ->
  takes (fun i => exists ix, nth_error (indices shape) i = Some ix /\
           (dist2 ix x4 < dist2 ix x1 /\ dist2 ix x4 < dist2 ix x2 /\ dist2 ix x4 < dist2 ix x3)%Z)
        donor individual (voronoi shape x1 x2 x3 x4 donor individual) /\
  (forall i ix, nth_error (indices shape) i = Some ix -> ix = x1 \/ ix = x2 \/ ix = x3 ->
     nth_error (voronoi shape x1 x2 x3 x4 donor individual) i = nth_error donor i).
Proof.
  intros Hs. unfold voronoi.
  pose proof (put_mask_takes (map (closer x1 x2 x3 x4) (indices shape)) donor individual Hlen) as H.
  rewrite map_length, indices_length in H. specialize (H Hs).
  assert (HP : forall i, nth_error (map (closer x1 x2 x3 x4) (indices shape)) i = Some true <->
    exists ix, nth_error (indices shape) i = Some ix /\
           (dist2 ix x4 < dist2 ix x1 /\ dist2 ix x4 < dist2 ix x2 /\ dist2 ix x4 < dist2 ix x3)%Z).
  { intros i. rewrite nth_error_map. destruct (nth_error (indices shape) i) as [ix|]; cbn.
    - unfold closer. split.
      + intros [= H1]. exists ix. split; [reflexivity|]. apply Z.ltb_lt in H1. lia.
      + intros (ix' & [= <-] & H1). f_equal. apply Z.ltb_lt. lia.
    - split; [discriminate|]. intros (ix & H1 & _). discriminate. }
  split; [eapply takes_ext; [|exact H]; intros; apply HP|].
  intros i ix Hi Hix. destruct H as [_ H].
  assert (i < n). { rewrite <- Hs, <- indices_length. apply nth_error_Some. congruence. }
  apply H; [assumption|]. rewrite HP. intros (ix' & E & Hd). rewrite Hi in E. injection E as <-.
  pose proof (dist2_nonneg ix x4). destruct Hix as [-> | [-> | ->]]; rewrite dist2_self in Hd; lia.
Qed.
End C53.

(** Whatever the mode but the rotated one: a coordinatewise mix, with a coordinate of the
    donor at least (dimension 2 at least). *)
Definition legal (n : nat) (m : mode) (d : draws) : Prop :=
  dR d < n /\ (m = Onepoint -> 1 <= dR d) /\ dc1 d <= n /\ dc2 d <= n /\ dc1 d <> dc2 d /\ 1 <= dr d < n /\
  forall shape, m = Voronoi (Some shape) -> fold_right Nat.mul 1 shape = n /\ In (dx1 d) (indices shape).
Theorem C53_apply {A} (m : mode) (d : draws) (donor individual : list A) :
  length individual = length donor -> 2 <= length donor -> m <> Rotated -> legal (length donor) m d ->
  exists out, apply_crossover m d donor individual = Ok out /\ coordinatewise donor individual out /\
    exists i, i < length donor /\ nth_error out i = nth_error donor i.
Proof.
  intros Hl Hn Hm (HR & HR1 & H1 & H2 & Hne & Hr & Hv).
  assert (Hvar : exists out, Ok (variablewise (dR d) (du d) donor individual) = Ok out /\ coordinatewise donor individual out /\
    exists i, i < length donor /\ nth_error out i = nth_error donor i).
  { eexists. split; [reflexivity|]. pose proof (C53_variablewise donor individual Hl (dR d) (du d)) as H. split.
    - eapply takes_coordinatewise; [|exact H]. intros i. destruct (Nat.eq_dec i (dR d)), (du d i); (tauto || (right; intros []; congruence) || (left; split; auto)).
    - exists (dR d). split; [exact HR|]. apply H; [exact HR|tauto]. }
  assert (Htwo : exists out, twopoints (dc1 d) (dc2 d) (dwhich d) (dr d) (dflip d) donor individual = Ok out /\ coordinatewise donor individual out /\
    exists i, i < length donor /\ nth_error out i = nth_error donor i).
  { destruct (C53_twopoints donor individual Hl (dc1 d) (dc2 d) (dwhich d) (dr d) (dflip d) Hn H1 H2 Hne Hr) as (b0 & b1 & out & Hb & Hp & E & Ht).
    exists out. split; [exact E|]. split.
    - eapply takes_coordinatewise; [|exact Ht]. intros i. destruct (dflip d); lia.
    - destruct Ht as [_ Ht]. destruct (dflip d).
      + destruct (Nat.eq_dec b0 0); [exists (length donor - 1)|exists 0]; (split; [lia|apply Ht; lia]).
      + exists b0. split; [lia|apply Ht; lia]. }
  unfold apply_crossover. destruct m as [| | | |[[|n1 [|n2 shape]]|]]; try exact Hvar; try exact Htwo.
  - destruct (3 <=? length donor); [|exact Hvar]. eexists. split; [reflexivity|].
    destruct (C53_onepoint donor individual Hl (dR d) (dflip d)) as (Ht & _ & i & Hi & Hni); [split; [now apply HR1|exact HR]|].
    split; [eapply takes_coordinatewise; [|exact Ht]; intros j; destruct (dflip d); lia|].
    exists i. split; [exact Hi|]. now apply Ht.
  - destruct (4 <=? length donor); [exact Htwo|exact Hvar].
  - congruence.
  - destruct (Hv _ eq_refl) as [Hs Hx]. eexists. split; [reflexivity|].
    destruct (C53_voronoi donor individual Hl (n1 :: n2 :: shape) (dx1 d) (dx2 d) (dx3 d) (dx4 d) Hs) as [Ht Hd]. split.
    + eapply takes_coordinatewise; [|exact Ht]. intros i. cbv beta. destruct (nth_error (indices (n1 :: n2 :: shape)) i) as [ix|] eqn:E.
      * destruct (Z_lt_dec (dist2 ix (dx4 d)) (dist2 ix (dx1 d))), (Z_lt_dec (dist2 ix (dx4 d)) (dist2 ix (dx2 d))), (Z_lt_dec (dist2 ix (dx4 d)) (dist2 ix (dx3 d)));
        try (left; exists ix; auto; fail); right; intros (ix' & [= <-] & H'); tauto.
      * right. intros (ix' & E' & _). discriminate.
    + apply In_nth_error in Hx as [i Hi]. exists i. split.
      * rewrite <- Hs, <- indices_length. apply nth_error_Some. congruence.
      * apply (Hd i (dx1 d) Hi). auto.
Qed.
(** the rotated one is not a coordinatewise mix *)
Theorem C53_rotated_refuted : exists c1 c2 which r s out,
  rotated_twopoints c1 c2 which r s [1; 2; 3; 4] [5; 6; 7; 8] = Ok out /\ ~ coordinatewise [1; 2; 3; 4] [5; 6; 7; 8] out.
Proof.
  exists 0, 1, true, 1, 2, [7; 2; 3; 4]. split; [reflexivity|]. intros [_ H].
  destruct (H 0 ltac:(cbn; lia)) as [E|E]; discriminate.
Qed.
(** Voronoi without a shape raises in dimension 1 *)
Theorem C53_voronoi_one_refuted {A} (a b : A) (d : draws) : dc1 d <= 1 -> dc2 d <= 1 -> dc1 d <> dc2 d ->
  apply_crossover (Voronoi None) d [a] [b] = Err ValueError.
Proof.
  intros H1 H2 H. cbn. unfold twopoints, two_bounds. cbn [length].
  replace (max (dc1 d) (dc2 d)) with 1 by lia. replace (min (dc1 d) (dc2 d)) with 0 by lia. reflexivity.
Qed.
Definition ex_draws : draws := Draws 1 (fun _ => true) true 3 1 true 2 0 [0; 0] [0; 1] [0; 1] [1; 1].
Example C53_ex : legal 4 Twopoints ex_draws /\ legal 4 (Voronoi (Some [2; 2])) ex_draws /\
  apply_crossover Twopoints ex_draws [1; 2; 3; 4] [5; 6; 7; 8] = Ok [1; 6; 7; 4] /\
  apply_crossover (Voronoi (Some [2; 2])) ex_draws [1; 2; 3; 4] [5; 6; 7; 8] = Ok [1; 2; 3; 8].
Proof.
  split; [|split; [|split; reflexivity]]; unfold legal; cbn; repeat split; try lia; try discriminate.
  - injection H as <-. reflexivity.
  - injection H as <-. cbn. auto.
Qed.

(** Mutator.crossover mixes coordinatewise, except with rotation. *)
Theorem C53_mix (kind : mix_kind) (pick : nat -> bool) (parent donor : list Z) :
  length donor = length parent -> (forall k, kind <> MRotation k) ->
  coordinatewise parent donor (mix kind pick parent donor).
Proof.
  intros Hl Hk.
  assert (Hgen : forall f : nat -> bool, coordinatewise parent donor
    (map (fun ipd : nat * (Z * Z) => if f (fst ipd) then snd (snd ipd) else fst (snd ipd)) (combine (seq 0 (length parent)) (combine parent donor)))).
  { intros f. split; [rewrite map_length, !combine_length, seq_length; lia|]. intros i Hi.
    rewrite nth_error_map, !nth_error_combine, nth_error_seq by exact Hi.
    destruct (nth_error parent i) eqn:Ep. 2:{ apply nth_error_None in Ep. lia. }
    destruct (nth_error donor i) eqn:Ed. 2:{ apply nth_error_None in Ed. lia. }
    cbn. destruct (f i); auto. }
  assert (Hpair : forall g : Z * Z -> Z, (forall a b, g (a, b) = a \/ g (a, b) = b) -> coordinatewise parent donor (map g (combine parent donor))).
  { intros g Hg. split; [rewrite map_length, combine_length; lia|]. intros i Hi.
    rewrite nth_error_map, nth_error_combine.
    destruct (nth_error parent i) eqn:Ep. 2:{ apply nth_error_None in Ep. lia. }
    destruct (nth_error donor i) eqn:Ed. 2:{ apply nth_error_None in Ed. lia. }
    cbn. destruct (Hg z z0) as [-> | ->]; auto. }
  destruct kind as [k| | |sig idx|sig idx idx2|]; cbn [mix].
  - now destruct (Hk k).
  - apply Hpair. intros a b. cbn. lia.
  - apply Hpair. intros a b. cbn. lia.
  - destruct (4 <? length parent); [apply (Hgen (fun i => Bool.eqb (before i idx) sig))|apply (Hgen pick)].
  - destruct (6 <? length parent); [apply (Hgen (fun i => Bool.eqb (xorb (before i idx) (before i idx2)) sig))|apply (Hgen pick)].
  - apply (Hgen pick).
Qed.
(** "max" takes the smallest, "min" the largest *)
Theorem C53_max_min_swapped_refuted : exists (parent donor : list Z) pick,
  mix MMax pick parent donor = [1%Z; 2%Z] /\ mix MMin pick parent donor = [5%Z; 7%Z].
Proof. exists [1%Z; 7%Z], [5%Z; 2%Z], (fun _ => true). split; reflexivity. Qed.
Theorem C53_mix_rotation_refuted : exists parent donor pick, length donor = length parent /\
  ~ coordinatewise parent donor (mix (MRotation 1) pick parent donor).
Proof.
  exists [1%Z; 2%Z], [3%Z; 4%Z], (fun _ => true). split; [reflexivity|]. intros [_ H]. destruct (H 0 ltac:(cbn; lia)) as [E|E]; discriminate.
Qed.
Example C53_mix_ex : mix (MOnepoint true 1) (fun _ => false) [1; 2; 3; 4; 5]%Z [6; 7; 8; 9; 10]%Z = [6; 7; 3; 4; 5]%Z.
Proof. reflexivity. Qed.

Print Assumptions C53_variablewise.
Print Assumptions C53_onepoint.
Print Assumptions C53_twopoints.
Print Assumptions C53_rotated.
Print Assumptions C53_voronoi.
Print Assumptions C53_apply.
Print Assumptions C53_rotated_refuted.
Print Assumptions C53_voronoi_one_refuted.
Print Assumptions C53_mix.
Print Assumptions C53_max_min_swapped_refuted.
Print Assumptions C53_mix_rotation_refuted.

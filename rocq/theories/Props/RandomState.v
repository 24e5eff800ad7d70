(** C90: random states: seeds, synchronisation, copies; C91: how far mutation and sampling go. *)
From Coq Require Import List ZArith Arith Lia.
From Verif.Model Require Import Prelude RandomState.
From Verif.Spec Require Import RandomState.
From Verif.Proofs Require Import RandomState.
Import ListNotations.
Open Scope nat_scope.

Lemma individual_run stream glob sig t w s prog : let (h, w1) := new_gen s w in
  run stream glob sig (Seed 0 [] s :: prog) {| pop := [t]; gens := w; out := [] |}
  = run stream glob sig prog {| pop := [set_state (Some h) t]; gens := w1; out := [] |}.
Proof. reflexivity. Qed.
(** C90 once a parameter is seeded, numpy's global generator has no effect on anything done with the parameter, its
    children, samples and copies, and is not used. *)
Theorem C90_seeded : forall stream sig glob1 glob2 prog t w s, Forall quiet prog ->
  let s0 := {| pop := [t]; gens := w; out := [] |} in
  run stream glob1 sig (Seed 0 [] s :: prog) s0 = run stream glob2 sig (Seed 0 [] s :: prog) s0 /\
  forall s', run stream glob1 sig (Seed 0 [] s :: prog) s0 = Ok s' -> used (gens s') = used w /\ Forall settled (pop s').
Proof.
  intros stream sig glob1 glob2 prog t w s Hq s0. unfold s0. pose proof (individual_run stream glob1 sig t w s prog) as E1. pose proof (individual_run stream glob2 sig t w s prog) as E2.
  cbn [new_gen] in E1, E2. rewrite E1, E2. clear E1 E2.
  match goal with |- run _ _ _ _ ?st = _ /\ _ => destruct (run_good stream sig (fun s => s <> None) (fun w w' => used w' = used w)) with (glob1 := glob1) (glob2 := glob2) (prog := prog) (s := st) as (A & B) end.
  - auto.
  - reflexivity.
  - intros. congruence.
  - intros n h w' _. pose proof (draws_spec stream n h w') as D. destruct (draws stream n h w'). apply D.
  - revert Hq. apply Forall_impl. intros o Ho. destruct o; cbn in *; auto; split; auto; split; [reflexivity|discriminate].
  - constructor; [now apply every_set|constructor].
  - split; [exact A|]. intros s' E. destruct (B s' E) as (B1 & B2). split; [exact B2|exact B1].
Qed.
Print Assumptions C90_seeded.
(** C90 without seed, the first read draws exactly one seed from the global generator; everything is determined by it. *)
Theorem C90_one_seed : forall stream sig glob1 glob2 prog t w, state_of t = None -> Forall quiet prog -> glob1 (used w) = glob2 (used w) ->
  let s0 := {| pop := [t]; gens := w; out := [] |} in
  run stream glob1 sig (ReadState 0 [] :: prog) s0 = run stream glob2 sig (ReadState 0 [] :: prog) s0 /\
  forall s', run stream glob1 sig (ReadState 0 [] :: prog) s0 = Ok s' -> used (gens s') = S (used w) /\ Forall settled (pop s').
Proof.
  intros stream sig glob1 glob2 prog [k st d kids] w Ht Hq Hg s0. cbn in Ht. subst st. unfold s0. clear s0.
  set (t := Tree k None d kids).
  assert (E : forall glob, glob1 (used w) = glob (used w) -> run stream glob sig (ReadState 0 [] :: prog) {| pop := [t]; gens := w; out := [] |}
    = run stream glob sig prog {| pop := [set_state (Some (fresh w)) t]; gens := snd (global_gen glob1 w); out := [] |}).
  { intros glob Eg. cbn [run step on_individual nth_error pop on_path]. unfold read_state, global_gen, t. cbn. now rewrite Eg. }
  rewrite (E glob1 eq_refl), (E glob2 Hg). clear E.
  match goal with |- run _ _ _ _ ?st = _ /\ _ => destruct (run_good stream sig (fun s => s <> None) (fun w w' => used w' = used w)) with (glob1 := glob1) (glob2 := glob2) (prog := prog) (s := st) as (A & B) end.
  - auto.
  - reflexivity.
  - intros. congruence.
  - intros n h w' _. pose proof (draws_spec stream n h w') as D. destruct (draws stream n h w'). apply D.
  - revert Hq. apply Forall_impl. intros o Ho. destruct o; cbn in *; auto; split; auto; split; [reflexivity|discriminate].
  - constructor; [now apply every_set|constructor].
  - split; [exact A|]. intros s' E. destruct (B s' E) as (B1 & B2). split; [exact B2|exact B1].
Qed.
Print Assumptions C90_one_seed.
Lemma same_run stream sig glob prog h s : Forall quiet prog -> Forall no_seed prog -> Forall (all_same h) (pop s) ->
  forall s', run stream glob sig prog s = Ok s' -> Forall (all_same h) (pop s') /\ only h (gens s) (gens s').
Proof.
  intros Hq Hn Hp s' E. destruct (run_good stream sig (fun s => s = Some h) (only h)) with (glob1 := glob) (glob2 := glob) (prog := prog) (s := s) as (_ & B); auto.
  - intros s1 -> ?. discriminate.
  - apply only_refl.
  - apply only_trans.
  - intros n h' w' [= ->]. apply only_draws.
  - rewrite Forall_forall in *. intros o Ho. specialize (Hq o Ho). specialize (Hn o Ho). split; [exact Hq|]. destruct o; cbn in *; auto; contradiction.
  - now apply B.
Qed.
(** C90 after seeding, the parameter, its sub-parameters, children, samples, copies and the elements added to them share one
    generator, with that seed; no other generator is used. *)
Theorem C90_synchronised : forall stream sig glob prog t w s s', Forall quiet prog -> Forall no_seed prog ->
  run stream glob sig (Seed 0 [] s :: prog) {| pop := [t]; gens := w; out := [] |} = Ok s' ->
  exists h, Forall (all_same h) (pop s') /\ seed (gens s') h = s /\
    forall h', h' <> h -> seed (gens s') h' = seed w h' /\ count (gens s') h' = count w h'.
Proof.
  intros stream sig glob prog t w s s' Hq Hn E. pose proof (individual_run stream glob sig t w s prog) as E1. cbn [new_gen] in E1. rewrite E1 in E. clear E1.
  exists (fresh w). apply (same_run _ _ _ _ (fresh w)) in E; auto; [|constructor; [now apply every_set|constructor]]. destruct E as (A & B1 & B2 & B3 & B4 & B5). cbn in *.
  split; [exact A|]. rewrite B1. split; [now rewrite Nat.eqb_refl|]. intros h' Hh. rewrite B5 by exact Hh. apply Nat.eqb_neq in Hh. now rewrite Hh.
Qed.
Print Assumptions C90_synchronised.
Lemma run_app stream glob sig p1 p2 s : run stream glob sig (p1 ++ p2) s = bind (run stream glob sig p1 s) (run stream glob sig p2).
Proof. revert s. induction p1 as [|o p1 IH]; intros s; [reflexivity|]. cbn. destruct (step stream glob sig o s); [apply IH|reflexivity]. Qed.
Lemma use_path stream glob h path n : forall t w, all_same h t -> forall zs t1 w1,
  on_path (fun t w => let '(t1, h, w1) := read_state glob t w in let (zs, w2) := draws stream n h w1 in Ok (zs, t1, w2)) path t w = Ok (zs, t1, w1) ->
  zs = fst (draws stream n h w) /\ w1 = snd (draws stream n h w).
Proof.
  induction path as [|key path IH]; intros [k st d kids] w H zs t1 w1 E; apply every_inv in H; destruct H as (-> & Hk); cbn in E.
  - destruct (draws stream n h w). injection E as <- <- <-. auto.
  - destruct (on_kid _ key kids) as [[[a ks] w2]|] eqn:E2; [|discriminate]. cbn in E. injection E as <- <- <-. revert ks E2.
    induction Hk as [|[key' t'] kids Ht Hk IHk]; intros ks E2; [discriminate|]. cbn in E2. destruct (Nat.eqb key key').
    + destruct (on_path _ path t' w) as [[[a2 t2] w3]|] eqn:E3; [|discriminate]. cbn in E2. injection E2 as <- <- <-. eapply IH; [exact Ht|exact E3].
    + destruct (on_kid _ key kids) as [[[a2 ks2] w3]|]; [|discriminate]. cbn in E2. injection E2 as <- <- <-. eapply IHk. reflexivity.
Qed.
Lemma use_run stream glob sig h i path n s s' : Forall (all_same h) (pop s) -> step stream glob sig (Use i path n) s = Ok s' ->
  Forall (all_same h) (pop s') /\ seed (gens s') = seed (gens s) /\ count (gens s') h = count (gens s) h + n /\
  out s' = out s ++ map (stream (seed (gens s) h)) (seq (count (gens s) h) n).
Proof.
  intros H E. assert (K : run stream glob sig [Use i path n] s = Ok s') by (cbn [run]; now rewrite E). apply (same_run _ _ _ _ h) in K; [|repeat constructor..|exact H].
  destruct K as (K & _). split; [exact K|]. cbn in E. unfold on_individual in E. destruct (nth_error (pop s) i) as [t|] eqn:Et; [|discriminate].
  assert (Ht : all_same h t) by (rewrite Forall_forall in H; eapply H, nth_error_In, Et).
  destruct (on_path _ path t (gens s)) as [[[zs t1] w1]|] eqn:Ep; [|discriminate]. cbn in E. injection E as <-. cbn.
  apply (use_path _ _ h) in Ep; [|exact Ht]. destruct Ep as (-> & ->). pose proof (draws_spec stream n h (gens s)) as D. destruct (draws stream n h (gens s)) as [zs w2]. cbn. destruct D as (-> & D2 & _ & _ & D5 & _). auto.
Qed.
(** C90 whoever draws among the parameters sharing a generator, whatever happens in between, the numbers come from its stream
    in order, and none is given twice. *)
Theorem C90_stream : forall stream glob sig h i p n prog j q m s s', Forall quiet prog -> Forall no_seed prog -> Forall (all_same h) (pop s) ->
  run stream glob sig (Use i p n :: prog ++ [Use j q m]) s = Ok s' ->
  exists mid c, count (gens s) h + n <= c /\
    out s' = out s ++ map (stream (seed (gens s) h)) (seq (count (gens s) h) n) ++ mid ++ map (stream (seed (gens s) h)) (seq c m).
Proof.
  intros stream glob sig h i p n prog j q m s s' Hq Hn Hp E. cbn [run] in E. destruct (step _ _ _ (Use i p n) s) as [s1|] eqn:E1; [|discriminate]. cbn [bind] in E.
  apply (use_run _ _ _ h) in E1; [|exact Hp]. destruct E1 as (A1 & A2 & A3 & A4). rewrite run_app in E. destruct (run stream glob sig prog s1) as [s2|] eqn:E2; [|discriminate]. cbn [bind run] in E.
  destruct (step _ _ _ (Use j q m) s2) as [s3|] eqn:E3; [|discriminate]. injection E as <-.
  destruct (same_run _ _ _ _ h _ Hq Hn A1 _ E2) as (B1 & B2 & _ & _ & B3 & _). apply (use_run _ _ _ h) in E3; [|exact B1]. destruct E3 as (_ & _ & _ & C).
  assert (Hm : exists mid, out s2 = out s1 ++ mid).
  { clear - E2. revert s1 E2. induction prog as [|o prog IH]; intros s1 E2; cbn in E2; [injection E2 as <-; exists []; now rewrite app_nil_r|].
    destruct (step stream glob sig o s1) as [s3|] eqn:E3; [|discriminate]. destruct (IH s3 E2) as (mid & ->). assert (K : exists m1, out s3 = out s1 ++ m1).
    { assert (Kf : forall A k (f : tree -> world -> result (A * tree * world)) a s4, on_individual k f s1 = Ok (a, s4) -> out s4 = out s1).
      { intros A k f a s4. unfold on_individual. destruct (nth_error (pop s1) k); [|discriminate]. destruct (f t (gens s1)) as [[[? ?] ?]|]; [|discriminate]. cbn. now intros [= <- <-]. }
      destruct o; cbn in E3; match type of E3 with bind ?x _ = _ => destruct x as [[a s4]|] eqn:E4; [|discriminate] end; apply Kf in E4; cbn in E3; injection E3 as <-; cbn; rewrite E4; try (exists []; now rewrite app_nil_r).
      now exists a. }
    destruct K as (m1 & ->). exists (m1 ++ mid). now rewrite app_assoc. }
  destruct Hm as (mid & Hm). exists mid, (count (gens s2) h). split; [rewrite <- A3; exact B3|]. rewrite C, Hm, A4, B1 || rewrite C, Hm, A4. rewrite B2, A2. now rewrite <- !app_assoc.
Qed.
Print Assumptions C90_stream.
(** C90 the copy an experiment works on (without random state) gets its own new generator, with a new seed from the global
    one: it shares nothing with the original. *)
Theorem C90_reset_copy : forall stream glob sig t w n,
  exists s', run stream glob sig [ResetCopy 0; Use 1 [] n] {| pop := [t]; gens := w; out := [] |} = Ok s' /\
    out s' = map (stream (glob (used w))) (seq 0 n) /\ nth_error (pop s') 0 = Some t /\
    (exists c, nth_error (pop s') 1 = Some c /\ all_same (fresh w) c) /\
    used (gens s') = S (used w) /\ forall h, h < fresh w -> seed (gens s') h = seed w h /\ count (gens s') h = count w h.
Proof.
  intros stream glob sig [k st d kids] w n. cbn [run step on_individual nth_error pop gens bind fst snd add firstn skipn app on_path set_state read_state state_of out].
  unfold read_state, global_gen, new_gen. cbn [state_of seed count fresh used].
  match goal with |- context[draws stream n (fresh w) ?w1] => pose proof (draws_spec stream n (fresh w) w1) as D; destruct (draws stream n (fresh w) w1) as [zs w2] end.
  cbn [seed count fresh used] in D. rewrite Nat.eqb_refl in D. destruct D as (D1 & D2 & D3 & D4 & D5 & D6). eexists. split; [reflexivity|]. cbn [out pop gens nth_error fst snd app].
  split; [exact D1|]. split; [reflexivity|]. split; [eexists; split; [reflexivity|exact (every_set (fun s => s = Some (fresh w)) (Some (fresh w)) (set_state None (Tree k st d kids)) eq_refl)]|]. split; [exact D4|].
  intros h Hh. rewrite D2, D6 by lia. replace (Nat.eqb h (fresh w)) with false by (symmetry; apply Nat.eqb_neq; lia). auto.
Qed.
Print Assumptions C90_reset_copy.
(** C90 two seeded parameters do not share anything: each draws from the stream of its own seed, whatever the other does. *)
Theorem C90_apart : forall stream glob sig t u w s1 s2 n m k,
  exists s', run stream glob sig [Seed 0 [] s1; Seed 1 [] s2; Use 0 [] n; Use 1 [] m; Use 0 [] k] {| pop := [t; u]; gens := w; out := [] |} = Ok s' /\
    out s' = map (stream s1) (seq 0 n) ++ map (stream s2) (seq 0 m) ++ map (stream s1) (seq n k).
Proof.
  intros stream glob sig [k0 st0 d0 kids0] [k1 st1 d1 kids1] w s1 s2 n m k.
  cbn [run step on_individual nth_error pop gens bind fst snd add firstn skipn app on_path set_state read_state state_of out new_gen seed count fresh used].
  match goal with |- context[draws stream n (fresh w) ?w1] => pose proof (draws_spec stream n (fresh w) w1) as D; destruct (draws stream n (fresh w) w1) as [zs w2] end.
  cbn [seed count fresh used] in D. rewrite Nat.eqb_refl in D. replace (Nat.eqb (fresh w) (S (fresh w))) with false in D by (symmetry; apply Nat.eqb_neq; lia).
  destruct D as (D1 & D2 & D3 & D4 & D5 & D6).
  cbn [run step on_individual nth_error pop gens bind fst snd add firstn skipn app on_path set_state read_state state_of out new_gen seed count fresh used].
  match goal with |- context[draws stream m (S (fresh w)) ?w1] => pose proof (draws_spec stream m (S (fresh w)) w1) as D; destruct (draws stream m (S (fresh w)) w1) as [zs2 w3] end.
  destruct D as (F1 & F2 & F3 & F4 & F5 & F6). rewrite D2, D6 in F1 by lia. cbn [seed count] in F1. rewrite Nat.eqb_refl in F1.
  cbn [run step on_individual nth_error pop gens bind fst snd add firstn skipn app on_path set_state read_state state_of out new_gen seed count fresh used].
  match goal with |- context[draws stream k (fresh w) ?w1] => pose proof (draws_spec stream k (fresh w) w1) as D; destruct (draws stream k (fresh w) w1) as [zs3 w4] end.
  destruct D as (G1 & _). rewrite F2, D2, F6, D5 in G1 by lia. cbn [seed count] in G1. replace (Nat.eqb (fresh w) (S (fresh w))) with false in G1 by (symmetry; apply Nat.eqb_neq; lia). rewrite Nat.eqb_refl in G1.
  eexists. split; [reflexivity|]. cbn [out fst snd]. rewrite D1, F1, G1. cbn [app Nat.add]. now rewrite <- app_assoc.
Qed.
Print Assumptions C90_apart.
(** C90 seeding an element of a container before the container is of no use: the first read of the container's random state
    gives the element an other generator, with a seed from the global one. *)
Theorem C90_sub_seed_refuted : forall stream glob sig k d kids key sub w s,
  exists s', run stream glob sig [Seed 0 [key] s; ReadState 0 []; Use 0 [key] 1]
      {| pop := [Tree k None d ((key, sub) :: kids)]; gens := w; out := [] |} = Ok s' /\
    out s' = [stream (glob (used w)) 0].
Proof.
  intros stream glob sig k d kids key [k1 st1 d1 kids1] w s. do 4 (cbn; rewrite ?Nat.eqb_refl). eexists. split; [reflexivity|]. cbn. now rewrite ?Nat.eqb_refl.
Qed.
Print Assumptions C90_sub_seed_refuted.
(** C90 nor does seeding an array determine what follows, if its standard deviation is then replaced by a parameter: this one
    gets its generator from the global one. *)
Theorem C90_sigma_refuted : forall stream glob sig d st key st' d' content sub w s, state_of sub = None ->
  exists s', run stream glob sig [Seed 0 [] s; SetSigma 0 [] sub; Use 0 [key; 0] 1]
      {| pop := [Tree Data st d [(key, Tree Container st' d' content)]]; gens := w; out := [] |} = Ok s' /\
    out s' = [stream (glob (used w)) 0] /\ used (gens s') = S (used w).
Proof.
  intros stream glob sig d st key st' d' content [k1 st1 d1 kids1] w s Hs. cbn in Hs. subst st1. cbn. rewrite Nat.eqb_refl. cbn.
  assert (K : forall A (f : tree -> result (A * tree * world)) sub kids, on_kid f 0 (put 0 sub kids) = bind (f sub) (fun r => let '(a, t1, w1) := r in Ok (a, put 0 t1 kids, w1))).
  { intros A f sub0 kids. induction kids as [|[[|k2] t2] kids IH]; [reflexivity|reflexivity|]. cbn. rewrite IH. destruct (f sub0) as [[[a t1] w1]|]; reflexivity. }
  rewrite K. cbn. rewrite Nat.eqb_refl. eexists. split; [reflexivity|]. split; reflexivity.
Qed.
Print Assumptions C90_sigma_refuted.

(** C91 mutating a parameter moves an array by one normal step per level of the parameters around it, itself included:
    each coordinate gets that many independent numbers, times its standard deviation. *)
Theorem C91_mutation_steps : forall stream glob sig h path t d kids w, ordinary t -> all_same h t -> array_at path t d kids ->
  let (t', w') := mutate stream glob sig t w in
  only h w w' /\ exists d', array_at path t' d' kids /\ moved stream h w w' (S (length path)) (sig kids) d d'.
Proof.
  intros stream glob sig h path t d kids w Ho Hs Ha. rewrite (mutate_settled stream sig (fun s => s = Some h)) by (auto; intros s -> ?; discriminate).
  pose proof (move_only stream sig h t w Hs) as M. pose proof (move_array stream sig h path t d kids w Ho Hs Ha) as A. destruct (move stream sig t w) as [t' w']. cbn in *. auto.
Qed.
Print Assumptions C91_mutation_steps.
Lemma sample_same stream sig glob h t : all_same h t -> forall w, fst (fst (sample_in stream glob sig None t w)) = t.
Proof.
  induction t as [k st d kids IH] using tree_induction. intros H w. apply every_inv in H. destruct H as (-> & Hk). cbn [sample_in]. destruct k; [reflexivity| |].
  - destruct (mutate _ _ _ _ _). reflexivity.
  - match goal with |- context[?f kids w] => set (go := f) end.
    assert (K : fst (fst (go kids w)) = kids).
    { revert w. induction Hk as [|[key t] kids Ht Hk IHk]; intros w; [reflexivity|]. inversion IH as [|? ? It IH']; subst. cbn. cbn in Ht, It. specialize (It Ht w).
      destruct (sample_in stream glob sig None t w) as [[p c] w1]. cbn in It. subst p. specialize (IHk IH' w1). destruct (go kids w1) as [[ps cs] w2]. cbn in *. now subst ps. }
    destruct (go kids w) as [[ks cs] w2]. cbn in *. now subst ks.
Qed.
(** C91 sampling moves an array by one step, at whatever depth, and leaves the parameter as it was. *)
Theorem C91_sampling_steps : forall stream glob sig h path t d kids w, ordinary t -> all_same h t -> array_at path t d kids ->
  let '(p, c, w') := sample stream glob sig t w in
  p = t /\ only h w w' /\ exists d', array_at path c d' kids /\ moved stream h w w' 1 (sig kids) d d'.
Proof.
  intros stream glob sig h path t d kids w Ho Hs Ha. unfold sample.
  pose proof (sample_array stream sig glob h path t d kids w Ho Hs Ha) as A.
  pose proof (sample_same stream sig glob h t Hs w) as B.
  destruct (sample_settled stream sig (fun s => s = Some h) (only h) (fun s (E : s = Some h) => eq_ind_r (fun s => s <> None) (fun N : Some h = None => ltac:(discriminate)) E) (only_refl h) (only_trans h) (fun n h' w E => same_draws stream h n h' w E) glob glob t Hs w) as (_ & _ & _ & C).
  destruct (sample_in stream glob sig None t w) as [[p c] w']. cbn in *. auto.
Qed.
Print Assumptions C91_sampling_steps.
Lemma nested_facts h n x kids : Forall (fun p => inert (snd p)) kids -> Forall (fun p => all_same h (snd p)) kids ->
  let t := nested n (Some h) (Tree Data (Some h) [x] kids) in ordinary t /\ all_same h t /\ array_at (repeat 0 n) t [x] kids /\ dim t = 1.
Proof.
  intros Hi Hs. induction n as [|n (I1 & I2 & I3 & I4)]; cbn in *; [repeat split; try constructor; auto|]. rewrite I4. repeat split; try (constructor; auto).
  - econstructor; [reflexivity|exact I3].
Qed.
Lemma zsum_app l1 l2 : zsum (l1 ++ l2) = (zsum l1 + zsum l2)%Z.
Proof. induction l1 as [|a l1 IH]; [reflexivity|]. unfold zsum in *. cbn. rewrite IH. ring. Qed.
Lemma move_nested stream sig h n x kids w : Forall (fun p => inert (snd p)) kids -> Forall (fun p => all_same h (snd p)) kids ->
  let r := move stream sig (nested n (Some h) (Tree Data (Some h) [x] kids)) w in
  fst r = nested n (Some h) (Tree Data (Some h) [(x + sig kids * zsum (map (stream (seed w h)) (seq (count w h) (S n))))%Z] kids) /\
  count (snd r) h = count w h + S n /\ seed (snd r) = seed w.
Proof.
  intros Hi Hs. induction n as [|n IH]; cbn [nested move].
  - rewrite through_same. 2:{ rewrite Forall_forall in *. intros p Hp w'. now apply move_inert, Hi. }
    cbn. rewrite Nat.eqb_refl, Z.add_0_r. repeat split. lia.
  - unfold through. cbn zeta in IH. destruct (move stream sig (nested n _ _) w) as [t1 w1]. cbn [fst snd] in IH. destruct IH as (-> & IH2 & IH3).
    match goal with |- context[dim ?t] => set (t1 := t) end. assert (E : dim t1 = 1).
    { unfold t1. cbn. match goal with |- context[nested n _ (Tree Data _ [?y] _)] => destruct (nested_facts h n y kids Hi Hs) as (_ & _ & _ & ->) end. reflexivity. }
    rewrite E. cbn [draws draw]. rewrite IH3, IH2. cbn [fst snd seed count]. rewrite Nat.eqb_refl. split; [|split; [lia|reflexivity]]. unfold t1. clear t1 E IH2 IH3 w1.
    rewrite (seq_S (S n)), map_app, zsum_app. cbn [map zsum fold_right]. rewrite Z.add_0_r.
    generalize (zsum (map (stream (seed w h)) (seq (count w h) (S n)))). intros z.
    replace (x + sig kids * (z + stream (seed w h) (count w h + S n)%nat))%Z with ((x + sig kids * z) + sig kids * stream (seed w h) (count w h + S n)%nat)%Z by ring.
    generalize (x + sig kids * z)%Z (stream (seed w h) (count w h + S n)). clear - Hi Hs. intros y v.
    assert (K : shift sig [v] (nested n (Some h) (Tree Data (Some h) [y] kids)) = nested n (Some h) (Tree Data (Some h) [(y + sig kids * v)%Z] kids)).
    { induction n as [|n IH]; [reflexivity|]. cbn. destruct (nested_facts h n y kids Hi Hs) as (_ & _ & _ & ->). cbn. now rewrite IH. }
    cbn. destruct (nested_facts h n y kids Hi Hs) as (_ & _ & _ & ->). cbn. now rewrite K.
Qed.
(** C91 a scalar within [n] containers moves by the sum of exactly [n + 1] consecutive numbers (times its standard
    deviation): *)
Theorem C91_nested : forall stream glob sig h n x kids w, Forall (fun p => inert (snd p)) kids -> Forall (fun p => all_same h (snd p)) kids ->
  exists w', mutate stream glob sig (nested n (Some h) (Tree Data (Some h) [x] kids)) w
      = (nested n (Some h) (Tree Data (Some h) [(x + sig kids * zsum (map (stream (seed w h)) (seq (count w h) (S n))))%Z] kids), w') /\
    count w' h = count w h + S n.
Proof.
  intros stream glob sig h n x kids w Hi Hs. destruct (nested_facts h n x kids Hi Hs) as (_ & A & _ & _).
  rewrite (mutate_settled stream sig (fun s => s = Some h)) by (auto; intros s -> ?; discriminate).
  pose proof (move_nested stream sig h n x kids w Hi Hs) as M. cbn zeta in M. destruct (move stream sig _ w) as [t1 w1]. cbn in M. destruct M as (-> & M & _). eauto.
Qed.
Print Assumptions C91_nested.
(** so the standard deviation given to a parameter is not that of its mutations, once it is in an instrumentation: whatever
    the number of steps, some depth has more. *)
Theorem C91_sigma_refuted : ~ (forall stream glob sig h n x kids w, Forall (fun p => inert (snd p)) kids -> Forall (fun p => all_same h (snd p)) kids ->
  fst (mutate stream glob sig (nested n (Some h) (Tree Data (Some h) [x] kids)) w)
  = nested n (Some h) (Tree Data (Some h) [(x + sig kids * stream (seed w h) (count w h))%Z] kids)).
Proof.
  intros H. specialize (H (fun _ _ => 1%Z) (fun _ => 0%Z) (fun _ => 1%Z) 0 1 0%Z [] {| seed := fun _ => 0%Z; count := fun _ => 0; fresh := 1; used := 0 |} (Forall_nil _) (Forall_nil _)).
  vm_compute in H. discriminate.
Qed.
Print Assumptions C91_sigma_refuted.

(** * Examples *)
Definition ex_stream (s : Z) (n : nat) : Z := (1000 * s + Z.of_nat n)%Z.
Definition ex_glob (n : nat) : Z := Z.of_nat (77 + n).
Definition ex_sig (_ : list (nat * tree)) : Z := 2%Z.
Definition ex_w : world := {| seed := fun _ => 0%Z; count := fun _ => 0; fresh := 0; used := 0 |}.
(** an array of two values, with its internal parameters, and a scalar in a nested container *)
Definition ex_arr : tree := Tree Data None [10; 20]%Z [(0, Tree Container None [] [(0, Tree Const None [] [])])].
Definition ex_tree : tree := Tree Container None [] [(0, ex_arr); (1, Tree Container None [] [(5, Tree Data None [7]%Z [])])].
Definition ex_state : state := {| pop := [ex_tree]; gens := ex_w; out := [] |}.
Definition outs (r : result state) : option (list Z * nat * nat) := match r with Ok s => Some (out s, length (pop s), used (gens s)) | Err _ => None end.
Definition vals (t : tree) : list (list Z) := match t with Tree _ _ _ [(_, Tree _ _ a _); (_, Tree _ _ _ [(_, Tree _ _ b _)])] => [a; b] | _ => [] end.
Definition ex_prog : list op := [Use 0 [] 2; Spawn 0; Mutate 1 []; Sample 1; Copy 2; SetItem 3 [1] 9 ex_arr; Use 3 [1; 9] 1; Use 0 [1; 5] 1].
(** seeded: the stream of seed 3; 3 + 1 + 1 + 3 = 8 numbers for the mutation (array, scalar, inner and outer container), 3 for
    the sample *)
Example C90_example : outs (run ex_stream ex_glob ex_sig (Seed 0 [] 3 :: ex_prog) ex_state) = Some ([3000; 3001; 3012; 3013]%Z, 4, 0) /\
  outs (run ex_stream ex_glob ex_sig (ReadState 0 [] :: ex_prog) ex_state) = Some ([77000; 77001; 77012; 77013]%Z, 4, 1) /\
  Forall quiet ex_prog /\ Forall no_seed ex_prog.
Proof. split; [vm_compute; reflexivity|]. split; [vm_compute; reflexivity|]. split; repeat constructor. Qed.
Example C90_reset_example : outs (run ex_stream ex_glob ex_sig [Seed 0 [] 3; ResetCopy 0; Use 1 [] 1; Use 0 [] 1] ex_state) = Some ([77000; 3000]%Z, 2, 1).
Proof. reflexivity. Qed.
Example C91_example : let t := set_state (Some 0) ex_tree in let w := {| seed := fun _ => 0%Z; count := fun _ => 0; fresh := 1; used := 0 |} in
  ordinary t /\ all_same 0 t /\ array_at [0] t [10; 20]%Z [(0, Tree Container (Some 0) [] [(0, Tree Const (Some 0) [] [])])] /\
  array_at [1; 0] t [7]%Z [] /\
  (* numbers 0, 1 for the array; 2 for the scalar; 3 for its container; 4, 5, 6 for the outer one *)
  vals (fst (mutate ex_stream ex_glob ex_sig t w)) = [[10 + 2 * (0 + 4); 20 + 2 * (1 + 5)]; [7 + 2 * (2 + 3 + 6)]]%Z /\
  vals (snd (fst (sample ex_stream ex_glob ex_sig t w))) = [[10 + 2 * 0; 20 + 2 * 1]; [7 + 2 * 2]]%Z.
Proof.
  cbn zeta. split; [repeat (constructor; cbn)|]. split; [now apply every_set|]. split; [|split; [|split; vm_compute; reflexivity]].
  - econstructor; [reflexivity|constructor].
  - econstructor; [reflexivity|]. econstructor; [reflexivity|constructor].
Qed.

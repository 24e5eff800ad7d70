(** C82: one-shot optimizers: their designs, their budgets, their averages. *)
From Coq Require Import List Arith ZArith QArith Bool Lia Permutation.
From Verif.Model Require Import Prelude MultiValue Float Optimizer OneShot.
From Verif.Spec Require Import Optimizer OneShot.
From Verif.Spec Require Cma Spsa.
From Verif.Proofs Require OneShot.
Import ListNotations.
Open Scope nat_scope.

(** The design determines exactly one point at each rank (up to the equality of rationals). *)
Theorem C82_design_determined cfg middle point factor k :
  exists x, design cfg middle point factor k x /\
    forall y, design cfg middle point factor k y -> Forall2 Qeq x y.
Proof.
  destruct (OneShot.design_total cfg middle point factor k) as (x & Hx). exists x. split; [exact Hx|].
  intros y Hy. eapply OneShot.design_determined; eassumption.
Qed.
Print Assumptions C82_design_determined.

(** Whatever is told, suggested and in whatever order: the candidates which are not
    suggestions are, in order, the points of the design. The middle point is asked iff the
    option is set and the first candidate returned is not a suggestion. *)
Theorem C82_design cfg point factor ARC HV (E0 : env oneshot_alg ARC HV) arc0 ops s h :
  no_violation E0 -> e_has_checkers _ _ _ E0 = false ->
  perform (oneshot_env cfg point factor E0)
    (o_init _ _ _ arc0 (os_init cfg (e_budget _ _ _ E0), [])) ops = (s, h) ->
  let points := snd (o_alg _ _ _ s) in
  proposed h = seq 0 (length points) /\
  forall k x, nth_error points k = Some x ->
    design cfg (o_middle cfg && first_proposed h) point factor k x.
Proof.
  intros Hnv Hch Hp. destruct (OneShot.oinv_run cfg point factor _ E0 Hnv Hch _ _ _ _ Hp) as (_ & I).
  split; [exact (OneShot.oi_prop _ _ _ _ _ _ I)|exact (OneShot.oi_design _ _ _ _ _ _ I)].
Qed.
Print Assumptions C82_design.

(** An ask with no suggestion pending returns the next point of the design as long as the
    optimizer has proposed fewer points than its capacity, then raises AssertionError. *)
Theorem C82_capacity cfg point factor ARC HV (E0 : env oneshot_alg ARC HV) arc0 ops s h s' r :
  no_violation E0 -> e_has_checkers _ _ _ E0 = false ->
  perform (oneshot_env cfg point factor E0)
    (o_init _ _ _ arc0 (os_init cfg (e_budget _ _ _ E0), [])) ops = (s, h) ->
  pending h = [] -> (exists u, snd (e_callbacks_ask _ _ _ E0 s) = Ok u) ->
  ask _ _ _ (oneshot_env cfg point factor E0) s = (s', r) ->
  r = if match capacity cfg (o_middle cfg && first_proposed h) (e_budget _ _ _ E0) with
         | Some c => length (proposed h) <? c
         | None => true
         end
      then Ok (length (proposed h), false) else Err AssertionError.
Proof.
  intros Hnv Hch Hp Hpe (u & Hu) Ha.
  destruct (OneShot.oinv_run cfg point factor _ E0 Hnv Hch _ _ _ _ Hp) as (Hi & I).
  assert (Hs : o_suggestions _ _ _ s = []).
  { rewrite <- Hpe. apply (Optimizer.hi_sugg _ _ _ Hi). apply OneShot.env_nv. exact Hnv. }
  pose proof (OneShot.ask_fresh cfg point factor _ E0 Hnv Hch _ _ _ _ I Hs Ha) as G. rewrite Hu in G.
  pose proof (OneShot.oi_prop _ _ _ _ _ _ I) as Hl. rewrite Hl, seq_length. unfold OneShot.below in G.
  destruct r as [[c b]|e].
  - destruct G as (-> & -> & Hb & _). destruct (capacity _ _ _) as [n|]; [|reflexivity].
    now apply Nat.ltb_lt in Hb as ->.
  - destruct G as (-> & _ & Hb). destruct (capacity _ _ _) as [n|]; [|now destruct Hb].
    destruct (Nat.ltb_spec (length (snd (o_alg _ _ _ s))) n); [now destruct Hb|reflexivity].
Qed.
Print Assumptions C82_capacity.

(** As long as fewer asks than the budget have returned, ask returns a candidate. *)
Theorem C82_within_budget cfg point factor ARC HV (E0 : env oneshot_alg ARC HV) arc0 ops s h s' r :
  no_violation E0 -> e_has_checkers _ _ _ E0 = false ->
  (forall s, exists u, snd (e_callbacks_ask _ _ _ E0 s) = Ok u) ->
  perform (oneshot_env cfg point factor E0)
    (o_init _ _ _ arc0 (os_init cfg (e_budget _ _ _ E0), [])) ops = (s, h) ->
  match e_budget _ _ _ E0 with Some b => asks_returned h < b | None => True end ->
  ask _ _ _ (oneshot_env cfg point factor E0) s = (s', r) -> exists c b, r = Ok (c, b).
Proof.
  intros Hnv Hch Hcb Hp Hb Ha.
  destruct (OneShot.oinv_run cfg point factor _ E0 Hnv Hch _ _ _ _ Hp) as (Hi & I).
  pose proof (Optimizer.hi_sugg _ _ _ Hi (OneShot.env_nv cfg point factor E0 Hnv)) as Hs.
  destruct (Hcb s) as (u & Hu).
  destruct (pending h) as [|c l] eqn:Epe.
  - pose proof (C82_capacity _ _ _ _ _ _ _ _ _ _ _ _ Hnv Hch Hp Epe (ex_intro _ u Hu) Ha) as ->.
    pose proof (OneShot.returned_split h) as Hr. pose proof (OneShot.first_suggested h) as Hf.
    unfold capacity. destruct (o_kind cfg); [eauto|]. destruct (e_budget _ _ _ E0) as [b|]; [|eauto].
    destruct (Nat.ltb_spec (length (proposed h))
      (match o_mode cfg with Some _ => b - (if o_middle cfg then 1 else 0) + (b - (if o_middle cfg then 1 else 0)) mod 2
       | None => b - (if o_middle cfg then 1 else 0) end + (if o_middle cfg && first_proposed h then 1 else 0))) as [Hl|Hl]; [eauto|].
    exfalso. set (q := _ mod 2) in Hl. clearbody q.
    destruct (o_middle cfg), (first_proposed h), (o_mode cfg); cbn in Hl; try specialize (Hf eq_refl); lia.
  - destruct (OneShot.ask_suggestion _ (OneShot.env_cb cfg point factor E0) (OneShot.env_sat cfg point factor E0 Hnv) _ _ _ _ _ Hs Ha) as (_ & ->).
    cbn [e_callbacks_ask oneshot_env snd]. rewrite Hu. eauto.
Qed.
Print Assumptions C82_within_budget.

(** With an opposition mode the points come in pairs: the second is the opposite of the
    first times a factor, which is 1 for "opposite". *)
Theorem C82_pairs cfg point factor ARC HV (E0 : env oneshot_alg ARC HV) arc0 ops s h m j x y :
  no_violation E0 -> e_has_checkers _ _ _ E0 = false -> o_kind cfg = Sampling -> o_mode cfg = Some m ->
  perform (oneshot_env cfg point factor E0)
    (o_init _ _ _ arc0 (os_init cfg (e_budget _ _ _ E0), [])) ops = (s, h) ->
  let middle := if (o_middle cfg && first_proposed h)%bool then 1 else 0 in
  nth_error (snd (o_alg _ _ _ s)) (middle + 2 * j) = Some x ->
  nth_error (snd (o_alg _ _ _ s)) (middle + 2 * j + 1) = Some y ->
  exists f, opposite_of f x y /\ (m = Opposite -> f = 1%Q) /\
    ((forall i, (0 <= factor i <= 1)%Q) -> (0 <= f <= 1)%Q).
Proof.
  intros Hnv Hch Hk Hm Hp middle Hx Hy.
  destruct (C82_design _ _ _ _ _ _ _ _ _ _ Hnv Hch Hp) as (_ & Hd).
  apply Hd in Hx, Hy. subst middle. set (mid := (o_middle cfg && first_proposed h)%bool) in *. clearbody mid.
  assert (Hx' : x = point j).
  { remember ((if mid then 1 else 0) + 2 * j) as k eqn:Ek. destruct Hx; try congruence; try (exfalso; destruct mid; (discriminate || lia)).
    f_equal. lia. }
  subst x. clear Hx. exists (mode_factor m factor j).
  split; [|split; [now intros ->|intros Hf; destruct m; cbn; try apply Hf; split; discriminate]].
  remember ((if mid then 1 else 0) + 2 * j + 1) as k eqn:Ek.
  destruct Hy as [| | |j0 m0 y Em0 _ Hy| | |]; try congruence; try (exfalso; destruct mid; (discriminate || lia)).
  replace j with j0 by lia. replace m with m0 by congruence. exact Hy.
Qed.
Print Assumptions C82_pairs.

(** The averages are means of best points of the archive: of between 1 and all of them. *)
Theorem C82_average m limit archive d :
  archive <> [] -> (forall p, In p archive -> length (fst p) = d) ->
  match avg_of_k_best m limit archive with
  | Ok x => exists best, 1 <= length best /\ length best <= length archive /\
      (m = AverageBest -> length best = Nat.max 1 (Nat.min (length archive / 4) d)) /\
      Cma.k_best (length best) snd archive best /\ Spsa.mean_of d (map fst best) x
  | Err e => m <> AverageBest /\ m <> AverageExpBest /\ m <> AverageHullBest /\ e = ValueError
  end.
Proof.
  intros Hne Hd. pose proof (OneShot.average m limit archive d Hne Hd) as G.
  destruct (avg_of_k_best m limit archive) as [x|e]; [|exact G].
  destruct G as (k & best & Hm & Lb & Lc & K & M). exists best. rewrite <- Lb in K.
  split; [lia|]. split; [exact Lc|]. split; [|auto]. intros ->. cbn [method_k] in Hm.
  apply (f_equal (fun r => match r with Ok x => x | Err _ => 0 end)) in Hm. cbv beta iota in Hm. lia.
Qed.
Print Assumptions C82_average.

(** Random searches use the three averages; sampling searches the first only: with the two
    others they recommend as if no rule had been given. *)
Theorem C82_ignored_rules limit archive :
  provide_recommendation Sampling AverageExpBest limit archive = provide_recommendation Sampling Pessimistic limit archive /\
  provide_recommendation Sampling AverageHullBest limit archive = provide_recommendation Sampling Pessimistic limit archive /\
  (archive <> [] -> forall m, m = AverageBest \/ m = AverageExpBest \/ m = AverageHullBest ->
     exists x, provide_recommendation Random m limit archive = Ok (Some x)).
Proof.
  split; [now destruct archive|]. split; [now destruct archive|].
  intros Hne m Hm.
  assert (K : exists k, forall n d, method_k m limit n d = Ok (k n d)) by (destruct Hm as [->|[->| ->]]; eexists (fun n d => _); reflexivity).
  destruct archive as [|a archive]; [easy|].
  assert (H : exists x, avg_of_k_best m limit (a :: archive) = Ok x).
  { unfold avg_of_k_best. destruct K as (k & K). rewrite K. cbn [bind].
    pose proof (OneShot.method_le m limit (length (a :: archive)) (length (fst a)) _ ltac:(cbn; lia) (K _ _)) as Hk.
    pose proof (proj1 (Cma.k_best_sort _ (snd (A := list Q) (B := Q)) (if k (length (a :: archive)) (length (fst a)) <? 1 then 1 else k (length (a :: archive)) (length (fst a))) (a :: archive))) as Lb.
    cbv beta zeta in Lb. rewrite Nat.min_l in Lb by exact Hk. cbv zeta. rewrite Lb, Nat.eqb_refl. eauto. }
  destruct H as (x & H). exists x. cbn [provide_recommendation].
  destruct Hm as [->|[->| ->]]; rewrite H; reflexivity.
Qed.
Print Assumptions C82_ignored_rules.

(** ** Concrete cases *)
Definition ex_env (bad : nat -> bool) (checkers : bool) (budget : option nat) : env oneshot_alg (list nat) unit :=
  {| e_callbacks_ask := fun s => (o_alg _ _ _ s, Ok tt);
     e_callbacks_tell := fun s _ _ => (o_alg _ _ _ s, Ok tt);
     e_ask := fun s => (o_alg _ _ _ s, Err RuntimeError);
     e_tell := fun s _ _ => (o_alg _ _ _ s, Err RuntimeError);
     e_tell_not_asked := fun s _ _ => (o_alg _ _ _ s, Err RuntimeError);
     e_spawn := fun s => (o_alg _ _ _ s, 99);
     e_satisfies := fun s c => (o_alg _ _ _ s, negb (bad c));
     e_satisfies_no_tabu := fun s c => (o_alg _ _ _ s, negb (bad c));
     e_can_skip := fun _ _ => false;
     e_solver := fun s c => (o_alg _ _ _ s, c);
     e_penalty := fun _ _ => 1%Q;
     e_update := fun a c _ => (c :: a, Ok tt);
     e_hv_ref := fun _ => tt;
     e_hv_auto := tt;
     e_hv_add := fun h _ _ => (h, Ok (Fin 0));
     e_hv_num_obj := fun _ => 1;
     e_has_checkers := checkers;
     e_tabu_length := 1;
     e_max_trials := 1000;
     e_budget := budget;
     e_penalize := true;
     e_no_hypervolume := true;
     e_pow := fun x _ => x |}.
Definition ex_point (i : nat) : list Q := [inject_Z (Z.of_nat (S i)); (1 # 2)%Q].
Definition ex_run cfg bad checkers budget ops :=
  let '(s, h) := perform (oneshot_env cfg ex_point (fun _ => 1 # 4)%Q (ex_env bad checkers budget))
    (o_init _ _ _ [] (os_init cfg budget, [])) ops in (snd (o_alg _ _ _ s), map snd h).
Definition none : nat -> bool := fun _ => false.

(** quasi-opposite sampling of budget 4 with the middle point *)
Example C82_ex_pairs :
  ex_run (Config Sampling true (Some Quasi) 2) none false (Some 4)
    [OAsk; OAsk; OTell (CParam 1) (LReal (Fin 3)) None; OAsk; OAsk; OAsk; OAsk] =
  ([[0; 0]; [1; 1 # 2]; [1 * - (1 # 4); (1 # 2) * - (1 # 4)]; [2; 1 # 2]; [2 * - (1 # 4); (1 # 2) * - (1 # 4)]]%Q,
   [RCand 0 false; RCand 1 false; RDone; RCand 2 false; RCand 3 false; RCand 4 false; RErr AssertionError]).
Proof. vm_compute. reflexivity. Qed.

(** a suggestion asked first: the middle point is never asked *)
Example C82_ex_suggestion_first :
  ex_run (Config Sampling true None 2) none false (Some 3) [OSuggest (Ok 50); OAsk; OAsk; OAsk; OAsk] =
  ([[1; 1 # 2]; [2; 1 # 2]]%Q, [RDone; RCand 50 true; RCand 0 false; RCand 1 false; RErr AssertionError]).
Proof. vm_compute. reflexivity. Qed.

(** random search with the middle point and opposition: the origin is asked twice *)
Example C82_ex_origin_twice :
  ex_run (Config Random true (Some Opposite) 2) none false (Some 3) [OAsk; OAsk; OAsk] =
  ([[0; 0]; [0 * - (1); 0 * - (1)]; [1; 1 # 2]]%Q, [RCand 0 false; RCand 1 false; RCand 2 false]).
Proof. vm_compute. reflexivity. Qed.

(** the hypotheses of the theorems above hold in such cases *)
Example C82_ex_hypotheses :
  no_violation (ex_env none false (Some 4)) /\ e_has_checkers _ _ _ (ex_env none false (Some 4)) = false.
Proof. split; [intros s c; reflexivity|reflexivity]. Qed.

(** Without the hypothesis on the constraints the design is not followed and the budget is
    not available: the rejected points use up the sampler, after which ask returns
    children of the parametrization (here candidate 99), although fewer asks than the
    budget have returned. *)
Theorem C82_rejected_refuted :
  ~ (forall cfg point factor (E0 : env oneshot_alg (list nat) unit) ops s h k c b,
       perform (oneshot_env cfg point factor E0) (o_init _ _ _ [] (os_init cfg (e_budget _ _ _ E0), [])) ops = (s, h) ->
       match e_budget _ _ _ E0 with Some n => asks_returned h <= n | None => True end ->
       nth_error h k = Some (OAsk, RCand c b) -> c < length (snd (o_alg _ _ _ s)) \/ b = true).
Proof.
  intros H. specialize (H (Config Sampling false None 2) ex_point (fun _ => 1 # 4)%Q (ex_env (fun c => c <? 3) true (Some 3)) [OAsk]).
  destruct (perform _ _ _) as [s h] eqn:Ep.
  assert (R : (length (snd (o_alg _ _ _ s)), h) = (3, [(OAsk, RCand 99 false)])).
  { change s with (fst (s, h)). change h with (snd (s, h)) at 2. rewrite <- Ep. vm_compute. reflexivity. }
  injection R as R1 R2. specialize (H s h 0 99 false eq_refl). rewrite R1, R2 in H. cbn in H.
  specialize (H ltac:(lia) eq_refl). destruct H as [H|H]; [lia|discriminate].
Qed.
Print Assumptions C82_rejected_refuted.

(** the average of the two best of eight points *)
Example C82_ex_average :
  avg_of_k_best AverageBest 5 [([1; 2], 9); ([3; 4], 1); ([0; 0], 8); ([5; 6], 2); ([7; 7], 7); ([8; 8], 6); ([9; 9], 5); ([1; 1], 4)]%Q =
  Ok [(3 + (5 + 0)) / qnat 2; (4 + (6 + 0)) / qnat 2]%Q.
Proof. reflexivity. Qed.

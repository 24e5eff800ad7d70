(** C99: the exchanges with the packages of Bayesian optimization *)
From Coq Require Import ZArith QArith Bool Arith Lia Lqa List.
From Verif.Model Require Import Prelude MultiValue Layers Bayes.
From Verif.Spec Require Import Bayes.
From Verif.Proofs Require Import LayerValues Bayes.
Import ListNotations.
Open Scope nat_scope.

(** * BayesOptim *)
(** Whatever the asks, suggestions and tells, and whatever the package proposes: the losses which the optimizer accepted
    were sent to the package or are still held, each one exactly once, with its own point, in the order of the tells. *)
Theorem C99_exactly_once : forall P S (alg_ask : S -> list P * S) alg_tell a es s cs os,
  run P S alg_ask alg_tell es (start P S a) = (s, cs, os) ->
  accepted os = sent cs ++ combine (b_newX (o_b s)) (b_losses (o_b s)) /\ length (b_newX (o_b s)) = length (b_losses (o_b s)).
Proof. intros P S al tl a es s cs os E. pose proof (inv_run P S al tl es a s cs os E) as I. split; [apply (i_sent _ _ _ _ _ I)|apply (i_len _ _ _ _ _ I)]. Qed.
Print Assumptions C99_exactly_once.

(** Every point of every batch is given to the user exactly once, the last point of a batch first; what was not given yet
    is the rest of the last batch. *)
Theorem C99_points : forall P S (alg_ask : S -> list P * S) alg_tell a es s cs os,
  run P S alg_ask alg_tell es (start P S a) = (s, cs, os) ->
  got os ++ rev (b_buffer (o_b s)) = concat (map (@rev P) (batches cs)).
Proof. intros P S al tl a es s cs os E. apply (i_got _ _ _ _ _ (inv_run P S al tl es a s cs os E)). Qed.
Print Assumptions C99_points.

(** A user who tells each loss before the next ask gets no error, and the package gets each of its batches back as a
    whole before it is asked for another one. *)
Theorem C99_by_batches : forall P S (alg_ask : S -> list P * S) alg_tell a losses,
  (forall a, fst (alg_ask a) <> []) ->
  let '(s, cs, os) := run P S alg_ask alg_tell (one_by_one 0 losses) (start P S a) in
  by_batches cs /\ Forall (fun o => forall e, o <> Raised e) os /\ accepted os = combine (got os) losses.
Proof.
  intros P S al tl a losses NE. pose proof (one_by_one_spec P S al tl NE losses (start P S a) [] eq_refl eq_refl eq_refl (fun _ => eq_refl)) as H.
  destruct (one_by_one_pairs P S al tl NE losses (start P S a) eq_refl) as (xs & L & K).
  change (length (o_given (start P S a))) with 0 in H, K. destruct (run P S al tl (one_by_one 0 losses) (start P S a)) as ((s & cs) & os). cbn [snd] in K. subst os.
  cbn in H. destruct H as (H1 & H2). split; [exact H1|]. split; [exact H2|]. now rewrite accepted_pairs, got_pairs.
Qed.
Print Assumptions C99_by_batches.

(** A point which the user suggested gets its loss refused, always, and the package never hears of it. *)
Theorem C99_suggested_refuted : forall P S (alg_ask : S -> list P * S) alg_tell a es s cs os loss,
  run P S alg_ask alg_tell es (start P S a) = (s, cs, os) ->
  let '(s1, cs1, o1) := step P S alg_ask alg_tell AskSuggested s in
  exists c, o1 = Given c None /\ step P S alg_ask alg_tell (Tell c loss) s1 = (s1, [], Raised TellNotAsked).
Proof.
  intros P S al tl a es s cs os loss E. pose proof (inv_run P S al tl es a s cs os E) as I. cbn. exists (length (o_given s)). split; [reflexivity|].
  destruct (existsb (Nat.eqb (length (o_given s))) (o_asked s)) eqn:X; [|reflexivity]. apply existsb_exists in X as (c & J & Eq). apply Nat.eqb_eq in Eq. subst c.
  destruct (i_asked _ _ _ _ _ I _ J) as (x & N). assert (K : nth_error (o_given s) (length (o_given s)) <> None) by congruence. apply nth_error_Some in K. lia.
Qed.
Print Assumptions C99_suggested_refuted.

(** The package of the examples: it proposes 3 points, then 1 at a time *)
Definition ask3 (k : nat) : list nat * nat := match k with 0 => ([10; 11; 12], 1) | _ => ([20 + k], S k) end.
Definition tell3 (xs : list nat) (ls : list Q) (k : nat) : nat := k.
(** When two points are asked before their losses are told, a batch is told in pieces, and the package is asked for the
    next batch in between. *)
Theorem C99_batches_refuted : exists es, Forall (fun o => forall e, o <> Raised e) (snd (run nat nat ask3 tell3 es (start nat nat 0))) /\
  ~ by_batches (snd (fst (run nat nat ask3 tell3 es (start nat nat 0)))) /\
  snd (fst (run nat nat ask3 tell3 es (start nat nat 0))) = [CAsk [10; 11; 12]; CTell [12; 11] [2%Q; 1%Q]; CTell [10] [0%Q]; CAsk [21]].
Proof.
  exists [Ask; Tell 0 2%Q; Ask; Ask; Tell 1 1%Q; Tell 2 0%Q; Ask].
  assert (E : snd (fst (run nat nat ask3 tell3 [Ask; Tell 0 2%Q; Ask; Ask; Tell 1 1%Q; Tell 2 0%Q; Ask] (start nat nat 0))) =
              [CAsk [10; 11; 12]; CTell [12; 11] [2%Q; 1%Q]; CTell [10] [0%Q]; CAsk [21]]) by reflexivity.
  rewrite E. split; [|split; [|reflexivity]].
  - assert (O : snd (run nat nat ask3 tell3 [Ask; Tell 0 2%Q; Ask; Ask; Tell 1 1%Q; Tell 2 0%Q; Ask] (start nat nat 0)) =
      [Given 0 (Some 12); Done 0 2%Q; Given 1 (Some 11); Given 2 (Some 10); Done 1 1%Q; Done 2 0%Q; Given 3 (Some 21)]) by reflexivity.
    rewrite O. repeat (constructor; [discriminate|]). constructor.
  - intros B. inversion B as [| |? ? ? L]. cbn in L. discriminate L.
Qed.
Print Assumptions C99_batches_refuted.
Example C99_by_batches_ex : (forall a, fst (ask3 a) <> []) /\
  snd (fst (run nat nat ask3 tell3 (one_by_one 0 [5%Q; 4%Q; 3%Q; 2%Q]) (start nat nat 0))) =
    [CAsk [10; 11; 12]; CTell [12; 11; 10] [5%Q; 4%Q; 3%Q]; CAsk [21]; CTell [21] [2%Q]].
Proof. split; [intros [|a]; discriminate|reflexivity]. Qed.
Example C99_exactly_once_ex : exists s cs os, run nat nat ask3 tell3 [Ask; AskSuggested; Ask; Tell 2 1%Q; Tell 1 0%Q; Tell 2 7%Q] (start nat nat 0) = (s, cs, os) /\
  accepted os = [(11, 1%Q)] /\ sent cs = [] /\ b_newX (o_b s) = [11] /\
  os = [Given 0 (Some 12); Given 1 None; Given 2 (Some 11); Done 2 1%Q; Raised TellNotAsked; Raised TellNotAsked].
Proof. do 3 eexists. split; [reflexivity|]. repeat split. Qed.

(** The first batch has the share [f] of the budget, rounded, which is never more than the budget, when the budget is at
    least 10. *)
Theorem C99_doe : forall init f b, (0 < f)%Q -> (f <= 1)%Q -> 10 <= b ->
  (f * inject_Z (Z.of_nat b) - (1 # 2) <= inject_Z (doe_size init (Some f) (Some b)) /\
   inject_Z (doe_size init (Some f) (Some b)) <= f * inject_Z (Z.of_nat b) + (1 # 2))%Q /\
  (0 <= doe_size init (Some f) (Some b) <= Z.of_nat b)%Z.
Proof.
  intros init f b F1 F2 B. unfold doe_size. destruct (Qeq_bool f 0) eqn:E; [apply Qeq_bool_iff in E; lra|]. apply Nat.leb_le in B as ->.
  pose proof (round_bounds (f * qnat b)) as (H1 & H2). change (qnat b) with (inject_Z (Z.of_nat b)) in *. set (r := round_half_even (f * inject_Z (Z.of_nat b))) in *.
  assert (N : (0 <= inject_Z (Z.of_nat b))%Q) by (change 0%Q with (inject_Z 0); rewrite <- Zle_Qle; lia).
  assert (M1 : (0 <= f * inject_Z (Z.of_nat b))%Q) by (apply Qmult_le_0_compat; lra).
  assert (M2 : (f * inject_Z (Z.of_nat b) <= inject_Z (Z.of_nat b))%Q) by nra.
  split; [split; assumption|]. split.
  - assert (K : (inject_Z (-1) < inject_Z r)%Q) by (change (inject_Z (-1)) with (-1)%Q; lra). rewrite <- Zlt_Qlt in K. lia.
  - assert (K : (inject_Z r < inject_Z (Z.of_nat b + 1))%Q) by (rewrite inject_Z_plus; change (inject_Z 1) with 1%Q; lra). rewrite <- Zlt_Qlt in K. lia.
Qed.
Print Assumptions C99_doe.
(** Below, it has 5 points, which may be more than the budget: the package is then never told anything before the end. *)
Theorem C99_doe_refuted : forall init f b, (0 < f)%Q -> b < 5 -> (Z.of_nat b < doe_size init (Some f) (Some b))%Z.
Proof.
  intros init f b F B. unfold doe_size. destruct (Qeq_bool f 0) eqn:E; [apply Qeq_bool_iff in E; lra|]. destruct (Nat.leb_spec 10 b); lia.
Qed.
Print Assumptions C99_doe_refuted.
Example C99_doe_ex : doe_size None (Some (2 # 10)%Q) (Some 54) = 11%Z /\ doe_size None (Some (2 # 10)%Q) (Some 3) = 5%Z /\ doe_size (Some 7) None (Some 100) = 7%Z.
Proof. vm_compute. auto. Qed.

(** * BO *)
(** The names of the variables come in the order of the variables, whatever their number: an array read in the sorted order
    of the names has the variables in their order. *)
Theorem C99_keys : forall dim,
  (forall i j, i < j -> j < dim -> before (key dim i) (key dim j)) /\ keys dim = map (key dim) (seq 0 dim).
Proof. intros dim. split; [apply key_before|apply keys_eq]. Qed.
Print Assumptions C99_keys.
(** "x08" and "x10": with shorter names the order would be another one *)
Example C99_keys_ex : key 12 8 = [120; 48; 56] /\ key 12 10 = [120; 49; 48] /\ ~ before (key 9 8) (key 9 10).
Proof. split; [reflexivity|]. split; [reflexivity|]. intros B. vm_compute in B. inversion B as [| ? ? ? ? L | ? ? ? B']; subst; [lia|]. inversion B' as [| ? ? ? ? L |]; lia. Qed.

(** The number of points of the initial design *)
Definition first_points (budget init_budget : option nat) : option nat :=
  match init_budget with Some n => Some n | None => option_map Nat.sqrt budget end.
(** With a budget, or a size for the design: no ask and no tell of a point of the right size fails, asked or not, told
    before or not.  The [k]-th ask gives the [k]-th point of the design; after it, what the package suggests, from the
    first loss of each of the points told. *)
Theorem C99_bo_ask : forall dim budget init_budget middle sample suggest n es,
  first_points budget init_budget = Some n -> (forall l, length (suggest l) = dim) ->
  (forall y loss, In (BTell y loss) es -> length y = dim) ->
  let (s, os) := brun dim budget init_budget middle sample suggest es fstart in
  Forall (fun o => forall e, o <> BRaised e) os /\ f_space s = known es /\
  snd (bstep dim budget init_budget middle sample suggest BAsk s) =
    BGiven (match nth_error (design dim middle sample n) (asks es) with Some x => x | None => suggest (known es) end).
Proof.
  intros dim budget ib middle sample suggest n es N L F.
  pose proof (run_start dim budget ib middle sample suggest L n N es) as R. destruct (brun dim budget ib middle sample suggest es fstart) as (s & os).
  destruct R as (G & O). { apply Forall_forall. intros [|y l] I; cbn; eauto. }
  split; [exact O|]. split; [apply G|]. destruct (ask_good dim budget ib middle sample suggest L n N es s G) as (s' & -> & _). reflexivity.
Qed.
Print Assumptions C99_bo_ask.
(** The design has at least two points, and the middle of the domain comes first when it is asked for. *)
Theorem C99_design : forall dim sample n, 
  length (design dim true sample n) = Nat.max 2 n /\ length (design dim false sample n) = Nat.max 2 n /\
  hd_error (design dim true sample n) = Some (repeat (1 # 2)%Q dim) /\
  forall k, k < Nat.max 2 n -> nth_error (design dim false sample n) k = Some (sample k).
Proof.
  intros dim sample n. unfold design. cbv zeta. cbn [length hd_error]. rewrite !map_length, !seq_length. split; [lia|]. split; [reflexivity|]. split; [reflexivity|].
  intros k K. rewrite nth_error_map. rewrite (nth_error_nth' _ 0) by (now rewrite seq_length). rewrite seq_nth by exact K. reflexivity.
Qed.
Print Assumptions C99_design.
(** The recommendation is the point told with the smallest loss, counting for each point the first loss told; ties go to the
    earliest point. *)
Theorem C99_bo_recommend : forall dim budget init_budget middle sample suggest n es,
  first_points budget init_budget = Some n -> (forall l, length (suggest l) = dim) ->
  (forall y loss, In (BTell y loss) es -> length y = dim) -> tells es <> [] ->
  exists y, bo_recommend (fst (brun dim budget init_budget middle sample suggest es fstart)) = Some y /\ best_first (tells es) y.
Proof.
  intros dim budget ib middle sample suggest n es N L F T.
  pose proof (C99_bo_ask dim budget ib middle sample suggest n es N L F) as R. destruct (brun dim budget ib middle sample suggest es fstart) as (s & os).
  destruct R as (_ & E & _). cbn [fst]. unfold bo_recommend. rewrite E. apply recommend_known, T.
Qed.
Print Assumptions C99_bo_recommend.
(** So a later, smaller loss for the same point is ignored. *)
Theorem C99_bo_latest_refuted : exists es y y', (forall x loss, In (BTell x loss) es -> length x = 1) /\
  let s := fst (brun 1 (Some 9) None false (fun k => [(1 # 5)%Q]) (fun _ => [(1 # 3)%Q]) es fstart) in
  bo_recommend s = Some y /\ In (y', (-5)%Q) (tells es) /\ (forall loss, In (y, loss) (tells es) -> (1 <= loss)%Q).
Proof.
  exists [BTell [(1 # 2)%Q] 2%Q; BTell [(3 # 4)%Q] 1%Q; BTell [(1 # 2)%Q] (-5)%Q], [(3 # 4)%Q], [(1 # 2)%Q].
  split; [intros x loss [E|[E|[E|[]]]]; injection E as <- _; reflexivity|]. split; [reflexivity|]. split; [cbn; auto|].
  intros loss [E|[E|[E|[]]]]; try discriminate E. injection E as <-. lra.
Qed.
Print Assumptions C99_bo_latest_refuted.
Example C99_bo_ex : first_points (Some 9) None = Some 3 /\
  snd (brun 2 (Some 9) None true (fun k => [(1 # 5)%Q; (2 # 5)%Q]) (fun l => repeat (inject_Z (Z.of_nat (length l))) 2)
    [BAsk; BTell [(1 # 2)%Q; (1 # 2)%Q] 1%Q; BAsk; BTell [0%Q; 0%Q] 4%Q; BTell [0%Q; 0%Q] 3%Q; BAsk; BAsk] fstart) =
  [BGiven [(1 # 2)%Q; (1 # 2)%Q]; BDone; BGiven [(1 # 5)%Q; (2 # 5)%Q]; BDone; BDone; BGiven [(1 # 5)%Q; (2 # 5)%Q]; BGiven [2%Q; 2%Q]].
Proof. split; reflexivity. Qed.

(** Without a budget and without a size for the design: the first call fails.  If it is an ask, the next ones work, without
    any design; if it is a tell, every later tell fails too. *)
Theorem C99_no_budget : forall dim middle sample suggest es, (forall l, length (suggest l) = dim) ->
  (forall y loss, In (BTell y loss) es -> length y = dim) ->
  (let os := snd (brun dim None None middle sample suggest (BAsk :: es) fstart) in
   exists os', os = BRaised AssertionError :: os' /\ Forall (fun o => forall e, o <> BRaised e) os') /\
  forall y loss, length y = dim ->
   let os := snd (brun dim None None middle sample suggest (BTell y loss :: es) fstart) in
   exists os', os = BRaised AssertionError :: os' /\
     Forall2 (fun e o => match e with BAsk => o = BGiven (suggest []) | BTell _ _ => o = BRaised RuntimeError end) es os'.
Proof.
  intros dim middle sample suggest es L F. split.
  - cbn. pose proof (no_budget_ask dim middle sample suggest L es) as H. destruct (brun dim None None middle sample suggest es (FState [] [] [] true)) as (s & os).
    exists os. split; [reflexivity|]. apply H. apply Forall_forall. intros [|y l] I; cbn; eauto.
  - intros y loss Ly. cbv zeta. cbn [brun bstep bo_tell register f_registered fstart f_space f_queue f_created get_bo]. pose proof (no_budget_tell dim middle sample suggest L es (y, (- loss)%Q)) as H.
    unfold point in *.
    match goal with |- context [let (_, _) := ?t in _] => destruct t as (s & os) end. exists os. split; [reflexivity|exact H].
Qed.
Print Assumptions C99_no_budget.
Example C99_no_budget_ex : snd (brun 1 None None false (fun k => [0%Q]) (fun l => [(1 # 3)%Q]) [BTell [0%Q] 1%Q; BAsk; BTell [(1 # 3)%Q] 2%Q] fstart) =
  [BRaised AssertionError; BGiven [(1 # 3)%Q]; BRaised RuntimeError].
Proof. reflexivity. Qed.

(** C81: the optimizers of the NGOpt family are users of the optimizer they select. *)
From Coq Require Import List Arith ZArith QArith Bool Lia.
From Verif.Model Require Import Prelude MultiValue Float Archive Optimizer Delegate.
From Verif.Spec Require Import Optimizer Delegate.
From Verif.Proofs Require Delegate.
Import ListNotations.
Open Scope nat_scope.

(** An optimizer: proposes candidates 100, 101, ...; candidates listed in [bad] violate
    the constraint. It keeps what it was told. *)
Definition ex_inner (bad : nat -> bool) (trials : nat) : env (nat * list (nat * fl)) (list nat) unit :=
  {| e_callbacks_ask := fun s => (o_alg _ _ _ s, Ok tt);
     e_callbacks_tell := fun s _ _ => (o_alg _ _ _ s, Ok tt);
     e_ask := fun s => let '(n, l) := o_alg _ _ _ s in ((S n, l), Ok (100 + n));
     e_tell := fun s c f => let '(n, l) := o_alg _ _ _ s in ((n, (c, f) :: l), Ok tt);
     e_tell_not_asked := fun s c f => let '(n, l) := o_alg _ _ _ s in ((n, (c, f) :: l), Ok tt);
     e_spawn := fun s => (o_alg _ _ _ s, 99);
     e_satisfies := fun s c => (o_alg _ _ _ s, negb (bad c));
     e_satisfies_no_tabu := fun s c => (o_alg _ _ _ s, negb (bad c));
     e_can_skip := fun _ _ => false;
     e_solver := fun s c => (o_alg _ _ _ s, c);
     e_penalty := fun _ _ => 10%Q;
     e_update := fun a c _ => (c :: a, Ok tt);
     e_hv_ref := fun _ => tt; e_hv_auto := tt; e_hv_add := fun _ _ _ => (tt, Ok (Fin 7%Q));
     e_hv_num_obj := fun _ => 2;
     e_has_checkers := true; e_tabu_length := 0; e_max_trials := trials; e_budget := Some 50;
     e_penalize := false; e_no_hypervolume := false; e_pow := fun _ _ => 1%Q |}.
Definition ex_i0 : ost (nat * list (nat * fl)) (list nat) unit := o_init _ _ _ [] (0, []).

(** The rest of the optimizer which selects. *)
Definition ex_outer (bad : nat -> bool) (trials : nat) (checkers : bool)
  : env (delegate (nat * list (nat * fl)) (list nat) unit) (list nat) unit :=
  {| e_callbacks_ask := fun s => (o_alg _ _ _ s, Ok tt);
     e_callbacks_tell := fun s _ _ => (o_alg _ _ _ s, Ok tt);
     e_ask := fun s => (o_alg _ _ _ s, Err NotImplementedError);
     e_tell := fun s _ _ => (o_alg _ _ _ s, Err NotImplementedError);
     e_tell_not_asked := fun s _ _ => (o_alg _ _ _ s, Err NotImplementedError);
     e_spawn := fun s => (o_alg _ _ _ s, 50 + o_num_ask _ _ _ s);
     e_satisfies := fun s c => (o_alg _ _ _ s, negb (bad c));
     e_satisfies_no_tabu := fun s c => (o_alg _ _ _ s, negb (bad c));
     e_can_skip := fun _ _ => false;
     e_solver := fun s c => (o_alg _ _ _ s, c);
     e_penalty := fun _ _ => 10%Q;
     e_update := fun a c _ => (c :: a, Ok tt);
     e_hv_ref := fun _ => tt; e_hv_auto := tt; e_hv_add := fun _ _ _ => (tt, Ok (Fin 7%Q));
     e_hv_num_obj := fun _ => 2;
     e_has_checkers := checkers; e_tabu_length := 0; e_max_trials := trials; e_budget := Some 50;
     e_penalize := false; e_no_hypervolume := false; e_pow := fun _ _ => 1%Q |}.
Definition ex_ngopt bad trials checkers create :=
  ngopt_env (ex_inner bad trials) create (ex_inner bad trials) ex_i0 true (ex_outer bad trials checkers).
Definition ex_start : ost (delegate (nat * list (nat * fl)) (list nat) unit) (list nat) unit :=
  o_init _ _ _ [] d_init.
Lemma ex_keeps bad trials checkers : keeps (ex_outer bad trials checkers).
Proof. constructor; reflexivity. Qed.

(** * The selected optimizer is used through its public interface only *)

(** After any history of asks, suggestions and tells (with violated constraints, errors,
    anything), as long as there are not several objectives, the selected optimizer is in
    the state it would be in if somebody had created it and made, in order, the asks and
    tells which the outer optimizer addressed to its algorithm; it is not created before
    the first of them. *)
Theorem C81_interface : forall A C H ARC HV (EI : env A C H) i0 ED create_de replaces
    (E0 : env (delegate A C H) ARC HV) arc0 ops s h,
  keeps E0 ->
  perform (ngopt_env EI (Ok i0) ED create_de replaces E0) (o_init _ _ _ arc0 d_init) ops = (s, h) ->
  (replaces = false \/ o_num_obj _ _ _ s <= 1) ->
  o_alg _ _ _ s = match calls (o_trace _ _ _ s) with
                  | [] => d_init
                  | l => Delegate false (Some (fst (perform EI i0 l)))
                  end.
Proof.
  intros A C H ARC HV EI i0 ED create_de replaces E0 arc0 ops s h Hk HH Hn.
  destruct (Delegate.interface EI (Ok i0) ED create_de replaces E0 Hk ops _ _ _ i0 HH) as (t & Ht & Ha).
  - unfold Delegate.steady. tauto.
  - reflexivity.
  - cbn in Ht. rewrite Ht. exact Ha.
Qed.
Print Assumptions C81_interface.

Definition ex_hist : list op :=
  [OAsk; OAsk; OTell (CParam 101) (LReal (Fin 3%Q)) None; OSuggest (Ok 7); OAsk;
   OTell (CParam 7) (LReal (Fin 2%Q)) None; OTell (CParam 100) (LReal (Fin 5%Q)) None; OAsk].
Example C81_interface_example :
  calls (o_trace _ _ _ (fst (perform (ex_ngopt (fun c => c =? 100) 10 true (Ok ex_i0)) ex_start ex_hist))) =
    [OAsk; OAsk; OTell (CParam 101) (LReal (Fin 3%Q)) None; OTell (CParam 7) (LReal (Fin 2%Q)) None;
     OTell (CParam 100) (LReal (Fin (5 + 10)%Q)) None; OAsk] /\
  match o_alg _ _ _ (fst (perform (ex_ngopt (fun c => c =? 100) 10 true (Ok ex_i0)) ex_start ex_hist)) with
  | Delegate false (Some i) => o_num_ask _ _ _ i = 3 /\ o_num_tell _ _ _ i = 3
  | _ => False
  end.
Proof. vm_compute. auto. Qed.

(** * Without constraints and with one objective it is as if the user had used it directly *)

(** The selected optimizer lives exactly the history of the user, without the
    suggestions: the same calls, the same candidates, the same errors. *)
Theorem C81_transparent : forall A C H ARC HV (EI : env A C H) arci alg0 ED create_de replaces
    (E0 : env (delegate A C H) ARC HV) arc0 ops s h,
  let i0 := o_init _ _ _ arci alg0 in
  keeps E0 -> no_violation E0 -> e_has_checkers _ _ _ E0 = false ->
  (forall a c l, snd (e_update _ _ _ E0 a c l) = Ok tt) ->
  Forall plain_op ops ->
  perform (ngopt_env EI (Ok i0) ED create_de replaces E0) (o_init _ _ _ arc0 d_init) ops = (s, h) ->
  exists i, perform EI i0 (map fst (but_suggestions h)) = (i, but_suggestions h) /\
    (o_alg _ _ _ s = Delegate false (Some i) \/ (but_suggestions h = [] /\ o_alg _ _ _ s = d_init)).
Proof.
  intros A C H ARC HV EI arci alg0 ED create_de replaces E0 arc0 ops s h i0 Hk Hnv Hch Hup Hp HH.
  assert (Ht : Delegate.tinv (Ok i0) (o_init _ _ _ arc0 d_init : ost (delegate A C H) ARC HV) i0).
  { constructor; try reflexivity. cbn. lia. }
  destruct (Delegate.transparent EI (Ok i0) ED create_de replaces E0 Hk ops _ i0 _ _ Hnv Hch Hup Ht Hp HH)
    as (i & Hi & _ & Hf).
  exists i. split; [exact Hi|exact Hf].
Qed.
Print Assumptions C81_transparent.

Example C81_transparent_example :
  let r := perform (ex_ngopt (fun _ => false) 10 false (Ok ex_i0)) ex_start ex_hist in
  Forall plain_op ex_hist /\ no_violation (ex_outer (fun _ => false) 10 false) /\
  snd r = [(OAsk, RCand 100 false); (OAsk, RCand 101 false);
           (OTell (CParam 101) (LReal (Fin 3%Q)) None, RDone); (OSuggest (Ok 7), RDone); (OAsk, RCand 7 true);
           (OTell (CParam 7) (LReal (Fin 2%Q)) None, RDone);
           (OTell (CParam 100) (LReal (Fin 5%Q)) None, RDone); (OAsk, RCand 102 false)] /\
  length (but_suggestions (snd r)) = 6.
Proof.
  split; [|split].
  - repeat constructor.
  - intros s c. reflexivity.
  - vm_compute. auto.
Qed.

(** * A violated constraint is penalised twice *)

(** The loss which the algorithm of the selected optimizer hears has the penalty of the
    outer optimizer and that of the selected one. *)
Theorem C81_penalised_twice : forall A C H ARC HV (EI : env A C H) create ED create_de replaces
    (E0 : env (delegate A C H) ARC HV) s i c f s',
  keeps E0 -> d_get create (o_alg _ _ _ s) = Ok i -> d_replaced (o_alg _ _ _ s) = false ->
  violates E0 c -> violates EI c -> e_budget _ _ _ E0 <> None -> e_budget _ _ _ EI <> None ->
  tell _ _ _ (ngopt_env EI create ED create_de replaces E0) s (CParam c) (LReal f) None = (s', Ok true) ->
  exists s1 i1 i', o_alg _ _ _ s' = Delegate false (Some i') /\
    o_num_ask _ _ _ s1 = o_num_ask _ _ _ s /\ o_num_tell _ _ _ s1 = o_num_tell _ _ _ s /\
    o_num_ask _ _ _ i1 = o_num_ask _ _ _ i /\ o_num_tell _ _ _ i1 = o_num_tell _ _ _ i /\
    o_trace _ _ _ i' = o_trace _ _ _ i ++
      [EAlgTell c (fl_add (clip_loss (fl_add (clip_loss f) (Fin (e_penalty _ _ _ E0 s1 c))))
                          (Fin (e_penalty _ _ _ EI i1 c))) (mem c (o_asked _ _ _ i))].
Proof.
  intros A C H ARC HV EI create ED create_de replaces E0 s i c f s' Hk.
  exact (Delegate.penalised_twice EI create ED create_de replaces E0 Hk s i c f s').
Qed.
Print Assumptions C81_penalised_twice.

Example C81_penalised_twice_example :
  match tell _ _ _ (ex_ngopt (fun c => c =? 100) 1 true (Ok ex_i0))
          (fst (ask _ _ _ (ex_ngopt (fun c => c =? 100) 1 true (Ok ex_i0)) ex_start)) (CParam 100)
          (LReal (Fin 3%Q)) None with
  | (s, Ok true) => match o_alg _ _ _ s with
                    | Delegate false (Some i) => snd (o_alg _ _ _ i) = [(100, Fin (3 + 10 + 10)%Q)]
                    | _ => False
                    end
  | _ => False
  end /\
  violates (ex_outer (fun c => c =? 100) 1 true) 100 /\ violates (ex_inner (fun c => c =? 100) 1) 100.
Proof. split; [vm_compute; reflexivity|]. split; intros s; reflexivity. Qed.

(** * Retries multiply *)

(** If no candidate satisfies the constraints, one ask of the user makes the product of
    the two maximal numbers of trials of calls of the innermost algorithm. *)
Theorem C81_retries_multiply : forall A C H ARC HV (EI : env A C H) create ED create_de replaces
    (E0 : env (delegate A C H) ARC HV) s i s' x,
  keeps E0 -> (forall c, violates E0 c) -> (forall c, violates EI c) ->
  e_penalize _ _ _ E0 = false -> e_penalize _ _ _ EI = false ->
  (forall s, snd (e_callbacks_ask _ _ _ EI s) = Ok tt) ->
  (forall s, exists c, snd (e_ask _ _ _ EI s) = Ok c) ->
  o_suggestions _ _ _ s = [] -> o_skip _ _ _ s = false -> o_num_obj _ _ _ s <= 1 ->
  d_get create (o_alg _ _ _ s) = Ok i -> d_replaced (o_alg _ _ _ s) = false ->
  o_suggestions _ _ _ i = [] -> o_skip _ _ _ i = false ->
  ask _ _ _ (ngopt_env EI create ED create_de replaces E0) s = (s', Ok x) ->
  exists i', d_get create (o_alg _ _ _ s') = Ok i' /\
    alg_asks (o_trace _ _ _ i') = alg_asks (o_trace _ _ _ i) +
      Nat.max 1 (e_max_trials _ _ _ E0 / 2) * Nat.max 1 (e_max_trials _ _ _ EI / 2).
Proof.
  intros A C H ARC HV EI create ED create_de replaces E0 s i s' x Hk H1 H2 H3 H4 H5 H6 H7 H8 H9 H10 H11 H12 H13 HH.
  destruct (Delegate.outer_ask EI create ED create_de replaces E0 Hk H1 H2 H3 H4 H5 H6 s i s' x H7 H8 H9 H10 H11
    (Delegate.Build_fresh i H12 H13) HH) as (i' & Hg & Ht).
  exists i'. split; [exact Hg|]. rewrite Ht. unfold alg_asks. rewrite filter_app, app_length. f_equal.
  generalize (Nat.max 1 (e_max_trials _ _ _ E0 / 2) * Nat.max 1 (e_max_trials _ _ _ EI / 2)).
  intros n. induction n as [|n IH]; [reflexivity|]. cbn. now rewrite IH.
Qed.
Print Assumptions C81_retries_multiply.

(** with ten trials each: twenty-five calls *)
Example C81_retries_example :
  match ask _ _ _ (ex_ngopt (fun _ => true) 10 true (Ok ex_i0)) ex_start with
  | (s, Ok (c, false)) => match o_alg _ _ _ s with
                          | Delegate false (Some i) => alg_asks (o_trace _ _ _ i) = 25 /\ c = 124
                          | _ => False
                          end
  | _ => False
  end /\ (forall c, violates (ex_outer (fun _ => true) 10 true) c).
Proof. split; [vm_compute; auto|]. intros c s. reflexivity. Qed.

(** * Several objectives *)

(** NGOpt8 and its descendants: at the first loss with several values the selected
    optimizer is forgotten, with all it was told; a new DE is told the candidate, which
    it never proposed, as every candidate already asked. *)
Theorem C81_several_objectives : forall A C H ARC HV (EI : env A C H) create ED arcd algd
    (E0 : env (delegate A C H) ARC HV) s c l s',
  keeps E0 -> d_replaced (o_alg _ _ _ s) = false -> 1 < n_losses l ->
  tell _ _ _ (ngopt_env EI create ED (o_init _ _ _ arcd algd) true E0) s (CParam c) l None = (s', Ok true) ->
  exists f d, tell _ _ _ ED (o_init _ _ _ arcd algd) (CParam c) (LReal f) None = (d, Ok true) /\
    o_alg _ _ _ s' = Delegate true (Some d) /\ o_num_tell _ _ _ d = 1 /\ o_num_tna _ _ _ d = 1 /\
    o_num_ask _ _ _ d = 0.
Proof.
  intros A C H ARC HV EI create ED arcd algd E0 s c l s' Hk Hr Hl HH.
  destruct (Delegate.replaced EI create ED (o_init _ _ _ arcd algd) true E0 Hk s c l s' eq_refl Hr Hl HH)
    as (f & d & Hd & Ha).
  exists f, d. split; [exact Hd|]. split; [exact Ha|].
  pose proof (Optimizer.tell_tell_spec ED _ _ _ _ _ _ Hd) as [T1 _ _ T4 _ _].
  destruct T4 as (c0 & [= <-] & T4 & T5 & _). cbn in T1, T4, T5. auto.
Qed.
Print Assumptions C81_several_objectives.

Example C81_several_objectives_example :
  let E := ex_ngopt (fun _ => false) 10 false (Ok ex_i0) in
  match tell _ _ _ E (fst (perform E ex_start [OAsk; OAsk])) (CParam 100)
          (LSeq [IFloat (Fin 3%Q); IFloat (Fin 4%Q)]) None with
  | (s, Ok true) => match o_alg _ _ _ s with
                    | Delegate true (Some d) => o_num_tna _ _ _ d = 1 /\ o_asked _ _ _ s = [101]
                    | _ => False
                    end
  | _ => False
  end.
Proof. vm_compute. auto. Qed.

(** * The selection fails *)

(** When the selection raises an AssertionError (NGOpt without a budget, C74), nothing is
    ever created. Without constraints each ask raises it; but as soon as a constraint is
    registered, asks succeed and return children of the parametrization, that is its
    initial point. *)
Theorem C81_failing_selection : forall A C H ARC HV (EI : env A C H) ED create_de replaces
    (E0 : env (delegate A C H) ARC HV) arc0 ops s h s' r,
  keeps E0 -> no_violation E0 ->
  perform (ngopt_env EI (Err AssertionError) ED create_de replaces E0) (o_init _ _ _ arc0 d_init) ops = (s, h) ->
  o_num_obj _ _ _ s <= 1 -> o_suggestions _ _ _ s = [] -> o_skip _ _ _ s = false ->
  ask _ _ _ (ngopt_env EI (Err AssertionError) ED create_de replaces E0) s = (s', r) ->
  o_alg _ _ _ s = d_init /\
  (e_has_checkers _ _ _ E0 = false -> r = Err AssertionError) /\
  (e_has_checkers _ _ _ E0 = true -> exists s1, let c := snd (e_spawn _ _ _ E0 s1) in
      r = if mem c (o_asked _ _ _ s) then Err RuntimeError else Ok (c, false)).
Proof.
  intros A C H ARC HV EI ED create_de replaces E0 arc0 ops s h s' r Hk Hnv HH Hn Hs Hsk Ha.
  assert (Hd : o_alg _ _ _ s = d_init).
  { eapply (Delegate.failing_run EI (Err AssertionError) ED create_de replaces E0 Hk); [reflexivity| |exact Hn|exact HH].
    reflexivity. }
  split; [exact Hd|].
  exact (proj2 (Delegate.failing_ask EI (Err AssertionError) ED create_de replaces E0 Hk s s' r eq_refl Hd Hs Hsk Hn Hnv Ha)).
Qed.
Print Assumptions C81_failing_selection.

(** and no tell ever succeeds *)
Theorem C81_failing_selection_tell : forall A C H ARC HV (EI : env A C H) ED create_de replaces
    (E0 : env (delegate A C H) ARC HV) arc0 ops s h c f s' r,
  keeps E0 ->
  perform (ngopt_env EI (Err AssertionError) ED create_de replaces E0) (o_init _ _ _ arc0 d_init) ops = (s, h) ->
  o_num_obj _ _ _ s <= 1 ->
  tell _ _ _ (ngopt_env EI (Err AssertionError) ED create_de replaces E0) s (CParam c) (LReal f) None = (s', r) ->
  r <> Ok true.
Proof.
  intros A C H ARC HV EI ED create_de replaces E0 arc0 ops s h c f s' r Hk HH Hn Ht.
  assert (Hd : o_alg _ _ _ s = d_init).
  { eapply (Delegate.failing_run EI (Err AssertionError) ED create_de replaces E0 Hk); [reflexivity| |exact Hn|exact HH].
    reflexivity. }
  exact (Delegate.failing_tell EI (Err AssertionError) ED create_de replaces E0 Hk s c f s' r eq_refl Hd Ht).
Qed.
Print Assumptions C81_failing_selection_tell.

Example C81_failing_example :
  map snd (snd (perform (ex_ngopt (fun _ => false) 10 true (Err AssertionError)) ex_start
    [OAsk; OAsk; OTell (CParam 50) (LReal (Fin 3%Q)) None; OAsk])) =
    [RCand 50 false; RCand 51 false; RErr AssertionError; RCand 52 false] /\
  map snd (snd (perform (ex_ngopt (fun _ => false) 10 false (Err AssertionError)) ex_start
    [OAsk; OTell (CParam 50) (LReal (Fin 3%Q)) None; OAsk])) =
    [RErr AssertionError; RErr AssertionError; RErr AssertionError].
Proof. vm_compute. auto. Qed.

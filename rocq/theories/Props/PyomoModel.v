(** The wrapper of Pyomo models (nevergrad/functions/pyomo/core.py). *)
From Coq Require Import String Ascii List Arith ZArith QArith Qround Bool Lqa Lia.
From Verif.Model Require Import Prelude MultiValue PyomoModel.
From Verif.Spec Require Import PyomoModel.
From Verif.Proofs Require Import Prelude MultiValue PyomoModel.
Import ListNotations.
Open Scope nat_scope.

(** With closed ends (or infinite ones) the parameter takes exactly the values of the range, and integers only when the
    range is one of integers. *)
Theorem C107_closed : forall up down r, r_step r = 0%Z \/ r_step r = 1%Z ->
  (r_start r = None \/ fst (r_closed r) = true) -> (r_end r = None \/ snd (r_closed r) = true) ->
  exists s, range_to_scalar up down [r] = Ok s
    /\ (forall x, allowed s x <-> in_domain r x) /\ (s_integer s = true <-> r_step r = 1%Z).
Proof.
  intros up down r St H1 H2. rewrite scalar_of by lia. eexists; split; [reflexivity|]. cbn [s_integer].
  split; [|now rewrite Z.eqb_eq]. intros x. unfold allowed, in_domain; cbn [s_lower s_upper].
  assert (E1 : shrink up down (r_start r) (fst (r_closed r)) 1 = r_start r).
  { destruct H1 as [->| ->]; [reflexivity|]. destruct (r_start r); reflexivity. }
  assert (E2 : shrink up down (r_end r) (snd (r_closed r)) (-1) = r_end r).
  { destruct H2 as [->| ->]; [reflexivity|]. destruct (r_end r); reflexivity. }
  rewrite E1, E2. split; intros [A B]; split; intros y K.
  - destruct H1 as [H1|H1]; [congruence|]. rewrite H1. auto.
  - destruct H2 as [H2|H2]; [congruence|]. rewrite H2. auto.
  - destruct H1 as [H1|H1]; [congruence|]. specialize (A y K). now rewrite H1 in A.
  - destruct H2 as [H2|H2]; [congruence|]. specialize (B y K). now rewrite H2 in B.
Qed.
Print Assumptions C107_closed.

(** An open lower end below 1, or an open upper end above -1, is left out, and no number which can be represented is lost. *)
Theorem C107_open : forall repr up down r, neighbours repr up down -> r_step r = 0%Z ->
  (forall s, r_start r = Some s -> fst (r_closed r) = true \/ (s < 1)%Q) ->
  (forall e, r_end r = Some e -> snd (r_closed r) = true \/ (-1 < e)%Q) ->
  exists s, range_to_scalar up down [r] = Ok s
    /\ (forall x, allowed s x -> in_domain r x) /\ (forall x, repr x -> in_domain r x -> allowed s x).
Proof.
  intros repr up down r N St H1 H2. rewrite scalar_of by lia. eexists; split; [reflexivity|].
  unfold allowed, in_domain; cbn [s_lower s_upper].
  split.
  - intros x [A B]. split; intros y K.
    + rewrite K in A. cbn in A. destruct (fst (r_closed r)) eqn:C; [auto|].
      destruct (H1 y K) as [D|D]; [discriminate|]. rewrite (next_above up down y 1 D) in A.
      specialize (A _ eq_refl). destruct (N y) as (K2 & _). lra.
    + rewrite K in B. cbn in B. destruct (snd (r_closed r)) eqn:C; [auto|].
      destruct (H2 y K) as [D|D]; [discriminate|]. rewrite (next_below up down y (-1) D) in B.
      specialize (B _ eq_refl). destruct (N y) as (_ & K2 & _). lra.
  - intros x Rx [A B]. split; intros y K.
    + destruct (r_start r) as [s|] eqn:E; cbn in K; [|discriminate]. specialize (A s eq_refl).
      destruct (fst (r_closed r)) eqn:C; [inversion K; now subst|].
      destruct (H1 s eq_refl) as [D|D]; [discriminate|]. rewrite (next_above up down s 1 D) in K.
      inversion K; subst. destruct (N s) as (_ & _ & K2 & _). auto.
    + destruct (r_end r) as [e|] eqn:E; cbn in K; [|discriminate]. specialize (B e eq_refl).
      destruct (snd (r_closed r)) eqn:C; [inversion K; now subst|].
      destruct (H2 e eq_refl) as [D|D]; [discriminate|]. rewrite (next_below up down e (-1) D) in K.
      inversion K; subst. destruct (N e) as (_ & _ & _ & K2). auto.
Qed.
Print Assumptions C107_open.

(** An open lower end which is 1 or more is moved down instead of up: the parameter may take a value which is not in the
    range; and likewise for an open upper end which is -1 or less. *)
Theorem C107_open_refuted : forall repr up down, neighbours repr up down ->
  (forall s c, (1 <= s)%Q -> exists sc x, range_to_scalar up down [mkRange (Some s) None 0 (false, c)] = Ok sc
     /\ allowed sc x /\ ~ in_domain (mkRange (Some s) None 0 (false, c)) x)
  /\ (forall e c, (e <= -1)%Q -> exists sc x, range_to_scalar up down [mkRange None (Some e) 0 (c, false)] = Ok sc
     /\ allowed sc x /\ ~ in_domain (mkRange None (Some e) 0 (c, false)) x)
  /\ (forall s e, (1 <= s)%Q -> (s < e)%Q -> repr s -> exists sc x,
       range_to_scalar up down [mkRange (Some s) (Some e) 0 (false, false)] = Ok sc
       /\ allowed sc x /\ ~ in_domain (mkRange (Some s) (Some e) 0 (false, false)) x).
Proof.
  intros repr up down N. split; [|split].
  - intros s c H. eexists _, s. split; [reflexivity|]. split.
    + split; cbn; intros y K; [|discriminate]. inversion K; subst. apply (next_le repr up down N s 1 H).
    + intros [A _]. specialize (A s eq_refl). cbn in A. lra.
  - intros e c H. eexists _, e. split; [reflexivity|]. split.
    + split; cbn; intros y K; [discriminate|]. inversion K; subst. apply (next_ge repr up down N e (-1) H).
    + intros [_ A]. specialize (A e eq_refl). cbn in A. lra.
  - intros s e H L Rs. eexists _, s. split; [reflexivity|]. split.
    + split; cbn; intros y K; inversion K; subst.
      * apply (next_le repr up down N s 1 H).
      * rewrite (next_below up down e (-1)) by lra. destruct (N e) as (_ & _ & _ & K2). auto.
    + intros [A _]. specialize (A s eq_refl). cbn in A. lra.
Qed.
Print Assumptions C107_open_refuted.

(** Whatever was evaluated before, the objective is that of the values given in the call, with the opposite sign when it is
    to be maximized, and a constraint answers for the values given in the call: all the items of an indexed one hold. *)
Theorem C107_history : forall name objective direction constraints vars values past m args,
  (forall k, In k vars -> has_char squote (name k) = false) -> reads vars objective -> full vars args ->
  Forall (fun r => full vars (request_args r)
            /\ match r with RConstraint i _ => i < length constraints | _ => True end) past ->
  history name objective direction constraints past (mkInst values None) = Ok m ->
  (exists v m', call_objective name objective direction args m = Ok (v, m')
     /\ (v == match direction with Minimize => objective (value_of args) | Maximize => - objective (value_of args) end)%Q)
  /\ (forall i, i < length constraints -> exists b m', call_constraint name constraints i args m = Ok (b, m')
        /\ (forall c, nth_error constraints i = Some (Simple c) -> reads vars c -> b = c (value_of args))
        /\ (forall l, nth_error constraints i = Some (Indexed l) -> Forall (reads vars) l ->
              (b = true <-> Forall (fun c => c (value_of args) = true) l))).
Proof.
  intros name objective direction constraints vars values past m args Hn R0 F P E.
  destruct (history_ok name objective direction constraints vars Hn past (mkInst values None) I R0 P) as (m' & E' & S).
  rewrite E in E'. inversion E'; subst m'. split.
  - destruct (objective_ok name objective direction vars Hn args m F S R0) as (m' & K & _). rewrite K.
    eexists _, m'. split; [reflexivity|]. destruct direction; ring.
  - intros i L. destruct (constraint_ok name constraints vars Hn i args m F S L) as (b & m' & K & _ & A).
    exists b, m'. auto.
Qed.
Print Assumptions C107_history.

(** And no history of such calls fails. *)
Theorem C107_runs : forall name objective direction constraints vars values past,
  (forall k, In k vars -> has_char squote (name k) = false) -> reads vars objective ->
  Forall (fun r => full vars (request_args r)
            /\ match r with RConstraint i _ => i < length constraints | _ => True end) past ->
  exists m, history name objective direction constraints past (mkInst values None) = Ok m.
Proof.
  intros name objective direction constraints vars values past Hn R0 P.
  destruct (history_ok name objective direction constraints vars Hn past (mkInst values None) I R0 P) as (m & E & _).
  exists m; exact E.
Qed.
Print Assumptions C107_runs.

(** The items of an indexed variable have different names, when they are indexed by integers and strings. *)
Theorem C107_names : forall str_int var k k',
  (forall z z', str_int z = str_int z' -> z = z') -> (forall z s, str_int z <> String dquote s) ->
  (match k with KInt _ | KStr _ => True | _ => False end) -> (match k' with KInt _ | KStr _ => True | _ => False end) ->
  param_name str_int var k = param_name str_int var k' -> k = k'.
Proof.
  intros str_int var k k' Inj Nq T T' E.
  assert (K : ng_name str_int k = ng_name str_int k').
  { destruct k, k'; try contradiction; unfold param_name in E; apply append_inj_l in E;
      apply (append_inj_l "["%string) in E; apply (append_inj_r "]"%string) in E; auto. }
  clear E. destruct k as [|z|s|l], k' as [|z'|s'|l']; try contradiction; cbn in K.
  - now rewrite (Inj z z' K).
  - destruct (Nq _ _ K).
  - symmetry in K. destruct (Nq _ _ K).
  - inversion K as [K']. apply (append_inj_r (String dquote "")) in K'; [now subst|reflexivity].
Qed.
Print Assumptions C107_names.

(** A variable indexed by tuples in which there is a string makes all the evaluations fail: its name has single quotes, and
    the assignments are compiled from a text where the name is between single quotes. *)
Theorem C107_tuple_refuted : forall str_int name objective direction constraints args values var v key word,
  In v (map fst args) -> name v = param_name str_int var (KTuple key) -> In (KStr word) key ->
  call_objective name objective direction args (mkInst values None) = Err (UserError 0)
  /\ forall i, call_constraint name constraints i args (mkInst values None) = Err (UserError 0).
Proof.
  intros str_int name objective direction constraints args values var v key word H E K.
  assert (C : compiles name (dkeys args) = false).
  { unfold compiles. destruct (forallb _ (dkeys args)) eqn:F; [|reflexivity].
    rewrite forallb_forall in F. specialize (F v H). rewrite E, (tuple_quote str_int var key word K) in F. discriminate. }
  split; [|intros i]; unfold call_objective, call_constraint, value_assignment; cbn [i_code]; now rewrite C.
Qed.
Print Assumptions C107_tuple_refuted.

(** Integers as the numbers which can be represented. *)
Example C107_neighbours : neighbours (fun x => exists z, x = inject_Z z)
  (fun x => inject_Z (Qfloor x + 1)) (fun x => inject_Z (Qceiling x - 1)).
Proof.
  intros x. split; [|split; [|split]].
  - apply Qlt_floor.
  - pose proof (Qceiling_lt x). exact H.
  - intros y (z & ->) H. rewrite <- Zle_Qle. pose proof (Qfloor_le x) as F.
    assert ((Qfloor x < z)%Z) by (rewrite Zlt_Qlt; lra). lia.
  - intros y (z & ->) H. rewrite <- Zle_Qle. pose proof (Qle_ceiling x) as F.
    assert ((z < Qceiling x)%Z) by (rewrite Zlt_Qlt; lra). lia.
Qed.
(** The range (2, 5) becomes [1, 4] and (-5, 3) becomes [-4, 2]. *)
Example C107_case : 
  range_to_scalar (fun x => inject_Z (Qfloor x + 1)) (fun x => inject_Z (Qceiling x - 1))
    [mkRange (Some (inject_Z 2)) (Some (inject_Z 5)) 0 (false, false)] = Ok (mkScalar (Some (inject_Z 1)) (Some (inject_Z 4)) false)
  /\ range_to_scalar (fun x => inject_Z (Qfloor x + 1)) (fun x => inject_Z (Qceiling x - 1))
    [mkRange (Some (inject_Z (-5))) (Some (inject_Z 3)) 0 (false, false)] = Ok (mkScalar (Some (inject_Z (-4))) (Some (inject_Z 2)) false).
Proof. split; vm_compute; reflexivity. Qed.
(** Two variables and an objective to maximize; the second call has its arguments in another order. *)
Definition obj_demo (e : nat -> option Q) : Q :=
  match e 1, e 2 with Some a, Some b => (a - 2 * b)%Q | _, _ => 0%Q end.
Definition names_demo (k : nat) : string := match k with 1 => "x"%string | _ => "y[""a""]"%string end.
Example C107_history_case :
  reads [1; 2] obj_demo /\ full [1; 2] [(2, 5%Q); (1, 7%Q)]
  /\ exists m, history names_demo obj_demo Maximize [Simple (fun _ => true)] [RObjective [(1, 1%Q); (2, 3%Q)]] (mkInst [] None) = Ok m
    /\ bind (call_objective names_demo obj_demo Maximize [(2, 5%Q); (1, 7%Q)] m) (fun p => Ok (Qred (fst p))) = Ok 3%Q.
Proof.
  split; [|split].
  - intros e e' H. unfold obj_demo. now rewrite (H 1), (H 2) by (cbn; auto).
  - split; [repeat constructor; cbn; intuition discriminate|]. intros k. cbn. intuition.
  - eexists. split; reflexivity.
Qed.
Example C107_tuple_case :
  param_name (fun _ => "1"%string) "x" (KTuple [KStr "a"; KInt 1]) = "x[('a', 1)]"%string.
Proof. reflexivity. Qed.

(** A range which descends by one: when its ends are included, the parameter takes the integers between them. *)
Theorem C107_descending : forall up down r, r_step r = (-1)%Z -> (r_start r = None \/ fst (r_closed r) = true) -> (r_end r = None \/ snd (r_closed r) = true) ->
  fst (r_closed r) = snd (r_closed r) ->
  exists s, range_to_scalar up down [r] = Ok s /\ (forall x, allowed s x <-> in_descending r x) /\ s_integer s = true.
Proof.
  intros up down r St H1 H2 H3. unfold range_to_scalar. rewrite St. cbn [existsb Z.eqb Z.ltb Z.compare Pos.compare Pos.compare_cont orb]. eexists. split; [reflexivity|]. split; [|reflexivity].
  intros x. unfold allowed, in_descending. cbn [s_lower s_upper].
  assert (E1 : shrink up down (r_end r) (fst (r_closed r)) 1 = r_end r) by (rewrite H3; destruct H2 as [->| ->]; [reflexivity|]; destruct (r_end r); reflexivity).
  assert (E2 : shrink up down (r_start r) (snd (r_closed r)) (-1) = r_start r) by (rewrite <- H3; destruct H1 as [->| ->]; [reflexivity|]; destruct (r_start r); reflexivity).
  rewrite E1, E2. split; intros [A B]; split; intros y K.
  - destruct H1 as [H1|H1]; [congruence|]. rewrite H1. auto.
  - destruct H2 as [H2|H2]; [congruence|]. rewrite H2. auto.
  - destruct H2 as [H2|H2]; [congruence|]. specialize (B y K). rewrite H2 in B. exact B.
  - destruct H1 as [H1|H1]; [congruence|]. specialize (A y K). rewrite H1 in A. exact A.
Qed.
Print Assumptions C107_descending.
(** When only one end is included, the other one is taken instead: the bounds are exchanged but not what is said about them. *)
Theorem C107_descending_refuted : forall repr up down s e, neighbours repr up down -> repr s -> (e < s)%Q ->
  exists sc, range_to_scalar up down [mkRange (Some s) (Some e) (-1) (false, true)] = Ok sc /\ ((e < 1)%Q ->
    (allowed sc s /\ ~ in_descending (mkRange (Some s) (Some e) (-1) (false, true)) s)
    /\ (~ allowed sc e /\ in_descending (mkRange (Some s) (Some e) (-1) (false, true)) e)).
Proof.
  intros repr up down s e N Rs L. eexists. split; [reflexivity|]. intros Le. unfold allowed, in_descending; cbn.
  rewrite (next_above up down e 1 Le). destruct (N e) as (U1 & _ & U3 & _). split; split.
  - split; intros y K; injection K as <-; [apply U3; assumption|lra].
  - intros [A _]. specialize (A s eq_refl). cbn in A. lra.
  - intros [A _]. specialize (A _ eq_refl). lra.
  - split; intros y K; injection K as <-; lra.
Qed.
Print Assumptions C107_descending_refuted.
Example C107_descending_case : exists s, range_to_scalar (fun q => q) (fun q => q) [mkRange (Some 5%Q) (Some 2%Q) (-1) (true, true)] = Ok s
  /\ s_lower s = Some 2%Q /\ s_upper s = Some 5%Q.
Proof. eexists. split; [reflexivity|]. split; reflexivity. Qed.

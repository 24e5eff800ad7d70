(** C124: wrappers of Pymoo. *)
From Coq Require Import Bool Arith List QArith Reals Lra Lia.
From Verif Require Import Model.Prelude Model.Recast Model.Pymoo Spec.Pymoo Proofs.Pymoo.
Import ListNotations.
Open Scope nat_scope.
Open Scope list_scope.

Section C124.
Context {P : Type}.
Variable default : P.
Variable random : nat -> P.

(** when the number of objectives is set before the first ask, the wrapper changes nothing: the results of any calls are those of
    the batch optimizer running pymoo *)
Theorem C124_known : forall lib k cs, k <> 0 -> Forall (with_k_losses k) cs ->
  Forall2 same_result (snd (pb_history default random lib (new_pb k) cs)) (snd (bhistory lib random new_bopt (map unwrapped cs))).
Proof. intros lib k cs K W. apply (ready_history default random lib k cs K (new_pb k)); [split; easy|easy]. Qed.

(** otherwise every ask gives the current value of the parametrization until a first tell; once all these candidates have been told
    the optimizer is as new, whatever the losses and the order of the tells: their evaluations are lost for pymoo *)
Theorem C124_warmup : forall lib k gs ts cs, k <> 0 -> gs <> [] ->
  NoDup (map (fun x => fst (fst x)) ts) -> (forall u, In u (map (fun x => fst (fst x)) ts) <-> u < List.length gs) ->
  (forall x, In x ts -> List.length (snd (fst x)) = k) -> Forall (with_k_losses k) cs ->
  let tells := map (fun x => PTell (fst (fst x)) (snd (fst x)) (snd x)) ts in
  exists later,
    snd (pb_history default random lib (new_pb 0) (map PAsk gs ++ tells ++ cs)) =
      map (fun u => POAsk (Returned (u, default))) (seq 0 (List.length gs)) ++ map (fun _ => POTell (Returned tt)) ts ++ later /\
    Forall2 same_result later (snd (bhistory lib random (fresh_from (List.length gs)) (map unwrapped cs))).
Proof.
  intros lib k gs ts cs K G N U L W tells.
  rewrite pb_history_app. change (new_pb 0) with (dummies (P := P) 0 [] 0). rewrite warm_asks. cbn [fst snd app Nat.add].
  rewrite pb_history_app. change tells with (told_of ts).
  rewrite (warm_tells default random lib k ts K 0 (seq 0 (List.length gs)) (List.length gs) (or_introl eq_refl) N).
  2:{ intros u I. apply in_seq. apply U in I. lia. }
  2: exact L.
  cbn [fst snd].
  replace (match ts with [] => 0 | _ :: _ => k end) with k.
  2:{ destruct ts; [|easy]. destruct gs as [|g gs]; [easy|]. exfalso. apply (proj2 (U 0)). cbn. lia. }
  rewrite others_nil by (intros v I; apply U; apply in_seq in I; lia).
  eexists. split; [reflexivity|].
  apply (ready_history default random lib k cs K (dummies k [] (List.length gs))); [split; easy|easy].
Qed.

(** but when another ask comes before all of them are told, telling the others raises KeyError *)
Theorem C124_late_refuted : forall lib k gs ts p ps v ls g g', k <> 0 -> lib [] = RPoint (p :: ps) ->
  NoDup (map (fun x => fst (fst x)) ts) -> ts <> [] ->
  (forall x, In x ts -> List.length (snd (fst x)) = k /\ fst (fst x) < List.length gs) ->
  v < List.length gs -> ~ In v (map (fun x => fst (fst x)) ts) -> List.length ls = k ->
  exists outs r, snd (pb_history default random lib (new_pb 0)
    (map PAsk gs ++ map (fun x => PTell (fst (fst x)) (snd (fst x)) (snd x)) ts ++ [PAsk g; PTell v ls g'])) =
    outs ++ [POAsk (Returned r); POTell (Raised KeyError)].
Proof.
  intros lib k gs ts p ps v ls g g' K Hl N T L V NV Lls.
  rewrite pb_history_app. change (new_pb 0) with (dummies (P := P) 0 [] 0). rewrite warm_asks. cbn [fst snd app Nat.add].
  rewrite pb_history_app. change (map _ ts) with (told_of ts).
  rewrite (warm_tells default random lib k ts K 0 (seq 0 (List.length gs)) (List.length gs) (or_introl eq_refl) N).
  2:{ intros u I. apply in_map_iff in I as (x & <- & I). apply in_seq. apply L in I. lia. }
  2: intros x I; now apply L.
  cbn [fst snd]. replace (match ts with [] => 0 | _ :: _ => k end) with k by now destruct ts.
  destruct (late_tell default random lib k (others ts (seq 0 (List.length gs))) (List.length gs) p ps v ls g g') as (s & r & E); try easy.
  - unfold others. apply filter_In. split; [apply in_seq; lia|]. apply negb_true_iff. apply not_true_iff_false. intros E.
    apply existsb_exists in E as (w & I & E). apply Nat.eqb_eq in E. now subst.
  - rewrite E. cbn [snd]. eexists _, r. rewrite app_assoc. reflexivity.
Qed.

(** one candidate at a time: pymoo is given the losses of the points it asked for, in order, and nothing else, whether the number
    of objectives is known or learnt from a first evaluation, which it is not given *)
Theorem C124_told : forall lib pt k ts g, (forall rs, lib rs = RPoint (pt rs)) -> k <> 0 ->
  Forall (fun t => List.length (fst t) = k) ts ->
  (let '(s, outs) := ps_history default random lib (new_ps k) (one_by_one 0 ts g) in
   outs = answers pt 0 [] ts /\ given s = map fst ts) /\
  (forall first penalty, List.length first = k ->
   let '(s, outs) := ps_history default random lib (new_ps 0) (one_by_one 0 ((first, penalty) :: ts) g) in
   outs = [SOAsk (Returned (0, default)); SOTell (Returned tt)] ++ answers pt 1 [] ts /\ given s = map fst ts).
Proof.
  intros lib pt k ts g H K F. split.
  - destruct (waiting_run default random lib pt H k ts g K 0 [] (new_ps k)) as (s & E & W); [apply waiting_new|easy|].
    rewrite E. split; [easy|]. now apply waiting_given in W.
  - intros first penalty L.
    destruct (waiting_warm default random lib pt k first penalty g g K L) as (s1 & E1 & W1).
    destruct (waiting_run default random lib pt H k ts g K 1 [] s1 W1 F) as (s & E & W).
    change (one_by_one 0 ((first, penalty) :: ts) g) with ([SAsk g; STell 0 first penalty g] ++ one_by_one 1 ts g).
    rewrite ps_history_app, E1. cbn [fst snd]. rewrite E. cbn [fst snd]. split; [easy|]. now apply waiting_given in W.
Qed.

(** the penalty for violated constraints, which tell gives to other optimizers, does not reach pymoo *)
Theorem C124_penalty_refuted : forall (p : P), ~ forall lib x penalty, lib [] = RPoint p ->
  given (fst (ps_history default random lib (new_ps 1) [SAsk true; STell 0 [x] penalty true])) = [[(x + penalty)%Q]].
Proof.
  intros p H. specialize (H (fun _ => RPoint p) 1%Q 1%Q eq_refl). vm_compute in H. discriminate H.
Qed.

(** and as soon as a point of pymoo violates a constraint checked by ask, ask raises RuntimeError, at any time of the run *)
Theorem C124_constraint_refuted : forall lib pt k ts g g', (forall rs, lib rs = RPoint (pt rs)) -> k <> 0 ->
  Forall (fun t => List.length (fst t) = k) ts ->
  let s := fst (ps_history default random lib (new_ps k) (one_by_one 0 ts g)) in
  snd (ps_step default random lib s (SRefuse g')) = SORefuse (Raised RuntimeError).
Proof.
  intros lib pt k ts g g' H K F s.
  destruct (waiting_run default random lib pt H k ts g K 0 [] (new_ps k)) as (s' & E & W); [apply waiting_new|easy|].
  unfold s. rewrite E. now apply (waiting_refuse default random lib pt H k _ _ _ _ K W).
Qed.

(** before the first tell, losses of anything which has not been asked are refused *)
Theorem C124_not_asked : forall gs v ls penalty g, List.length gs <= v ->
  (forall lib, exists outs, snd (pb_history default random lib (new_pb 0) (map PAsk gs ++ [PTell v ls g])) =
    outs ++ [POTell (Raised NotImplementedError)]) /\
  (forall lib, exists outs, snd (ps_history default random lib (new_ps 0) (map SAsk gs ++ [STell v ls penalty g])) =
    outs ++ [SOTell (Raised NotImplementedError)]).
Proof.
  intros gs v ls penalty g V.
  assert (NI : existsb (Nat.eqb v) (seq 0 (List.length gs)) = false).
  { destruct (existsb _ _) eqn:E; [|easy]. apply existsb_exists in E as (u & I & E). apply in_seq in I. apply Nat.eqb_eq in E. lia. }
  split; intros lib.
  - rewrite pb_history_app. change (new_pb 0) with (dummies (P := P) 0 [] 0). rewrite warm_asks. cbn [fst snd app Nat.add].
    eexists. f_equal. cbn [pb_history pb_step pb_tell]. unfold pb_tell, dummies. cbn. rewrite NI. reflexivity.
  - assert (W : forall gs o, o_thread o = None -> List.length (candidates o) = List.length (asked o) -> asked o = seq 0 (List.length (asked o)) ->
      exists o', fst (ps_history default random lib (mkps 0 o) (map SAsk gs)) = mkps 0 o' /\ o_thread o' = None /\
        asked o' = seq 0 (List.length (asked o) + List.length gs)).
    { clear. induction gs as [|g gs IH]; intros o T L A; [exists o; cbn; rewrite Nat.add_0_r; auto|]. cbn [map ps_history ps_step ps_ask ps_nobj Nat.eqb ps_opt].
      unfold ps_ask. cbn [ps_nobj ps_opt Nat.eqb].
      destruct (IH (handed o default)) as (o' & E & T' & A').
      - exact T.
      - cbn. rewrite !app_length. cbn. lia.
      - cbn. rewrite app_length. cbn [List.length]. rewrite Nat.add_1_r, seq_S, <- A, L. reflexivity.
      - destruct (ps_history default random lib (mkps 0 (handed o default)) (map SAsk gs)) as [s2 xs] eqn:F. cbn [fst] in *. exists o'. split; [exact E|].
        split; [exact T'|]. rewrite A'. cbn. rewrite app_length. cbn [List.length]. f_equal. lia. }
    destruct (W gs new_opt eq_refl eq_refl eq_refl) as (o' & E & T & A). cbn [List.length asked new_opt Nat.add] in A.
    rewrite ps_history_app. unfold new_ps. destruct (ps_history default random lib (mkps 0 new_opt) (map SAsk gs)) as [s2 xs] eqn:F. cbn [fst] in E. subst s2.
    eexists. cbn [snd fst]. f_equal. cbn [ps_history ps_step]. unfold ps_tell. cbn [ps_nobj set_nobj Nat.eqb ps_opt]. rewrite T. cbn [asked]. rewrite A, NI. reflexivity.
Qed.
End C124.
Print Assumptions C124_not_asked.
Print Assumptions C124_known.
Print Assumptions C124_warmup.
Print Assumptions C124_late_refuted.
Print Assumptions C124_told.
Print Assumptions C124_penalty_refuted.
Print Assumptions C124_constraint_refuted.

(** every point of the space of the optimizer comes from a point strictly inside the box of pymoo, and only one, and the order of
    coordinates is kept *)
Theorem C124_box :
  (forall Y : list R, exists X, to_standardized X = Y /\ forall x, In x X -> (pymoo_lower < x < pymoo_upper)%R) /\
  (forall x x' : R, (pymoo_lower < x < pymoo_upper)%R -> (pymoo_lower < x' < pymoo_upper)%R -> (x < x')%R -> (tan x < tan x')%R).
Proof.
  unfold pymoo_lower, pymoo_upper, to_standardized. split.
  - intros Y. exists (map atan Y). split.
    + rewrite map_map. rewrite <- (map_id Y) at 2. apply map_ext. intros y. apply tan_atan.
    + intros x I. apply in_map_iff in I as (y & <- & _). pose proof (atan_bound y). lra.
  - intros x x' H H' L. apply tan_increasing; lra.
Qed.
Print Assumptions C124_box.

(** two workers: both are given the current value, then pymoo starts *)
Example C124_case :
  let lib := fun rs : list (list (option (list Q))) => RPoint (map (fun i => 10 * List.length rs + i) [1; 2]) in
  snd (pb_history 0 (fun n => 100 + n) lib (new_pb 0)
    [PAsk true; PAsk true; PTell 1 [1%Q] true; PTell 0 [2%Q] true; PAsk true; PAsk true; PTell 2 [3%Q] true; PTell 3 [4%Q] true; PAsk true]) =
  [POAsk (Returned (0, 0)); POAsk (Returned (1, 0)); POTell (Returned tt); POTell (Returned tt);
   POAsk (Returned (3, 2)); POAsk (Returned (2, 1)); POTell (Returned tt); POTell (Returned tt); POAsk (Returned (5, 12))] /\
  snd (pb_history 0 (fun n => 100 + n) lib (new_pb 0)
    [PAsk true; PAsk true; PTell 1 [1%Q] true; PAsk true; PTell 0 [2%Q] true]) =
  [POAsk (Returned (0, 0)); POAsk (Returned (1, 0)); POTell (Returned tt); POAsk (Returned (3, 2)); POTell (Raised KeyError)].
Proof. vm_compute. split; reflexivity. Qed.

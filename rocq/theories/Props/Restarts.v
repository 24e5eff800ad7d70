(** C105: the recommendation of the optimizers which run a library, again and again until the budget is spent *)
From Coq Require Import List Arith QArith Bool Lia Lqa.
From Verif.Model Require Import Prelude MultiValue Restarts.
From Verif.Spec Require Import Restarts.
From Verif.Proofs Require Import MultiValue Restarts.
Import ListNotations.
Open Scope nat_scope.

Section C105.
  Context {X : Type}.
  Variables (f : X -> Q) (back : X -> X) (lib : nat -> X -> run X).
  (** With the methods of scipy, BOBYQA, and CmaFmin2 on a fully bounded parameter: when the last run ends, the recommendation
      is one of the evaluated points, of least loss, whatever the number of runs and their starting points. *)
  Theorem C105_best meth budget others user fuel start x evaluated : meth = KeepBest \/ meth = Fmin true ->
    (forall k s, honest (fun p => f (asked back meth p)) (lib k s)) -> evaluated <> [] ->
    restarts back lib meth budget others user fuel 0 (None, start) [] = Finished x evaluated ->
    recommended back lib meth budget others user fuel start = Some x /\ best_evaluated f x evaluated.
  Proof.
    intros Hm Hl Ne E. split; [unfold recommended; now rewrite E|].
    destruct (restarts_inv back lib meth budget others user (kept f) (fun k b ev K _ => kept_step f back lib meth Hm Hl k b ev K) fuel 0 (None, start) [] x evaluated eq_refl E) as (k & y & K & _).
    unfold kept in K. cbn [fst snd] in K. destruct y; [apply K|contradiction].
  Qed.
  (** With direct searches too, when each run evaluates the point it starts at. *)
  Theorem C105_direct_search budget others user fuel start x evaluated :
    (forall k s, honest f (lib k s) /\ In s (points (lib k s))) -> evaluated <> [] ->
    restarts back lib DirectSearch budget others user fuel 0 (None, start) [] = Finished x evaluated -> best_evaluated f x evaluated.
  Proof.
    intros Hl Ne E.
    destruct (restarts_inv back lib DirectSearch budget others user (fun k b ev => ev <> [] -> best_evaluated f (snd b) ev)) with (fuel := fuel) (k := 0) (b := (@None Q, start)) (ev := @nil X) (x := x) (all := evaluated) as (k & y & K & _); auto.
    - intros k b ev K _ _. cbn [after snd]. destruct (Hl k (snd b)) as (H & Hs). destruct (honest_best f back DirectSearch f _ (fun _ => eq_refl) H) as (Br & _). cbn [asked] in Br.
      destruct ev as [|e ev]; [exact Br|]. apply (proj1 (best_app f _ _ _ _ (K ltac:(discriminate)) Br)). apply H, Hs.
    - intros H. contradiction.
  Qed.
  (** With all the methods but pysot, and CmaFmin2 when the parameter is not fully bounded: when the first run spends the budget. *)
  Theorem C105_single_run meth budget others user fuel start x evaluated : meth <> Pysot -> meth <> Fmin false ->
    honest (fun p => f (asked back meth p)) (lib 0 start) -> budget <= others + length (points (lib 0 start)) -> others < budget ->
    restarts back lib meth (Some budget) others user fuel 0 (None, start) [] = Finished x evaluated ->
    evaluated = map (asked back meth) (points (lib 0 start)) /\ best_evaluated f x evaluated.
  Proof.
    intros N1 N2 Hl Lb Lo E. destruct fuel as [|fuel]; cbn [restarts remains length] in E; (replace (others + 0 <? budget) with true in E by (symmetry; apply Nat.ltb_lt; lia)); [discriminate E|].
    cbn [snd app] in E. destruct (user <? _); [discriminate E|].
    assert (E' : Finished (snd (after back meth (lib 0 start) (None, start))) (map (asked back meth) (points (lib 0 start))) = Finished x evaluated).
    { rewrite <- E. destruct fuel; cbn [restarts remains]; rewrite map_length; (replace (others + length (points (lib 0 start)) <? budget) with false by (symmetry; apply Nat.ltb_ge; lia)); reflexivity. }
    injection E' as <- <-. split; [reflexivity|]. destruct (honest_best f back meth _ _ (fun _ => eq_refl) Hl) as (Br & _). destruct meth as [| | | |[]]; cbn [after fst snd] in *; try contradiction; try exact Br; congruence.
  Qed.
  (** The budget: no run starts once it is spent, and the library is not left before it is. *)
  Theorem C105_budget meth budget others user fuel start x evaluated :
    restarts back lib meth (Some budget) others user fuel 0 (None, start) [] = Finished x evaluated ->
    budget <= others + length evaluated /\
    (evaluated = [] \/ exists before k s, evaluated = before ++ map (asked back meth) (points (lib k s)) /\ others + length before < budget).
  Proof.
    intros E. destruct (restarts_inv back lib meth (Some budget) others user (fun k b ev => ev = [] \/ exists before k s, ev = before ++ map (asked back meth) (points (lib k s)) /\ others + length before < budget)) with (fuel := fuel) (k := 0) (b := (@None Q, start)) (ev := @nil X) (x := x) (all := evaluated) as (k & y & K & Rm); auto.
    - intros k b ev _ Rm. right. exists ev, k, (snd b). split; [reflexivity|]. apply Nat.ltb_lt, Rm.
    - split; [apply Nat.ltb_ge, Rm|exact K].
  Qed.
  (** Without a budget the thread never ends: the recommendation is always the one of the default rule. *)
  Theorem C105_no_budget meth others user fuel start : recommended back lib meth None others user fuel start = None.
  Proof.
    unfold recommended. enough (K : forall k b ev, match restarts back lib meth None others user fuel k b ev with Finished _ _ => False | _ => True end) by (specialize (K 0 (None, start) []); destruct (restarts _ _ _ _ _ _ _ _ _ _); [contradiction|reflexivity..]).
    induction fuel as [|fuel IH]; intros k b ev; cbn [restarts remains]; [exact I|]. destruct (user <? _); [exact I|apply IH].
  Qed.
End C105.
Print Assumptions C105_best.
Print Assumptions C105_direct_search.
Print Assumptions C105_single_run.
Print Assumptions C105_budget.
Print Assumptions C105_no_budget.

(** Points are integers; the loss is the distance to 5; the normalizer maps a point of the "unit cube" to three times it. *)
Definition ex_loss (x : Z) : Q := inject_Z (Z.abs (x - 5)).
Definition ex_back (x : Z) : Z := (3 * x)%Z.
Definition ex_run (g : Z -> Q) (best : Z) (others : list Z) : run Z := {| points := others ++ [best]; found := best; value := g best |}.
(** Methods in the unit cube forget a better point found by a previous run. *)
Theorem C105_restart_refuted : exists lib x evaluated, (forall k s, honest (fun p => ex_loss (asked ex_back UnitCube p)) (lib k s)) /\
  restarts ex_back lib UnitCube (Some 4) 0 4 4 0 (None, 0%Z) [] = Finished x evaluated /\
  recommended ex_back lib UnitCube (Some 4) 0 4 4 0%Z = Some x /\ exists y, In y evaluated /\ (ex_loss y < ex_loss x)%Q.
Proof.
  exists (fun k _ => if k =? 0 then ex_run (fun p => ex_loss (3 * p)) 2 [0]%Z else ex_run (fun p => ex_loss (3 * p)) 4 [7]%Z), 12%Z, [0; 6; 21; 12]%Z. split.
  - intros k _. destruct (k =? 0); (split; [right; now left|]; split; [reflexivity|]; intros p [<-|[<-|[]]]; cbv; discriminate).
  - split; [vm_compute; reflexivity|]. split; [vm_compute; reflexivity|]. exists 6%Z. split; [right; now left|reflexivity].
Qed.
Print Assumptions C105_restart_refuted.
(** Even with a single run, pysot recommends a point of the unit cube as if it were in the space of the parameter, and
    CmaFmin2 maps from the unit cube a point which was not in it (when the parameter is not fully bounded): the recommendation
    was not evaluated and is worse than all the evaluated points. *)
Theorem C105_space_refuted meth : meth = Pysot \/ meth = Fmin false -> exists lib x evaluated, (forall k s, honest (fun p => ex_loss (asked ex_back meth p)) (lib k s)) /\
  restarts ex_back lib meth (Some 2) 0 2 2 0 (None, 0%Z) [] = Finished x evaluated /\
  recommended ex_back lib meth (Some 2) 0 2 2 0%Z = Some x /\ evaluated <> [] /\ ~ In x evaluated /\ forall y, In y evaluated -> (ex_loss y < ex_loss x)%Q.
Proof.
  intros [->| ->].
  - exists (fun _ _ => ex_run (fun p => ex_loss (3 * p)) 2 [1]%Z), 2%Z, [3; 6]%Z. split; [intros k s; split; [right; now left|split; [reflexivity|intros p [<-|[<-|[]]]; cbv; discriminate]]|].
    split; [vm_compute; reflexivity|]. split; [vm_compute; reflexivity|]. split; [discriminate|]. split; [intros [H|[H|[]]]; discriminate H|]. intros y [<-|[<-|[]]]; reflexivity.
  - exists (fun _ _ => ex_run ex_loss 4 [3]%Z), 12%Z, [3; 4]%Z. split; [intros k s; split; [right; now left|split; [reflexivity|intros p [<-|[<-|[]]]; cbv; discriminate]]|].
    split; [vm_compute; reflexivity|]. split; [vm_compute; reflexivity|]. split; [discriminate|]. split; [intros [H|[H|[]]]; discriminate H|]. intros y [<-|[<-|[]]]; reflexivity.
Qed.
Print Assumptions C105_space_refuted.
(** Two runs with a method of scipy: the first one found the best point; with fewer losses told, the thread waits. *)
Example ex_two_runs : let lib := fun k s => if k =? 0 then ex_run ex_loss 4 [s; 9]%Z else ex_run ex_loss 7 [s + 8; 20]%Z in
  restarts ex_back lib KeepBest (Some 5) 0 6 4 0 (None, 0%Z) [] = Finished 4%Z [0; 9; 4; 12; 20; 7]%Z /\
  restarts ex_back lib KeepBest (Some 5) 0 5 4 0 (None, 0%Z) [] = Waiting [0; 9; 4; 12; 20; 7]%Z.
Proof. split; vm_compute; reflexivity. Qed.
Example ex_two_honest : honest (fun p => ex_loss (asked ex_back KeepBest p)) (ex_run ex_loss 4 [0; 9]%Z).
Proof. split; [do 2 right; now left|]. split; [reflexivity|]. intros p [<-|[<-|[<-|[]]]]; cbv; discriminate. Qed.

(** C98: the optimizers which look for the nearest entry of a table *)
From Coq Require Import String.
From Coq Require Import ZArith QArith Bool Arith Lia Lqa List.
From Verif.Model Require Import Prelude MultiValue Tables.
From Verif.Spec Require Import Tables.
From Verif.Proofs Require Import Tables.
Import ListNotations.
Open Scope string_scope.
Open Scope list_scope.
Open Scope nat_scope.

(** For a continuous problem without noise and with a budget: the place of the table which is closest to the dimension and
    to the budget per variable, the first one among ties; the names written there, without the sequential ones if there are
    several workers; NGOptF mixes all of them, the others take one of the most frequent; SQPCMA if none is left. *)
Theorem C98_nearest : forall order k p b, iterates order -> p_continuous p = true -> p_noise p = false -> p_budget p = Some b -> 1 <= p_dim p ->
  exists c, closest (rows_of k) (p_dim p) (qnat b / qnat (p_dim p))%Q c /\
    let algs := allowed (p_workers p) (at_place (rows_of k) c) in
    (algs = [] /\ 1 < p_workers p /\ select order k p = Ok SQPCMA \/
     algs <> [] /\ match k with
                   | F => select order k p = Ok (Mix algs (6 # 10)%Q)
                   | _ => exists a, a_top algs a /\ select order k p = Ok (One a)
                   end).
Proof.
  intros order k p b O C N B D. destruct (select_spec order k p b O C N B D) as (c & Hc & H). exists c. split; [exact Hc|]. cbv zeta in *.
  destruct H as [H|(A & H)]; [now left|right; split; [exact A|]]. destruct k; [exact H| | |]; destruct H as (a & T & _ & S); exists a; auto.
Qed.
Print Assumptions C98_nearest.

(** The place is unique, so that all of this is a function of the problem. *)
Theorem C98_closest_unique : forall rows d nod k k', closest rows d nod k -> closest rows d nod k' -> k = k'.
Proof. exact closest_unique. Qed.
Print Assumptions C98_closest_unique.

Definition as_written (l : list string) : list string := nodup string_dec l.
Lemma as_written_iterates : iterates as_written.
Proof. intros l. split; [apply NoDup_nodup|]. intros x. apply nodup_In. Qed.
Example C98_nearest_nontrivial :
  select as_written F (Problem true false 12 (Some 100) 1) = Ok (Mix ["RealSpacePSO"; "NLOPT_LN_SBPLX"; "SMAC3"] (6 # 10)%Q) /\
  select as_written F (Problem true false 12 (Some 100) 4) = Ok (Mix ["RealSpacePSO"] (6 # 10)%Q) /\
  select as_written F2 (Problem true false 12 (Some 1000) 1) = Ok (One "MemeticDE") /\
  select as_written F2 (Problem true false 12 (Some 1000) 2) = Ok SQPCMA /\
  (* a tie between the places (2, 5) and (5, 2) *)
  select as_written F (Problem true false 4 (Some 16) 1) = Ok (Mix ["Carola2"; "HammersleySearchPlusMiddlePoint"; "Cobyla"] (6 # 10)%Q) /\
  select as_written F5 (Problem true false 40 (Some 80) 8) = Ok (One "MultiCobyla") /\
  select as_written F3 (Problem true true 40 (Some 80) 8) = Ok Parent.
Proof. vm_compute. repeat split. Qed.

(** With several workers, nothing that is chosen is sequential. *)
Theorem C98_parallel : forall order k p c, iterates order -> 1 < p_workers p -> 1 <= p_dim p -> select order k p = Ok c ->
  match c with
  | Mix names _ => names <> [] /\ forall a, In a names -> no_parallelization a = false
  | One a => no_parallelization a = false
  | SQPCMA => True
  | Parent => ~ (p_continuous p = true /\ p_noise p = false)
  end.
Proof.
  intros order k p c O W D S. destruct (p_continuous p && negb (p_noise p)) eqn:Q.
  - pose proof Q as Q'. apply andb_true_iff in Q' as (C & N). apply negb_true_iff in N.
    destruct (p_budget p) as [b|] eqn:B; [|unfold select in S; rewrite Q, B in S; discriminate S].
    destruct (select_spec order k p b O C N B D) as (x & _ & [(A & _ & S')|(A & S')]); cbv zeta in *.
    + rewrite S' in S. injection S as <-. exact I.
    + destruct k; [rewrite S' in S; injection S as <-; split; [exact A|]; intros a Ia; eapply allowed_ok; eauto| | |];
        destruct S' as (a & (T & _) & _ & S'); rewrite S' in S; injection S as <-; eapply allowed_ok; eauto.
  - unfold select in S. rewrite Q in S. cbn [andb] in S. injection S as <-. intros (C & N). rewrite C, N in Q. discriminate Q.
Qed.
Print Assumptions C98_parallel.

(** NGOptF2, NGOptF3, NGOptF5: the choice does not depend on the order of iteration of a set of strings (which changes from
    one run of Python to the next) if and only if the most frequent name is the only one. *)
Theorem C98_reproducible : forall k p b c, k <> F -> p_continuous p = true -> p_noise p = false -> p_budget p = Some b -> 1 <= p_dim p ->
  closest (rows_of k) (p_dim p) (qnat b / qnat (p_dim p))%Q c -> allowed (p_workers p) (at_place (rows_of k) c) <> [] ->
  ((forall o1 o2, iterates o1 -> iterates o2 -> select o1 k p = select o2 k p) <-> exists a, only_top (allowed (p_workers p) (at_place (rows_of k) c)) a).
Proof. exact reproducible. Qed.
Print Assumptions C98_reproducible.

(** "The same seed gives the same run" is false for them: e.g. with 2 variables and 100 evaluations. *)
Theorem C98_reproducible_refuted :
  ~ (forall k p o1 o2, iterates o1 -> iterates o2 -> select o1 k p = select o2 k p).
Proof.
  intros H. specialize (H F2 (Problem true false 2 (Some 100) 1) (ahead "SODE") (ahead "PCABO") (ahead_iterates _) (ahead_iterates _)).
  vm_compute in H. discriminate H.
Qed.
Print Assumptions C98_reproducible_refuted.

(** NGOptF is reproducible. *)
Theorem C98_F_reproducible : forall p o1 o2, select o1 F p = select o2 F p.
Proof. reflexivity. Qed.
Print Assumptions C98_F_reproducible.

(** Without a budget they fail on every continuous problem without noise. *)
Theorem C98_no_budget : forall order k p, p_continuous p = true -> p_noise p = false -> p_budget p = None -> select order k p = Err TypeError.
Proof. intros order k p C N B. unfold select. now rewrite C, N, B. Qed.
Print Assumptions C98_no_budget.

Lemma select_dim : forall order k p b c, p_continuous p = true -> p_noise p = false -> p_budget p = Some b -> select order k p = Ok c -> 1 <= p_dim p.
Proof. intros order k p b c C N B S. destruct (p_dim p) as [|d] eqn:D; [|lia]. unfold select in S. rewrite C, N, B, D in S. discriminate S. Qed.
Lemma mix_inj : forall a b w v, Ok (Mix a w) = Ok (Mix b v) -> a = b.
Proof. intros a b w v E. now injection E. Qed.
Lemma no_pso : forall r, In r (rows_of F) -> snd r <> "PSO".
Proof.
  assert (H : forallb (fun r => negb (String.eqb (snd r) "PSO")) (rows_of F) = true) by (vm_compute; reflexivity).
  intros r I E. rewrite forallb_forall in H. specialize (H r I). rewrite E in H. discriminate H.
Qed.
Lemma allowed_row : forall rows nw x a, In a (allowed nw (at_place rows x)) -> exists r, snd r = a /\ In r rows.
Proof.
  intros rows nw x a J. assert (K : In a (at_place rows x)) by (unfold allowed in J; destruct (1 <? nw); [apply filter_In in J as (J & _)|]; exact J). clear J.
  unfold at_place in K. apply in_map_iff in K as (r & Er & J). apply filter_In in J as (J & _). eauto.
Qed.
Lemma no_mix : forall nw x, allowed nw (at_place (rows_of F) x) <> ["GeneticDE"; "PSO"; "NGOpt39"].
Proof.
  intros nw x E. destruct (allowed_row (rows_of F) nw x "PSO") as (r & Er & J); [rewrite E; right; left; reflexivity|]. exact (no_pso r J Er).
Qed.
(** The portfolio of GeneticDE, PSO and NGOpt39 which they announce for budgets of 12 evaluations per variable is never used. *)
Theorem C98_never_used : forall order k p warmup, iterates order -> select order k p <> Ok (Mix ["GeneticDE"; "PSO"; "NGOpt39"] warmup).
Proof.
  intros order k p warmup O S. destruct (p_continuous p && negb (p_noise p)) eqn:Q.
  - pose proof Q as Q'. apply andb_true_iff in Q' as (C & N). apply negb_true_iff in N.
    destruct (p_budget p) as [b|] eqn:B; [|unfold select in S; rewrite Q, B in S; discriminate S].
    assert (D : 1 <= p_dim p) by (apply (select_dim order k p b (Mix ["GeneticDE"; "PSO"; "NGOpt39"] warmup)); assumption).
    destruct (select_spec order k p b O C N B D) as (x & _ & [(_ & _ & S')|(A & S')]); [rewrite S' in S; discriminate S|].
    destruct k; [|destruct S' as (a & _ & _ & S'); rewrite S' in S; discriminate S|destruct S' as (a & _ & _ & S'); rewrite S' in S; discriminate S|destruct S' as (a & _ & _ & S'); rewrite S' in S; discriminate S]. rewrite S' in S. apply mix_inj in S. exact (no_mix _ _ S).
  - unfold select in S. rewrite Q in S. cbn [andb] in S. discriminate S.
Qed.
Print Assumptions C98_never_used.

(** From 96 variables on, with at most 72 evaluations per variable, NGOptF is one Bayesian optimization (PCABO), or SQPCMA
    with several workers. *)
Theorem C98_many_variables : forall order p b, iterates order -> p_continuous p = true -> p_noise p = false -> p_budget p = Some b ->
  96 <= p_dim p -> b <= 72 * p_dim p ->
  select order F p = Ok (if 1 <? p_workers p then SQPCMA else Mix ["PCABO"] (6 # 10)%Q).
Proof. exact many_variables. Qed.
Print Assumptions C98_many_variables.
Example C98_many_variables_nontrivial :
  select as_written F (Problem true false 100 (Some 700) 1) = Ok (Mix ["PCABO"] (6 # 10)%Q) /\
  select as_written F (Problem true false 200 (Some 10) 2) = Ok SQPCMA.
Proof.
  split; [apply C98_many_variables with 700|apply C98_many_variables with 10]; try reflexivity; try apply as_written_iterates; cbn [p_dim]; apply Nat.leb_le; reflexivity.
Qed.
Example C98_reproducible_nontrivial :
  (exists a, only_top (allowed 1 (at_place (rows_of F2) (12, 833.333%Q))) a) /\
  ~ exists a, only_top (allowed 1 (at_place (rows_of F2) (2, 50%Q))) a.
Proof.
  split.
  - exists "VLPCMA". split.
    + split; [vm_compute; auto|]. intros x.
      replace (allowed 1 (at_place (rows_of F2) (12, 833.333%Q))) with ["MemeticDE"; "VLPCMA"; "VLPCMA"] by (vm_compute; reflexivity).
      change (count_occ string_dec ["MemeticDE"; "VLPCMA"; "VLPCMA"] "VLPCMA") with 2. cbn [count_occ].
      destruct (string_dec "MemeticDE" x) as [E|E], (string_dec "VLPCMA" x) as [E'|E']; try lia. rewrite <- E in E'. discriminate E'.
    + intros x (I & M). vm_compute in I. destruct I as [<-|[<-|[<-|[]]]]; [|reflexivity|reflexivity]. specialize (M "VLPCMA"). vm_compute in M. lia.
  - intros (a & T & U). assert (T1 : a_top (allowed 1 (at_place (rows_of F2) (2, 50%Q))) "SODE").
    { split; [vm_compute; auto|]. intros x. apply Nat.le_trans with 1; [|vm_compute; lia]. apply (proj1 (NoDup_count_occ string_dec _)).
      vm_compute. repeat constructor; cbn; intuition discriminate. }
    assert (T2 : a_top (allowed 1 (at_place (rows_of F2) (2, 50%Q))) "PCABO").
    { split; [vm_compute; auto|]. intros x. apply Nat.le_trans with 1; [|vm_compute; lia]. apply (proj1 (NoDup_count_occ string_dec _)).
      vm_compute. repeat constructor; cbn; intuition discriminate. }
    apply U in T1. apply U in T2. rewrite <- T2 in T1. discriminate T1.
Qed.

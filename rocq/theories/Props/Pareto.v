(** C23, C24: the Pareto front under arbitrary interleavings of additions and
    requests (which filter the stored points in place). *)
From Coq Require Import List Arith QArith Bool Lia.
From Verif.Model Require Import Prelude MultiValue Pareto.
From Verif.Spec Require Import Pareto.
From Verif.Proofs Require Pareto.
Import ListNotations.
Open Scope nat_scope.

(** C23. After any history, the front asked without limit is exactly, in order, the
    points ever added which no point ever added dominates. *)
Theorem C23_front : forall d ops, same_dimension d (pf_added ops) ->
  exists front, (forall subset draws, snd (pf_get_front None subset draws (pf_run ops)) = Ok front) /\
                keeps (undominated (pf_added ops)) (pf_added ops) front.
Proof.
  intros d ops Hd. exists (Pareto.full_front ops). split; [reflexivity|]. now apply (Pareto.full_front_keeps d).
Qed.
Print Assumptions C23_front.

(** C23. No element of the front dominates another one. *)
Theorem C23_mutually_undominated : forall d ops front subset draws, same_dimension d (pf_added ops) ->
  snd (pf_get_front None subset draws (pf_run ops)) = Ok front ->
  forall p q, In p front -> In q front -> ~ dom (pt_losses p) (pt_losses q).
Proof.
  intros d ops front subset draws Hd [= <-] p q Hp Hq. assert (HK := Pareto.full_front_keeps d ops Hd).
  apply (Pareto.keeps_in _ _ _ HK) in Hp as [Hp _]. apply (Pareto.keeps_in _ _ _ HK) in Hq as [_ Hq]. now apply Hq.
Qed.
Print Assumptions C23_mutually_undominated.

(** C23. Requests, whatever they ask, do not change what later requests return. *)
Theorem C23_requests_do_not_matter : forall d ops size subset draws, same_dimension d (pf_added ops) ->
  forall size' subset' draws',
  snd (pf_get_front size' subset' draws' (pf_run (ops ++ [PFront size subset draws]))) =
  snd (pf_get_front size' subset' draws' (pf_run ops)).
Proof.
  intros d ops size subset draws Hd size' subset' draws'. rewrite Pareto.run_snoc. cbn [pf_step].
  rewrite Pareto.get_front_state. unfold pf_get_front. now destruct (pf_needs_filtering (pf_run ops)) eqn:E; rewrite ?E.
Qed.
Print Assumptions C23_requests_do_not_matter.

(** C23. A request with a size returns the whole front if it is not larger, else at
    most the drawn elements, all of them on the front. *)
Theorem C23_subset : forall d ops n subset draws l, same_dimension d (pf_added ops) ->
  snd (pf_get_front (Some n) subset draws (pf_run ops)) = Ok l ->
  exists front, keeps (undominated (pf_added ops)) (pf_added ops) front /\
  (length front <= n /\ l = front \/
   n < length front /\ (forall p, In p l -> In p front) /\
   ((forall draw, In draw draws -> length draw = n /\ forall i, In i draw -> i < length front) -> length l = n)).
Proof.
  intros d ops n subset draws l Hd H. exists (Pareto.full_front ops).
  split; [now apply (Pareto.full_front_keeps d)|].
  apply Pareto.get_front_in in H as [[-> H]|(m & [= <-] & Hlt & draw & Hin & ->)].
  - left. split; [exact H|reflexivity].
  - right. split; [exact Hlt|]. split; [intros p; apply Pareto.choice_in|].
    intros Hdr. destruct (Hdr draw Hin) as [<- Hv]. now apply Pareto.choice_length.
Qed.
Print Assumptions C23_subset.

(** C23. With a scored subset method the returned subset has the smallest score
    amongst the tentatives. *)
Theorem C23_best_tentative : forall d ops n score draws l, same_dimension d (pf_added ops) ->
  snd (pf_get_front (Some n) (SScored score) draws (pf_run ops)) = Ok l ->
  exists front, keeps (undominated (pf_added ops)) (pf_added ops) front /\
  (n < length front -> forall draw, In draw draws -> (score front l <= score front (choice front draw))%Q).
Proof.
  intros d ops n score draws l Hd H. exists (Pareto.full_front ops).
  split; [now apply (Pareto.full_front_keeps d)|]. intros Hn. now apply Pareto.get_front_best_score with (n := n).
Qed.
Print Assumptions C23_best_tentative.

(** C23, finding. With subset="EPS" all tentatives get the score zero: the result is
    always the first draw, as if subset were "random". *)
Theorem C23_eps_is_random : forall d ops n draw draws, d <> 0 -> same_dimension d (pf_added ops) ->
  exists front, keeps (undominated (pf_added ops)) (pf_added ops) front /\
  (n < length front ->
   snd (pf_get_front (Some n) (SScored eps_score) (draw :: draws) (pf_run ops)) = Ok (choice front draw) /\
   snd (pf_get_front (Some n) SRandom (draw :: draws) (pf_run ops)) = Ok (choice front draw)).
Proof.
  intros d ops n draw draws H0 Hd. exists (Pareto.full_front ops).
  split; [now apply (Pareto.full_front_keeps d)|]. intros Hn.
  split; [now apply (Pareto.eps_first_draw d)|]. unfold pf_get_front.
  change (pf_pareto (if pf_needs_filtering (pf_run ops) then pf_filter (pf_run ops) else pf_run ops)) with (Pareto.full_front ops).
  destruct (Nat.leb_spec (length (Pareto.full_front ops)) n); [lia|reflexivity].
Qed.
Print Assumptions C23_eps_is_random.

(** C23, finding. The subsets are drawn with replacement: the same point may come twice. *)
Theorem C23_subset_distinct_refuted : exists ops draws l p,
  same_dimension 2 (pf_added ops) /\ NoDup (map fst (pf_added ops)) /\
  snd (pf_get_front (Some 2) SRandom draws (pf_run ops)) = Ok l /\ l = [p; p].
Proof.
  exists [PAdd (0, [1; 3]%Q); PAdd (1, [2; 2]%Q); PAdd (2, [3; 1]%Q)], [[1; 1]], [(1, [2; 2]%Q); (1, [2; 2]%Q)], (1, [2; 2]%Q).
  split; [|split; [|split; reflexivity]].
  - intros p [<-|[<-|[<-|[]]]]; reflexivity.
  - repeat constructor; cbn; intuition discriminate.
Qed.
Print Assumptions C23_subset_distinct_refuted.

(** C24. For each point ever added the front has a point at most as large on every
    objective, equal to it or dominating it. *)
Theorem C24_covered : forall d ops front subset draws, same_dimension d (pf_added ops) ->
  snd (pf_get_front None subset draws (pf_run ops)) = Ok front ->
  forall p, In p (pf_added ops) -> exists q, In q front /\ vle (pt_losses q) (pt_losses p) /\
     (q = p \/ dom (pt_losses q) (pt_losses p)).
Proof.
  intros d ops front subset draws Hd [= <-] p Hp. assert (HK := Pareto.full_front_keeps d ops Hd).
  destruct (Pareto.nondominated_below d _ Hd p Hp) as (q & A & B & C & D). exists q.
  split; [now apply (Pareto.keeps_in _ _ _ HK)|auto].
Qed.
Print Assumptions C24_covered.

(** C24. A point which nothing dominates is on the front, also when others have the
    same losses; the front is empty only if nothing was added. *)
Theorem C24_undominated_present : forall d ops front subset draws, same_dimension d (pf_added ops) ->
  snd (pf_get_front None subset draws (pf_run ops)) = Ok front ->
  (forall p, In p (pf_added ops) -> undominated (pf_added ops) p -> In p front) /\
  (front = [] -> pf_added ops = []).
Proof.
  intros d ops front subset draws Hd H. split.
  - injection H as <-. intros p Hp Hu. now apply (Pareto.keeps_in _ _ _ (Pareto.full_front_keeps d ops Hd)).
  - intros ->. destruct (pf_added ops) as [|p l] eqn:E; [easy|].
    destruct (C24_covered d ops [] subset draws) with (p := p) as (q & [] & _); [now rewrite E|exact H|]. rewrite E. now left.
Qed.
Print Assumptions C24_undominated_present.

(** A history with a request in the middle: points 0 and 3 become dominated, 1 and 2
    have the same losses. *)
Definition ex_ops : list pf_op :=
  [PAdd (0, [2; 3]%Q); PAdd (1, [1; 3]%Q); PAdd (2, [1; 3]%Q); PFront (Some 1) SRandom [[0]]; PAdd (3, [4; 4]%Q); PAdd (4, [5; 0]%Q)].
Example ex_dimension : same_dimension 2 (pf_added ex_ops).
Proof. intros p [<-|[<-|[<-|[<-|[<-|[]]]]]]; reflexivity. Qed.
Example ex_front : snd (pf_get_front None SRandom [] (pf_run ex_ops)) = Ok [(1, [1; 3]%Q); (2, [1; 3]%Q); (4, [5; 0]%Q)].
Proof. reflexivity. Qed.
Example ex_cover : snd (pf_get_front (Some 2) (SScored cover_score) [[0; 1]; [1; 2]] (pf_run ex_ops)) =
  Ok [(2, [1; 3]%Q); (4, [5; 0]%Q)].
Proof. reflexivity. Qed.
Example ex_unknown : snd (pf_get_front (Some 2) SUnknown [[0; 1]; [1; 2]] (pf_run ex_ops)) = Err ValueError.
Proof. reflexivity. Qed.

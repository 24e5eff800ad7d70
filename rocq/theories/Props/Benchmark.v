(** C45: splitting a benchmark; C46: interrupted computations. *)
From Coq Require Import Arith ZArith Bool Lia Permutation List.
From Verif.Model Require Import Prelude Benchmark.
From Verif.Spec Require Import Benchmark.
From Verif.Proofs Require Import Benchmark.
Import ListNotations.
Open Scope nat_scope.

Lemma new_chunk_valid {X} (maker : option Z -> list X) reps sd cap : valid_chunk maker (new_chunk reps sd cap) /\ full_total maker (new_chunk reps sd cap).
Proof.
  unfold valid_chunk, full_total, valid_moduler, new_chunk. cbn [get_moduler ch_moduler cap_index modulo index total_length repetitions]. split; [|reflexivity]. split; [lia|]. destruct cap as [c|]; [lia|exact I].
Qed.
Lemma plan_all {X} (maker : option Z -> list X) reps sd cap : plan maker (new_chunk reps sd cap) = all_experiments maker reps sd cap.
Proof.
  unfold plan, seeds, all_experiments, repetition, new_chunk, islice. cbn [seed repetitions cap_index]. destruct sd as [s|]; cbn [option_map].
  - rewrite flat_map_concat_map, map_map. f_equal. apply map_ext. intros k. now destruct cap.
  - generalize 0 at 1. induction reps as [|n IH]; intros a; [reflexivity|]. cbn. rewrite (IH (S a)). f_equal. now destruct cap.
Qed.
(** C45. However a chunk is split and its parts split again, each experiment (with its number) is in exactly one part. *)
Theorem C45_partition {X} (maker : option Z -> list X) (reps : nat) (sd cap : option Z) (parts : list chunk) :
  division maker (new_chunk reps sd cap) parts ->
  Permutation (flat_map (chunk_iter maker) parts) (numbered (all_experiments maker reps sd cap)).
Proof.
  intros H. rewrite <- plan_all. unfold numbered. destruct (new_chunk_valid maker reps sd cap) as (Hv & _). destruct (division_spec maker _ _ H Hv) as (_ & Hp). rewrite Hp. unfold chunk_iter, enumerated.
  replace (filter _ _) with (combine (seq 0 (length (plan maker (new_chunk reps sd cap)))) (plan maker (new_chunk reps sd cap))); [reflexivity|].
  symmetry. induction (combine _ _) as [|kx l IH]; [reflexivity|]. cbn [filter]. unfold accepts at 1. cbn [get_moduler new_chunk ch_moduler modulo index]. rewrite Z.mod_1_r. cbn. now f_equal.
Qed.
(** Hence no number is in two parts. *)
Theorem C45_disjoint {X} (maker : option Z -> list X) (reps : nat) (sd cap : option Z) (parts : list chunk) :
  division maker (new_chunk reps sd cap) parts -> NoDup (map fst (flat_map (chunk_iter maker) parts)).
Proof.
  intros H. apply C45_partition in H. rewrite <- plan_all in H. unfold numbered in H. eapply Permutation_NoDup; [symmetry; apply Permutation_map, H|]. rewrite combine_fst_firstn. rewrite <- (seq_length (length (plan maker (new_chunk reps sd cap))) 0) at 1. rewrite firstn_all. apply seq_NoDup.
Qed.
(** Splitting in a positive number of parts always succeeds, with this number of parts. *)
Theorem C45_split_succeeds {X} (maker : option Z -> list X) (reps : nat) (sd cap : option Z) (parts : list chunk) (c : chunk) (number : nat) :
  division maker (new_chunk reps sd cap) parts -> In c parts -> 0 < number -> exists cs, chunk_split maker c number = Ok cs /\ length cs = number.
Proof.
  intros H Hin Hn. destruct (new_chunk_valid maker reps sd cap) as (Hv & _). destruct (division_spec maker _ _ H Hv) as (Hall & _). rewrite Forall_forall in Hall. destruct (Hall c Hin) as (Hvc & _).
  destruct (chunk_split_spec maker c number Hvc Hn) as (cs & E & _). exists cs. split; [exact E|]. unfold chunk_split in E. destruct (moduler_split (get_moduler maker c) number) as [ms|] eqn:Em; [|discriminate]. cbn in E. injection E as <-.
  rewrite map_length. unfold moduler_split in Em. apply collect_ok in Em. assert (Hl : forall (l : list (result moduler)) r, Forall2 (fun x a => x = Ok a) l r -> length r = length l) by (induction 1; cbn; congruence).
  apply Hl in Em. now rewrite Em, map_length, seq_length.
Qed.
(** The length announced by a part is the number of its experiments, when the plans of all seeds have as many experiments. *)
Theorem C45_length {X} (maker : option Z -> list X) (reps : nat) (sd cap : option Z) (parts : list chunk) (c : chunk) :
  division maker (new_chunk reps sd cap) parts -> (forall s, length (maker s) = length (maker None)) -> In c parts ->
  chunk_len maker c = Ok (Z.of_nat (length (chunk_iter maker c))).
Proof.
  intros H Hlen Hin. destruct (new_chunk_valid maker reps sd cap) as (Hv & Hf). destruct (division_spec maker _ _ H Hv) as (Hall & _). rewrite Forall_forall in Hall. destruct (Hall c Hin) as (Hvc & _ & Hft).
  apply chunk_len_spec; [exact Hvc|auto|]. intros s _. destruct (cap_index c); cbn [islice]; [now rewrite !firstn_length, Hlen|apply Hlen].
Qed.
(** Otherwise it is not: it is computed on the plan without seed. *)
Theorem C45_seeded_length_refuted : exists (maker : option Z -> list nat) c, chunk_iter maker c = [(0, 5)] /\ chunk_len maker c = Ok 0%Z.
Proof. exists (fun s => match s with None => [] | Some _ => [5] end), (new_chunk 1 (Some 3%Z) None). split; reflexivity. Qed.
(** Splitting in zero parts loses the experiments silently; a negative index is accepted and selects nothing, but counts. *)
Theorem C45_zero_parts_refuted {X} (maker : option Z -> list X) (c : chunk) : chunk_split maker c 0 = Ok [].
Proof. reflexivity. Qed.
Theorem C45_negative_index_refuted : exists m, new_moduler 2 (-1) (Some 5%Z) = Ok m /\ (forall i, accepts m i = false) /\ moduler_len m = Ok 3%Z.
Proof.
  eexists. split; [reflexivity|]. split; [|reflexivity]. intros i. unfold accepts. cbn. apply Z.eqb_neq. pose proof (Z.mod_pos_bound i 2). lia.
Qed.
Example C45_example : exists parts, division (fun _ => [10; 11; 12; 13; 14]) (new_chunk 1 None None) parts /\
  map (chunk_iter (fun _ => [10; 11; 12; 13; 14])) parts = [[(0, 10); (4, 14)]; [(2, 12)]; [(1, 11); (3, 13)]].
Proof.
  set (mk := fun _ : option Z => [10; 11; 12; 13; 14]). set (c := new_chunk 1 None None). destruct (chunk_split mk c 2) as [[|c1 [|c2 [|]]]|] eqn:E; try discriminate. destruct (chunk_split mk c1 2) as [[|c11 [|c12 [|]]]|] eqn:E1; vm_compute in E; injection E as <- <-; try discriminate.
  eexists. split; [eapply division_split with (number := 2); [lia|reflexivity|]; constructor; [eapply division_split with (number := 2); [lia|reflexivity|]; constructor; [apply division_self|constructor; [apply division_self|constructor]]|constructor; [apply division_self|constructor]]|]. reflexivity.
Qed.

(** C46. A worker calls compute on a chunk any number of times; runs are interrupted anywhere, any way. *)
Section C46.
Context {X S D : Type} (maker : option Z -> list X).
Variables (fresh : X -> S) (run : nat -> S -> S * option exn) (process : nat -> S -> option exn) (describe : S -> D) (same : X -> X -> bool).
Hypothesis same_refl : forall x, same x x = true.
Definition start : progress (X := X) (S := S) (D := D) := mkprogress [] None [].
Local Notation after n c := (attempts maker fresh run process describe same n c start).
Lemma attempts_inv n c : Inv fresh describe (chunk_iter maker c) (after n c).
Proof.
  induction n as [|n IH]; [apply Inv_start|]. cbn [attempts]. unfold compute. destruct (compute_loop fresh run process describe same 0 (after n c) (chunk_iter maker c)) as [p' r] eqn:E. cbn [fst].
  eapply (loop_spec fresh run process describe same same_refl (chunk_iter maker c) (iter_nodup maker c) (chunk_iter maker c) []); [reflexivity|exact IH|cbn; lia|exact E].
Qed.
(** At any time the summaries are those of the completed experiments: the first selected ones, in order, each once. *)
Theorem C46_summaries (n : nat) (c : chunk) : let p := after n c in
  map e_index (completed (trace p)) = firstn (length (summaries p)) (map fst (chunk_iter maker c)) /\
  summaries p = map (fun e => describe (e_after e)) (completed (trace p)) /\
  Forall (fun e => e_error e = None) (completed (trace p)).
Proof.
  intros p. pose proof (attempts_inv n c) as [_ H2 H3 _ _ H6 _ _]. fold p in H2, H3, H6. split; [exact H2|]. split; [exact H3|]. apply Forall_forall. intros e He. apply filter_In in He as (H1 & H4). now apply H6.
Qed.
(** No progress is lost: each run of an experiment resumes from the state its previous run left, and the first one from
    the fresh experiment; no experiment is run again once completed. *)
Theorem C46_resumed (n : nat) (c : chunk) (t1 t2 : list event) (e : event) : trace (after n c) = t1 ++ e :: t2 ->
  (exists x, In (e_index e, x) (chunk_iter maker c) /\ e_before e = match last_event (e_index e) t1 with Some e' => e_after e' | None => fresh x end) /\
  (e_processed e = true -> ~ In (e_index e) (map e_index t2)).
Proof. intros E. pose proof (attempts_inv n c) as [_ _ _ H4 H5 _ _ _]. split; [eapply H4, E|eapply H5, E]. Qed.
(** compute returns the summaries of all the selected experiments, or raises the exception of the run (or of the process
    function) it was interrupted in. *)
Theorem C46_outcome (n : nat) (c : chunk) : match compute maker fresh run process describe same c (after n c) with
  | (p, Ok ds) => ds = map (fun e => describe (e_after e)) (completed (trace p)) /\ map e_index (completed (trace p)) = map fst (chunk_iter maker c)
  | (p, Err e) => exists t e0, trace p = t ++ [e0] /\ e_processed e0 = false /\ (e_error e0 = Some e \/ (e_error e0 = None /\ process (length t) (e_after e0) = Some e))
  end.
Proof.
  unfold compute. destruct (compute_loop fresh run process describe same 0 (after n c) (chunk_iter maker c)) as [p' r] eqn:E.
  destruct (loop_spec fresh run process describe same same_refl (chunk_iter maker c) (iter_nodup maker c) (chunk_iter maker c) [] _ _ _ eq_refl (attempts_inv n c) (Nat.le_0_l _) E) as (HI & Hr). destruct r as [ds|e]; [|exact Hr].
  destruct Hr as (-> & Hlen). pose proof HI as [_ H2 H3 _ _ _ _ _]. split; [exact H3|]. rewrite H2, Hlen, <- (map_length fst). apply firstn_all.
Qed.
End C46.
(** The workers of a division, each interrupted in its own way: when all have succeeded, the experiments of the whole plan have
    been completed, each once. *)
Definition finished {X S D} (maker : option Z -> list X) (fresh : X -> S) (describe : S -> D) (same : X -> X -> bool) (c : chunk) (ids : list nat) : Prop :=
  exists run process n p ds, compute maker fresh run process describe same c (attempts maker fresh run process describe same n c start) = (p, Ok ds) /\
    ids = map e_index (completed (trace p)) /\ length ds = length ids.
Theorem C46_workers {X S D} (maker : option Z -> list X) (fresh : X -> S) (describe : S -> D) (same : X -> X -> bool) reps sd cap parts idss :
  (forall x, same x x = true) -> division maker (new_chunk reps sd cap) parts -> Forall2 (finished maker fresh describe same) parts idss ->
  Permutation (concat idss) (seq 0 (length (all_experiments maker reps sd cap))).
Proof.
  intros Hsame Hd Hf. apply C45_partition in Hd. unfold numbered in Hd. apply (Permutation_map fst) in Hd. rewrite combine_fst_firstn in Hd. rewrite <- (seq_length (length (all_experiments maker reps sd cap)) 0) in Hd at 1. rewrite firstn_all in Hd. rewrite <- Hd. clear Hd.
  assert (H : concat idss = map fst (flat_map (chunk_iter maker) parts)); [|rewrite H; reflexivity].
  induction Hf as [|c ids cs idss (run & process & n & p & ds & E & -> & _) Hf IH]; [reflexivity|]. cbn [concat flat_map]. rewrite map_app, IH. f_equal.
  pose proof (C46_outcome maker fresh run process describe same Hsame n c) as H. rewrite E in H. apply H.
Qed.
(** Findings: an experiment whose process function raised is run again although it had completed, and an interrupted experiment that
    is not recognized when its plan is generated again starts from scratch. *)
Theorem C46_process_refuted : exists (process : nat -> nat -> option exn),
  let p := attempts (fun _ => [7]) (fun x => x) (fun _ s => (s + 1, None)) process (fun s => s) Nat.eqb 2 (new_chunk 1 None None) start in
  trace p = [mkevent 0 7 8 None false; mkevent 0 8 9 None true] /\ summaries p = [9].
Proof. exists (fun n _ => if Nat.eqb n 0 then Some (UserError 1) else None). split; reflexivity. Qed.
Theorem C46_not_recognized_refuted : exists (run : nat -> nat -> nat * option exn),
  let p := attempts (fun _ => [7]) (fun x => x) run (fun _ _ => None) (fun s => s) (fun _ _ => false) 2 (new_chunk 1 None None) start in
  trace p = [mkevent 0 7 8 (Some (UserError 1)) false; mkevent 0 7 8 None true].
Proof. exists (fun n s => (s + 1, if Nat.eqb n 0 then Some (UserError 1) else None)). reflexivity. Qed.
Example C46_example :
  let run := fun n s => (s + 1, if Nat.eqb (n mod 2) 0 then Some (UserError n) else None) in
  let p := attempts (fun _ => [10; 20; 30]) (fun x => x) run (fun _ _ => None) (fun s => s) Nat.eqb 5 (new_chunk 1 None None) start in
  summaries p = [12; 22; 32] /\ length (trace p) = 6.
Proof. split; reflexivity. Qed.
Print Assumptions C45_partition.
Print Assumptions C46_outcome.
Print Assumptions C46_workers.

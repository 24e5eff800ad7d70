(** C135: dispersed points. *)
From Coq Require Import Bool Arith List QArith Qabs Lia Lqa.
From Verif Require Import Model.Prelude Model.MultiValue Model.Dispersion Spec.Dispersion Proofs.MultiValue Proofs.Dispersion.
Import ListNotations.
Open Scope nat_scope.
Open Scope list_scope.

(** C135: at least one point, and as many as asked, the first one first *)
Theorem C135_count P dist n first batches_of x :
  greedy_dispersion P dist n first batches_of = Ok x -> length x = Nat.max 1 n /\ nth_error x 0 = Some first.
Proof.
  unfold greedy_dispersion. intros H. destruct (greedy_prefix _ _ _ _ _ H) as [L [t ->]]. rewrite map_length, seq_length in L. cbn [length] in L.
  split; [lia|reflexivity].
Qed.
Print Assumptions C135_count.

(** C135: "as many points as asked" is refuted for zero *)
Theorem C135_count_refuted :
  exists first batches_of x, greedy_dispersion Q (fun a b => Qabs (a - b)) 0 first batches_of = Ok x /\ length x <> 0.
Proof. exists 0%Q, (fun _ => []), [0%Q]. split; [reflexivity|discriminate]. Qed.
Print Assumptions C135_count_refuted.

(** C135: each further point is, in the last batch which was drawn for it, the farthest one from the previous points *)
Theorem C135_farthest P dist n first batches_of x k bs b :
  greedy_dispersion P dist n first batches_of = Ok x -> S k < n -> batches_of k = bs ++ [b] ->
  exists y, nth_error x (S k) = Some y /\ In y b /\
    forall c r, In c b -> away dist r (firstn (S k) x) c -> away dist r (firstn (S k) x) y.
Proof.
  unfold greedy_dispersion. intros H K E.
  assert (N : nth_error (map batches_of (seq 0 (n - 1))) k = Some (bs ++ [b])).
  { rewrite nth_error_map, (nth_error_nth' (seq 0 (n - 1)) 0) by (rewrite seq_length; lia). rewrite seq_nth by lia. cbn. now f_equal. }
  destruct (greedy_round _ _ _ _ _ _ _ H N) as (y & old & Hy & B & _). cbn [length plus] in *. exists y. split; [assumption|].
  rewrite batches_last in B. destruct (batches P dist _ bs old); [|discriminate]. cbn [bind] in B.
  destruct (choose P dist _ b) as [z|] eqn:C; [|discriminate]. cbn [bind] in B. injection B as ->. now apply choose_ok in C.
Qed.
Print Assumptions C135_farthest.

(** C135: "each further point is the farthest of all those which were tried" is refuted: earlier batches are forgotten *)
Theorem C135_farthest_refuted :
  exists n first batches_of x k y b c, greedy_dispersion Q (fun a b => Qabs (a - b)) n first batches_of = Ok x /\
    nth_error x (S k) = Some y /\ In b (batches_of k) /\ In c b /\
    exists r, away (fun a b => Qabs (a - b)) r (firstn (S k) x) c /\ ~ away (fun a b => Qabs (a - b)) r (firstn (S k) x) y.
Proof.
  exists 2, 0%Q, (fun _ => [[5%Q]; [1%Q]]), [0%Q; 1%Q], 0, 1%Q, [5%Q], 5%Q. split; [reflexivity|]. split; [reflexivity|].
  split; [now left|]. split; [now left|]. exists 5%Q. split.
  - intros z [<-|[]]. now cbv.
  - intros A. specialize (A 0%Q (or_introl eq_refl)). now apply A.
Qed.
Print Assumptions C135_farthest_refuted.

(** C135: when the clock leaves no batch to a point, the first one fails and the others repeat the previous point *)
Theorem C135_late P dist n first batches_of x k :
  greedy_dispersion P dist n first batches_of = Ok x -> S k < n -> batches_of k = [] ->
  0 < k /\ nth_error x (S k) = nth_error x k.
Proof.
  unfold greedy_dispersion. intros H K E.
  assert (N : nth_error (map batches_of (seq 0 (n - 1))) k = Some []).
  { rewrite nth_error_map, (nth_error_nth' (seq 0 (n - 1)) 0) by (rewrite seq_length; lia). rewrite seq_nth by lia. cbn. now f_equal. }
  destruct (greedy_round _ _ _ _ _ _ _ H N) as (y & old & Hy & B & D & F). cbn [length plus batches] in *. injection B as ->.
  destruct k as [|k]; [now specialize (D eq_refl)|]. split; [lia|]. rewrite Hy. now apply F.
Qed.
Print Assumptions C135_late.

(** C135: the replacements keep the number of points and never bring points closer: any distance which separated all the points still does *)
Theorem C135_improves P dist n first batches_of draws x0 x :
  (forall p q, dist p q == dist q p)%Q ->
  greedy_dispersion P dist n first batches_of = Ok x0 -> dispersion P dist n first batches_of draws = Ok x ->
  length x = Nat.max 1 n /\ (forall r, separated dist r x0 -> separated dist r x) /\
  (forall p, In p x -> In p x0 \/ exists cs, In cs draws /\ In p cs).
Proof.
  intros Sy G H. unfold dispersion in H. rewrite G in H. cbn [bind] in H. destruct (improve_ok dist Sy _ _ _ _ H) as (L & S & M).
  apply C135_count in G. split; [lia|]. now split.
Qed.
Print Assumptions C135_improves.

(** C135: one replacement: the point becomes the farthest from the others among itself and the draws *)
Theorem C135_replaces P dist t cs draws x x' u :
  nth_error x (t mod length x) = Some u -> improve P dist t [cs] x = Ok x' ->
  let others := firstn (t mod length x) x ++ skipn (S (t mod length x)) x in
  exists y, nth_error x' (t mod length x) = Some y /\ In y (u :: cs) /\
    (forall c r, In c (u :: cs) -> away dist r others c -> away dist r others y) /\
    (forall i, i <> t mod length x -> nth_error x' i = nth_error x i) /\
    improve P dist t (cs :: draws) x = improve P dist (S t) draws x'.
Proof.
  intros E H others. cbn [improve] in *. rewrite E in *. cbn zeta in *. fold others in H. fold others.
  destruct (choose P dist others (u :: cs)) as [y|] eqn:C; [|discriminate]. cbn [bind] in *. injection H as <-.
  apply choose_ok in C. destruct C as [I A].
  assert (L : length (firstn (t mod length x) x) = t mod length x).
  { rewrite firstn_length. assert (t mod length x < length x) by (apply nth_error_Some; congruence). lia. }
  exists y. refine (conj _ (conj I (conj A (conj _ eq_refl)))).
  - rewrite <- L at 2. apply nth_error_here.
  - intros i Hi. transitivity (nth_error (firstn (t mod length x) x ++ u :: skipn (S (t mod length x)) x) i).
    + apply nth_error_other. now rewrite L.
    + f_equal. symmetry. now apply split_nth.
Qed.
Print Assumptions C135_replaces.

(** C135: improving a single point fails *)
Theorem C135_single P dist first batches_of cs draws :
  dispersion P dist 1 first batches_of (cs :: draws) = Err ValueError.
Proof. reflexivity. Qed.
Print Assumptions C135_single.

Example C135_example :
  let dist := fun a b => Qabs (a - b) in
  (forall p q, dist p q == dist q p)%Q /\
  greedy_dispersion Q dist 3 0%Q (fun j => [[1%Q; 4%Q; (2 + inject_Z (Z.of_nat j))%Q]]) = Ok [0%Q; 4%Q; 1%Q] /\
  dispersion Q dist 3 0%Q (fun _ => [[1%Q; 4%Q]]) [[(-2)%Q]; [5%Q; 3%Q]] = Ok [(-2)%Q; 5%Q; 1%Q] /\
  greedy_dispersion Q dist 2 0%Q (fun _ => []) = Err (UserError 1).
Proof. cbn zeta. split; [intros p q; now rewrite Qabs_Qminus|]. repeat split. Qed.

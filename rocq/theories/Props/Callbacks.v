(** C56: early stopping, and C61: progress printers. *)
From Coq Require Import Arith ZArith QArith Bool Lia Lqa List.
From Verif.Model Require Import Prelude MultiValue Callbacks.
From Verif.Proofs Require Import MultiValue.
Import ListNotations.
Open Scope nat_scope.

(** ** No improvement *)

(** the losses observed, without the calls where there was none *)
Definition observed (obs : list (option Q)) : list Q := flat_map (fun o => match o with Some v => [v] | None => [] end) obs.
(** [last] does not improve on [pre] *)
Definition no_better (pre last : list Q) : Prop := forall w, In w last -> exists p, In p pre /\ (p <= w)%Q.

Lemma cr_run_app window a b c : cr_run window (a ++ b) c = cr_run window b (cr_run window a c).
Proof. apply fold_left_app. Qed.
(** the state: the best and the length of the longest end without improvement *)
Lemma cr_inv window obs : let c := cr_run window obs new_criterion in
  match observed obs with
  | [] => c = new_criterion
  | vs => exists b pre last, vs = pre ++ last /\ cr_best c = Some b /\ cr_count c = length last /\ In b pre /\
            (forall v, In v vs -> (b <= v)%Q) /\
            (* the last element of [pre] is the best, the others before are larger *)
            exists pre', pre = pre' ++ [b] /\ forall v, In v pre' -> (b < v)%Q
  end.
Proof.
  induction obs as [|o obs IH] using rev_ind; [reflexivity|].
  cbn zeta in *. rewrite cr_run_app. unfold observed in *. rewrite flat_map_app. cbn [flat_map]. rewrite app_nil_r.
  set (c := cr_run window obs new_criterion) in *. set (vs := flat_map _ obs) in *.
  destruct o as [v|]; cbn [cr_run fold_left cr_call fst].
  2:{ rewrite app_nil_r. exact IH. }
  destruct vs as [|v0 vs'] eqn:Evs.
  - rewrite IH. cbn. exists v, [v], []. repeat split.
    + now left.
    + intros w [<-|[]]. apply Qle_refl.
    + exists []. split; [reflexivity|]. intros w [].
  - rewrite <- Evs in *. destruct IH as (b & pre & last & E & Eb & Ec & Hin & Hmin & pre' & Epre & Hlt).
    rewrite Eb.
    assert (Hgoal : exists b0 pre0 last0, vs ++ [v] = pre0 ++ last0 /\
      cr_best (fst (let c' := if qle b v then Criterion (Some b) (cr_count c + 1) else Criterion (Some v) 0 in (c', window <? cr_count c'))) = Some b0 /\
      cr_count (fst (let c' := if qle b v then Criterion (Some b) (cr_count c + 1) else Criterion (Some v) 0 in (c', window <? cr_count c'))) = length last0 /\ In b0 pre0 /\
      (forall v1, In v1 (vs ++ [v]) -> (b0 <= v1)%Q) /\ exists pre'0, pre0 = pre'0 ++ [b0] /\ forall v1, In v1 pre'0 -> (b0 < v1)%Q).
    { destruct (qle_spec b v) as [Hle|Hgt]; cbn [fst cr_best cr_count].
      - exists b, pre, (last ++ [v]). split; [now rewrite E, app_assoc|]. split; [reflexivity|].
        split; [rewrite app_length, Ec; cbn; lia|]. split; [exact Hin|]. split.
        + intros w Hw. apply in_app_or in Hw as [Hw|[<-|[]]]; auto.
        + exists pre'. now split.
      - exists v, (vs ++ [v]), []. split; [now rewrite app_nil_r|]. repeat split; [apply in_or_app; right; now left| |].
        + intros w Hw. apply in_app_or in Hw as [Hw|[<-|[]]]; [|apply Qle_refl]. specialize (Hmin w Hw). apply Qnot_le_lt in Hgt. lra.
        + exists vs. split; [reflexivity|]. intros w Hw. specialize (Hmin w Hw). apply Qnot_le_lt in Hgt. lra. }
    destruct (vs ++ [v]) as [|x l] eqn:El; [destruct vs; discriminate|]. exact Hgoal.
Qed.

(** A call stops exactly when the last [window + 1] losses observed, this one included, are
    all at least as large as a loss observed before them. *)
Theorem C56_no_improvement (window : nat) (obs : list (option Q)) (v : Q) :
  snd (cr_call window (cr_run window obs new_criterion) (Some v)) = true <->
  exists pre last, observed obs ++ [v] = pre ++ last /\ length last = S window /\ no_better pre last.
Proof.
  pose proof (cr_inv window obs) as H. pose proof (cr_inv window (obs ++ [Some v])) as H'. cbn zeta in *.
  rewrite cr_run_app in H'. cbn [cr_run fold_left] in H'.
  assert (Eo : observed (obs ++ [Some v]) = observed obs ++ [v]). { unfold observed. now rewrite flat_map_app. }
  rewrite Eo in H'. fold (cr_run window obs new_criterion) in H'.
  set (c := cr_run window obs new_criterion) in *.
  destruct (observed obs) as [|v0 vs'] eqn:Evs.
  { rewrite H. cbn. split; [discriminate|]. intros (pre & last & E & L & Hn).
    destruct last as [|w last]; [discriminate|]. destruct pre as [|q pre].
    - destruct (Hn w (or_introl eq_refl)) as (p & [] & _).
    - cbn in E. injection E as <- E. destruct pre; discriminate. }
  rewrite <- Evs in *. set (vs := observed obs) in *.
  assert (Hsnd : snd (cr_call window c (Some v)) = (window <? cr_count (fst (cr_call window c (Some v))))).
  { destruct H as (b & pre & last & E & Eb & _). rewrite Evs in *. cbn [cr_call]. rewrite Eb. cbn [snd fst]. reflexivity. }
  rewrite Hsnd. destruct (vs ++ [v]) as [|x l] eqn:El; [destruct vs; discriminate|]. rewrite <- El in *. clear x l El.
  destruct H' as (b & pre & last & E & Eb & Ec & Hin & Hmin & pre' & Epre & Hlt). rewrite Ec.
  destruct (Nat.ltb_spec window (length last)) as [Hw|Hw]; split; intros H1; try discriminate; [| |exfalso].
  - (* the last window + 1 of [last] *)
    exists (pre ++ firstn (length last - S window) last), (skipn (length last - S window) last).
    split; [rewrite E, <- app_assoc, firstn_skipn; reflexivity|]. split; [rewrite skipn_length; lia|].
    intros w Hin'. exists b. split; [apply in_or_app; now left|]. apply Hmin. rewrite E. apply in_or_app. right.
    rewrite <- (firstn_skipn (length last - S window) last). apply in_or_app. now right.
  - reflexivity.
  - destruct H1 as (pre1 & last1 & E1 & L1 & Hn).
    (* [b] is in [last1] and everything before it is larger *)
    assert (Hb : In b last1 /\ forall p, In p pre1 -> (b < p)%Q).
    { rewrite E in E1. subst pre. assert (Hlen : length pre1 <= length pre').
      { apply (f_equal (@length Q)) in E1. rewrite !app_length in E1. cbn in E1. lia. }
      assert (Ep : exists mid, pre' = pre1 ++ mid).
      { rewrite <- !app_assoc in E1. clear -E1 Hlen. revert pre1 E1 Hlen. induction pre' as [|a pre' IH]; intros [|a1 pre1] E1 Hlen; cbn in *; try lia.
        - now exists [].
        - now exists (a :: pre').
        - injection E1 as <- E1. destruct (IH pre1 E1 ltac:(lia)) as [mid ->]. now exists mid. }
      destruct Ep as [mid ->]. rewrite <- !app_assoc in E1. apply app_inv_head in E1. split.
      - rewrite <- E1. apply in_or_app. right. now left.
      - intros p Hp. apply Hlt. apply in_or_app. now left. }
    destruct Hb as [Hb1 Hb2]. destruct (Hn b Hb1) as (p & Hp & Hle). specialize (Hb2 p Hp). lra.
Qed.
(** A call without a loss never stops. *)
Theorem C56_no_loss (window : nat) (c : criterion) : cr_call window c None = (c, false).
Proof. reflexivity. Qed.
Example C56_no_improvement_ex :
  let obs := [None; Some 3%Q; Some 2%Q; None; Some 2%Q] in
  snd (cr_call 1 (cr_run 1 obs new_criterion) (Some 4%Q)) = true /\
  snd (cr_call 1 (cr_run 1 obs new_criterion) (Some 1%Q)) = false /\
  no_better [3%Q; 2%Q] [2%Q; 4%Q].
Proof.
  cbn zeta. split; [reflexivity|]. split; [reflexivity|]. intros w [<-|[<-|[]]]; exists 2%Q; (split; [right; now left|discriminate]).
Qed.
(** The window of asks without improvement is not enough: one more is needed. *)
Theorem C56_window_refuted : exists window obs v pre last,
  observed obs ++ [v] = pre ++ last /\ length last = window /\ pre <> [] /\ no_better pre last /\
  snd (cr_call window (cr_run window obs new_criterion) (Some v)) = false.
Proof.
  exists 1, [Some 3%Q], 3%Q, [3%Q], [3%Q]. repeat split; [discriminate|].
  intros w [<-|[]]. exists 3%Q. split; [now left|apply Qle_refl].
Qed.
(** With several objectives the stopper makes every ask raise. *)
Theorem C56_several_objectives_refuted num_objectives window c loss : 1 < num_objectives ->
  early_stopping false (no_improvement_says num_objectives window c loss) = Err RuntimeError.
Proof. intros H. unfold no_improvement_says. destruct (Nat.ltb_spec 1 num_objectives); [reflexivity|lia]. Qed.

(** ** Duration *)

(** A call stops exactly when more than the duration has passed since the first call. *)
Theorem C56_timer (max_duration first1 first2 : Q) (calls : list (Q * Q)) (clock1 clock2 : Q) :
  let d := du_run ((first1, first2) :: calls) (Duration None max_duration) in
  snd (du_call d clock1 clock2) = true <-> (first1 + max_duration < clock2)%Q.
Proof.
  cbn zeta. assert (H : du_run ((first1, first2) :: calls) (Duration None max_duration) = Duration (Some first1) max_duration).
  { cbn. induction calls as [|c calls IH]; [reflexivity|]. cbn. exact IH. }
  rewrite H. cbn. apply qlt_iff.
Qed.
Theorem C56_timer_first (max_duration first1 first2 : Q) :
  snd (du_call (Duration None max_duration) first1 first2) = true <-> (first1 + max_duration < first2)%Q.
Proof. cbn. apply qlt_iff. Qed.
Example C56_timer_ex : snd (du_call (du_run [(0%Q, 0%Q); (1%Q, 2%Q)] (Duration None 3%Q)) 3%Q 4%Q) = true /\
                       snd (du_call (du_run [(0%Q, 0%Q); (1%Q, 2%Q)] (Duration None 3%Q)) 3%Q 3%Q) = false.
Proof. split; reflexivity. Qed.

(** The callback raises exactly when the criterion says so, and refuses to be called by
    [tell]. *)
Theorem C56_callback (says : result bool) :
  (early_stopping false says = Err EarlyStopping <-> says = Ok true \/ says = Err EarlyStopping) /\
  (early_stopping false says = Ok tt <-> says = Ok false) /\
  early_stopping true says = Err RuntimeError.
Proof. destruct says as [[|]|e]; cbn; intuition congruence. Qed.

(** ** C61: printers *)

(** Called after each tell, it prints each time, whatever the interval of tells asked for. *)
Fixpoint pr_run (p : printer) (first : nat) (clocks : list (Q * Q)) : list bool :=
  match clocks with
  | [] => []
  | (a, b) :: clocks => let '(p', printed) := pr_call p first a b in printed :: pr_run p' (S first) clocks
  end.
Theorem C61_prints_each_tell_refuted (tells : nat) (seconds now : Q) (clocks : list (Q * Q)) : 0 < tells ->
  pr_run (new_printer tells seconds now) 1 clocks = repeat true (length clocks).
Proof.
  intros Ht. assert (H : forall clocks p k, pr_tells p = tells -> k <= pr_next_tell p -> pr_run p k clocks = repeat true (length clocks)).
  { clear clocks. induction clocks as [|[a b] clocks IH]; intros p k Hp Hk; [reflexivity|]. cbn [pr_run length repeat].
    unfold pr_call. destruct (Nat.leb_spec k (pr_next_tell p)); [|lia]. rewrite orb_true_r. cbn [pr_tells].
    f_equal. apply IH; cbn; [exact Hp|lia]. }
  apply H; [reflexivity|cbn; lia].
Qed.
(** When more evaluations than the interval were told since the last print (several workers
    and a callback on ask), it does not print, until the seconds have passed. *)
Theorem C61_late_silent_refuted (p : printer) (num_tell : nat) (now now2 : Q) :
  (now < pr_next_time p)%Q -> pr_next_tell p < num_tell -> pr_call p num_tell now now2 = (p, false).
Proof.
  intros H1 H2. unfold pr_call. destruct (qle_spec (pr_next_time p) now) as [L|L]; [lra|].
  destruct (Nat.leb_spec num_tell (pr_next_tell p)); [lia|reflexivity].
Qed.
(** What is kept: once the seconds have passed since the last print, the next call prints. *)
Theorem C61_seconds (p p' : printer) (num_tell num_tell' : nat) (now now2 later later2 : Q) :
  pr_call p num_tell now now2 = (p', true) -> (now2 + pr_seconds p <= later)%Q -> snd (pr_call p' num_tell' later later2) = true.
Proof.
  intros H1 H2. unfold pr_call in H1. destruct (qle (pr_next_time p) now || (num_tell <=? pr_next_tell p)); [|discriminate].
  injection H1 as <-. unfold pr_call. cbn [pr_next_time]. destruct (qle_spec (now2 + pr_seconds p) later); [reflexivity|lra].
Qed.
(** Exactly when it prints, in any history of calls: [n], [t]: number of tells and time at the last print (or at the creation). *)
Fixpoint pr_calls (p : printer) (calls : list (nat * Q * Q)) : printer * list bool :=
  match calls with
  | [] => (p, [])
  | (n, a, b) :: calls => let '(p', printed) := pr_call p n a b in let (p'', l) := pr_calls p' calls in (p'', printed :: l)
  end.
Fixpoint last_print (n : nat) (t : Q) (calls : list (nat * Q * Q)) (printed : list bool) : nat * Q :=
  match calls, printed with
  | (n', _, b) :: calls, true :: printed => last_print n' b calls printed
  | _ :: calls, false :: printed => last_print n t calls printed
  | _, _ => (n, t)
  end.
Theorem C61_exact (tells : nat) (seconds start : Q) (calls : list (nat * Q * Q)) p printed n' a b :
  pr_calls (new_printer tells seconds start) calls = (p, printed) ->
  let (n, t) := last_print 0 start calls printed in
  snd (pr_call p n' a b) = true <-> (t + seconds <= a)%Q \/ n' <= n + tells.
Proof.
  assert (K : forall calls n0 t0 p0 p printed, pr_tells p0 = tells -> pr_seconds p0 = seconds -> pr_next_tell p0 = n0 + tells -> (pr_next_time p0 == t0 + seconds)%Q ->
    pr_calls p0 calls = (p, printed) -> let (n, t) := last_print n0 t0 calls printed in
    pr_next_tell p = n + tells /\ (pr_next_time p == t + seconds)%Q).
  { clear. induction calls as [|[[n a] b] calls IH]; intros n0 t0 p0 p printed H1 H2 H3 H4 E; cbn [pr_calls] in E.
    - injection E as <- <-. cbn. auto.
    - unfold pr_call in E. destruct (qle (pr_next_time p0) a || (n <=? pr_next_tell p0)).
      + destruct (pr_calls _ calls) as [p'' l] eqn:E' in E. injection E as <- <-. cbn [last_print].
        refine (IH n b _ _ _ _ _ _ _ E'); cbn; try assumption; [rewrite H1; reflexivity|rewrite H2; reflexivity].
      + destruct (pr_calls _ calls) as [p'' l] eqn:E' in E. injection E as <- <-. cbn [last_print].
        refine (IH n0 t0 _ _ _ _ _ _ _ E'); assumption. }
  intros E. specialize (K calls 0 start (new_printer tells seconds start) p printed eq_refl eq_refl ltac:(cbn; lia) ltac:(cbn; lra) E).
  destruct (last_print 0 start calls printed) as [n t]. destruct K as [K1 K2].
  unfold pr_call. destruct (qle_spec (pr_next_time p) a) as [L|L]; cbn [orb snd].
  - split; [intros _; left; lra|reflexivity].
  - rewrite K1. destruct (Nat.leb_spec n' (n + tells)); cbn [snd]; split; try tauto; try discriminate; intros [X|X]; [lra|lia].
Qed.
Example C61_ex : pr_run (new_printer 10 60 0) 1 [(1%Q, 1%Q); (2%Q, 2%Q); (3%Q, 3%Q)] = [true; true; true] /\
  snd (pr_call (new_printer 2 60 0) 3 1 1) = false /\
  snd (pr_calls (new_printer 2 60 0) [(1, 1%Q, 1%Q); (4, 2%Q, 2%Q); (3, 50%Q, 51%Q); (9, 115%Q, 115%Q)]) = [true; false; true; true].
Proof. repeat split; reflexivity. Qed.

Print Assumptions C56_no_improvement.
Print Assumptions C56_no_loss.
Print Assumptions C56_window_refuted.
Print Assumptions C56_several_objectives_refuted.
Print Assumptions C56_timer.
Print Assumptions C56_timer_first.
Print Assumptions C56_callback.
Print Assumptions C61_prints_each_tell_refuted.
Print Assumptions C61_late_silent_refuted.
Print Assumptions C61_seconds.
Print Assumptions C61_exact.

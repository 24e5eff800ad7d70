(** C125: the wrapper of the Ax platform. *)
From Coq Require Import Bool Arith List Reals Lra Lia.
From Verif Require Import Model.Prelude Model.AxPlatform Spec.AxPlatform Proofs.AxPlatform.
Import ListNotations.
Open Scope nat_scope.
Open Scope list_scope.

(** without suggestions and refused candidates, telling a candidate which was asked and not told yet gives its loss to Ax for the
    trial the candidate was made from, in any order of asks and tells by any number of workers, and also when Ax had no trial to
    give to some asks *)
Theorem C125_paired : forall (L : Type) (evs : list (event L)) c l, Forall simple evs -> In c (x_asked (run evs)) ->
  exists t, made_from (run evs) c t /\
    snd (tell (run evs) c l) = Ok tt /\ data (fst (tell (run evs) c l)) = data (run evs) ++ [(t, l)].
Proof.
  intros L evs c l F A. pose proof (inv_run evs F) as I. exists c. destruct (i_asked _ I c A) as [B _].
  split; [exists c; now apply (i_cands _ I)|]. rewrite (inv_tell _ c l I A). now split.
Qed.
Print Assumptions C125_paired.

(** the trials of the candidates are distinct *)
Theorem C125_apart : forall (L : Type) (evs : list (event L)) c c' t, Forall simple evs ->
  made_from (run evs) c t -> made_from (run evs) c' t -> c = c'.
Proof.
  intros L evs c c' t F [m H] [m' H']. pose proof (inv_run evs F) as I.
  assert (B : c < x_num_ask (run evs)) by (rewrite <- (i_len _ I); apply nth_error_Some; congruence).
  assert (B' : c' < x_num_ask (run evs)) by (rewrite <- (i_len _ I); apply nth_error_Some; congruence).
  rewrite (i_cands _ I c B) in H. rewrite (i_cands _ I c' B') in H'. congruence.
Qed.
Print Assumptions C125_apart.

Example C125_case : let s := run [EAsk true []; EAsk true []; ETell 1 50; EAsk false []; EAsk true []; ETell 0 60] in
  data s = [(1, 50); (0, 60)] /\ x_asked s = [2] /\ made_from s 2 2.
Proof. vm_compute. repeat split. now exists 2. Qed.

(** after an ask which refused candidates, the loss of the next candidate is given to Ax for another trial: one that was refused, or the
    one of the first candidate *)
Theorem C125_refused_refuted : forall (L : Type) (more : list bool) (l : L), more <> [] -> (forall b, In b more -> b = true) ->
  let s := run [EAsk true more; EAsk true []] in
  made_from s 1 (S (List.length more)) /\ In 1 (x_asked s) /\ snd (tell s 1 l) = Ok tt /\ data (fst (tell s 1 l)) = [(1, l)].
Proof.
  intros L more l N B s.
  assert (G : forall m n (k : nat) cs a, (forall b, In b m -> b = true) ->
    ask_loop (L := L) (Axp n [] (Client k []) cs a) true m =
    (Axp (n + List.length m) [] (Client (S (k + List.length m)) []) cs a, Ok (k + List.length m, n + List.length m))).
  { induction m as [|f m IH]; intros n k cs a H.
    - cbn. now rewrite !Nat.add_0_r.
    - cbn [ask_loop]. rewrite (H f (or_introl eq_refl)). cbn [x_num_ask x_trials x_client x_cands x_asked internal_ask].
      unfold internal_ask. cbn [x_num_ask x_trials x_client x_cands x_asked ax_made ax_done]. rewrite IH by (intros b I; apply H; now right).
      cbn [List.length]. now rewrite <- !Nat.add_succ_comm. }
  destruct more as [|f more]; [easy|].
  assert (E : s = Axp 2 [] (Client (S (S (S (List.length more)))) [])
    [Some (S (List.length more), S (List.length more)); Some (S (S (List.length more)), 1)] [0; 1]).
  { assert (A1 : fst (ask (L := L) new_axp true (f :: more)) =
      Axp 1 [] (Client (S (S (List.length more))) []) [Some (S (List.length more), S (List.length more))] [0]).
    { unfold ask, new_axp. rewrite G by easy. reflexivity. }
    change s with (fst (ask (fst (ask (L := L) new_axp true (f :: more))) true [])). rewrite A1. reflexivity. }
  rewrite E. split; [eexists; reflexivity|]. split; [cbn; tauto|]. split; reflexivity.
Qed.
Print Assumptions C125_refused_refuted.

(** after a suggestion, telling a candidate raises *)
Theorem C125_suggestion_refuted : forall (L : Type) (l : L),
  let s := run [ESuggestion; EAsk true []] in In 1 (x_asked s) /\ snd (tell s 1 l) = Err KeyError /\ snd (tell s 0 l) = Err NotImplementedError.
Proof. intros L l s. repeat split. now left. Qed.
Print Assumptions C125_suggestion_refuted.

(** when Ax has no trial to give, ask raises *)
Theorem C125_busy_refuted : forall (L : Type) (evs : list (event L)), Forall simple evs -> snd (ask (run evs) false []) = Err IndexError.
Proof.
  intros L evs F. pose proof (inv_run evs F) as I. unfold ask. cbn [ask_loop]. unfold internal_ask. rewrite (i_trials _ I).
  now rewrite (i_trials _ I).
Qed.
Print Assumptions C125_busy_refuted.

Open Scope R_scope.
(** coordinates of Ax, in [0, 1], become finite coordinates in the same order, and different ones unless closer than 1e-15 to the ends *)
Theorem C125_coordinates : forall x, 
  (/ 10 ^ 15 <= x <= 1 - / 10 ^ 15 -> sigmoid (invsig x) = x) /\
  (forall y, x <= y -> invsig x <= invsig y) /\
  invsig 0 <= invsig x <= invsig 1 /\ (sigmoid (invsig 0) = / 10 ^ 15 /\ sigmoid (invsig 1) = 1 - / 10 ^ 15).
Proof.
  intros x. pose proof eps_bounds as E. repeat split.
  - intros H. rewrite sigmoid_invsig. now apply clip_id.
  - intros y. apply invsig_mono.
  - assert (invsig x = invsig (clip x)) as -> by (unfold invsig; rewrite (clip_id (clip x)); [easy|apply clip_bounds]).
    apply invsig_mono. pose proof (clip_bounds x). lra.
  - assert (invsig x = invsig (clip x)) as -> by (unfold invsig; rewrite (clip_id (clip x)); [easy|apply clip_bounds]).
    apply invsig_mono. pose proof (clip_bounds x). lra.
  - rewrite sigmoid_invsig. unfold clip. rewrite Rmax_right by lra. now rewrite Rmin_left by lra.
  - rewrite sigmoid_invsig. unfold clip. rewrite Rmax_left by lra. now rewrite Rmin_right by lra.
Qed.
Print Assumptions C125_coordinates.

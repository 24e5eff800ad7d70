From Coq Require Import List Arith QArith Bool Lia Lqa.
From Verif.Model Require Import Prelude MultiValue Restarts.
From Verif.Spec Require Import Restarts.
From Verif.Proofs Require Import MultiValue.
Import ListNotations.
Open Scope nat_scope.

Section Restarts.
  Context {X : Type}.
  Variables (f : X -> Q) (back : X -> X) (lib : nat -> X -> run X) (meth : family) (budget : option nat) (others user : nat).
  Notation asked := (asked back meth).
  Notation restarts := (restarts back lib meth budget others user).
  (** An invariant which holds after each run holds at the end. *)
  Lemma restarts_inv (P : nat -> option Q * X -> list X -> Prop) :
    (forall k b ev, P k b ev -> remains budget others (length ev) = true -> P (S k) (after back meth (lib k (snd b)) b) (ev ++ map asked (points (lib k (snd b))))) ->
    forall fuel k b ev x all, P k b ev -> restarts fuel k b ev = Finished x all -> exists k' y, P k' (y, x) all /\ remains budget others (length all) = false.
  Proof.
    intros Hs. induction fuel as [|fuel IH]; intros k b ev x all Pk E; cbn [Restarts.restarts] in E; destruct (remains budget others (length ev)) eqn:Rm; try discriminate E.
    - injection E as <- <-. exists k, (fst b). rewrite <- surjective_pairing. auto.
    - destruct (user <? _); [discriminate E|]. exact (IH (S k) _ _ _ _ (Hs k b ev Pk Rm) E).
    - injection E as <- <-. exists k, (fst b). rewrite <- surjective_pairing. auto.
  Qed.
  Lemma best_app x ev y new : best_evaluated f x ev -> best_evaluated f y new -> ((f y <= f x)%Q -> best_evaluated f y (ev ++ new)) /\ ((f x <= f y)%Q -> best_evaluated f x (ev ++ new)).
  Proof.
    intros (A1 & A2) (B1 & B2). split; intros L; (split; [apply in_app_iff; auto|]); intros z Hz; apply in_app_iff in Hz; destruct Hz as [Hz|Hz]; auto.
    - specialize (A2 z Hz). lra.
    - specialize (B2 z Hz). lra.
  Qed.
  Lemma honest_best (g : X -> Q) r : (forall x, g x = f (asked x)) -> honest g r -> best_evaluated f (asked (found r)) (map asked (points r)) /\ (value r == f (asked (found r)))%Q.
  Proof.
    intros Hg (H1 & H2 & H3). rewrite Hg in H2. split; [|exact H2]. split; [now apply in_map|]. intros y Hy. apply in_map_iff in Hy. destruct Hy as (p & <- & Hp). rewrite <- !Hg. now apply H3.
  Qed.
  Definition kept (k : nat) (b : option Q * X) (ev : list X) : Prop :=
    match fst b with None => ev = [] | Some y => (y == f (snd b))%Q /\ best_evaluated f (snd b) ev end.
  Lemma kept_step : (meth = KeepBest \/ meth = Fmin true) -> (forall k x, honest (fun p => f (asked p)) (lib k x)) ->
    forall k b ev, kept k b ev -> kept (S k) (after back meth (lib k (snd b)) b) (ev ++ map asked (points (lib k (snd b)))).
  Proof.
    intros Hm Hl k b ev K. set (r := lib k (snd b)). destruct (honest_best _ r (fun _ => eq_refl) (Hl k (snd b))) as (Br & Vr).
    assert (E : after back meth r b = if match fst b with None => true | Some y => qlt (value r) y end then (Some (value r), asked (found r)) else b) by (destruct Hm as [->| ->]; reflexivity).
    rewrite E. unfold kept in K. destruct (fst b) as [y|] eqn:Fb.
    - destruct K as (K1 & K2). destruct (best_app _ _ _ _ K2 Br) as (L1 & L2). destruct (qlt (value r) y) eqn:Q0.
      + apply qlt_iff in Q0. split; [exact Vr|]. apply L1. cbn [snd]. lra.
      + apply qlt_false in Q0. unfold kept. rewrite Fb. split; [exact K1|]. apply L2. lra.
    - subst ev. split; [exact Vr|exact Br].
  Qed.
End Restarts.

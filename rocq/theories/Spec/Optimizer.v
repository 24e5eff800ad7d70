(** What a user sees of an optimizer: the sequence of calls and their outcomes. *)
From Coq Require Import List Arith ZArith QArith Bool.
From Verif.Model Require Import Prelude MultiValue Float Optimizer.
Import ListNotations.

(** Calls with their outcomes, oldest first. *)
Definition history := list (op * outcome).

(** the candidate concerned by a tell *)
Definition told_candidate (c : cand_in) : option nat :=
  match c with CParam c => Some c | CRef v => v | CBad => None end.

(** number of asks that returned *)
Definition asks_returned (h : history) : nat :=
  length (filter (fun e => match e with (OAsk, RCand _ _) => true | _ => false end) h).
(** number of asks that raised *)
Definition asks_raised (h : history) : nat :=
  length (filter (fun e => match e with (OAsk, RErr _) => true | _ => false end) h).
(** number of tells completed *)
Definition tells_completed (h : history) : nat :=
  length (filter (fun e => match e with (OTell _ _ _, RDone) => true | _ => false end) h).

Definition without (c : nat) (l : list nat) : list nat := filter (fun x => negb (x =? c)%nat) l.

(** candidates handed out by the algorithm (not suggestions) and not told since *)
Definition outstanding_step (l : list nat) (e : op * outcome) : list nat :=
  match e with
  | (OAsk, RCand c false) => l ++ [c]
  | (OTell c _ _, RDone) => match told_candidate c with Some c => without c l | None => l end
  | _ => l
  end.
Definition outstanding (h : history) : list nat := fold_left outstanding_step h [].

(** number of completed tells of a candidate that was not outstanding *)
Fixpoint unasked_tells_from (l : list nat) (h : history) : nat :=
  match h with
  | [] => 0
  | e :: h' =>
      (match e with
       | (OTell c _ _, RDone) =>
           match told_candidate c with
           | Some c => if existsb (Nat.eqb c) l then 0 else 1
           | None => 0
           end
       | _ => 0
       end + unasked_tells_from (outstanding_step l e) h')%nat
  end.
Definition unasked_tells (h : history) : nat := unasked_tells_from [] h.

(** suggestions not asked yet, most recent first *)
Definition pending_step (l : list nat) (e : op * outcome) : list nat :=
  match e with
  | (OSuggest (Ok c), RDone) => c :: l
  | (OAsk, RCand c true) => tl l
  | _ => l
  end.
Definition pending (h : history) : list nat := fold_left pending_step h [].

Definition suggested (h : history) : list nat :=
  flat_map (fun e => match e with (OSuggest (Ok c), RDone) => [c] | _ => [] end) h.
Definition suggestions_asked (h : history) : list nat :=
  flat_map (fun e => match e with (OAsk, RCand c true) => [c] | _ => [] end) h.

(** number of losses in what the user passes *)
Definition n_losses (l : loss_in) : nat :=
  match l with LReal _ => 1 | LSeq l => length l | LOther => 0 end.

(** the loss kept for a told scalar: NaN, +inf and anything beyond 5e20 become 5e20 *)
Definition kept_loss (f : fl) : fl :=
  match f with
  | NaN | PosInf => Fin (5 * 10 ^ 20)
  | NegInf => NegInf
  | Fin q => if Qlt_le_dec q (5 * 10 ^ 20) then Fin q else Fin (5 * 10 ^ 20)
  end.

(** equality of losses, up to the representation of fractions *)
Definition fl_eq (a b : fl) : Prop :=
  match a, b with
  | NaN, NaN | NegInf, NegInf | PosInf, PosInf => True
  | Fin x, Fin y => (x == y)%Q
  | _, _ => False
  end.

(** scalar tells of a history as (candidate, point, loss), [key] giving the point *)
Definition scalar_tells (key : nat -> nat) (h : history) : list (nat * nat * Q) :=
  flat_map (fun e => match e with
                     | (OTell (CParam c) (LReal (Fin y)) _, RDone) => [(c, key c, y)]
                     | _ => []
                     end) h.

Section Run.
  Context {ALG ARC HV : Type}.
  Variable E : env ALG ARC HV.

  (** performing a list of calls, collecting the history *)
  Fixpoint perform (s : ost ALG ARC HV) (ops : list op) : ost ALG ARC HV * history :=
    match ops with
    | [] => (s, [])
    | o :: ops' =>
        let '(s, r) := step ALG ARC HV E s o in
        let '(s', h) := perform s ops' in (s', (o, r) :: h)
    end.

  (** no candidate ever violates a constraint *)
  Definition no_violation : Prop := forall s c, snd (e_satisfies _ _ _ E s c) = true.

  (** candidate [c] always violates the registered constraints *)
  Definition violates (c : nat) : Prop := forall s, snd (e_satisfies _ _ _ E s c) = false.

  (** [c] is told as violating: by the registered constraints (and there is a
      budget), or with a positive violation *)
  Definition told_violating (c : nat) (cv : option (list Q)) : Prop :=
    (violates c /\ e_budget _ _ _ E <> None) \/
    (exists v, cv = Some v /\ Exists (fun v => 0 < v)%Q v).

  (** penalties and powers are non-negative numbers *)
  Definition nonneg_penalties : Prop :=
    (forall s0 c0, 0 <= e_penalty _ _ _ E s0 c0)%Q /\ (forall x y, 0 <= e_pow _ _ _ E x y)%Q.

  (** nothing that the optimizer calls raises *)
  Record never_raises : Prop := {
    nr_cb : forall s c l, snd (e_callbacks_tell _ _ _ E s c l) = Ok tt;
    nr_tell : forall s c l, snd (e_tell _ _ _ E s c l) = Ok tt;
    nr_tna : forall s c l, snd (e_tell_not_asked _ _ _ E s c l) = Ok tt;
    nr_update : forall a c l, snd (e_update _ _ _ E a c l) = Ok tt;
    nr_hv : forall h c b, exists f, snd (e_hv_add _ _ _ E h c b) = Ok f }.

  (** the hypervolume object reports the number of losses it was given *)
  Definition hv_counts : Prop :=
    (forall b, e_hv_num_obj _ _ _ E (e_hv_ref _ _ _ E b) = length b) /\
    (forall h c b, e_hv_num_obj _ _ _ E (fst (e_hv_add _ _ _ E h c b)) = length b).

  (** everything but the learning curve is equal *)
  Record same_but_curve (s s' : ost ALG ARC HV) : Prop := {
    sb_ask : o_num_ask _ _ _ s' = o_num_ask _ _ _ s;
    sb_tell : o_num_tell _ _ _ s' = o_num_tell _ _ _ s;
    sb_tna : o_num_tna _ _ _ s' = o_num_tna _ _ _ s;
    sb_asked : o_asked _ _ _ s' = o_asked _ _ _ s;
    sb_sugg : o_suggestions _ _ _ s' = o_suggestions _ _ _ s;
    sb_nobj : o_num_obj _ _ _ s' = o_num_obj _ _ _ s;
    sb_hv : o_hv _ _ _ s' = o_hv _ _ _ s;
    sb_arc : o_arc _ _ _ s' = o_arc _ _ _ s;
    sb_loss : o_loss _ _ _ s' = o_loss _ _ _ s;
    sb_frozen : o_frozen _ _ _ s' = o_frozen _ _ _ s;
    sb_skip : o_skip _ _ _ s' = o_skip _ _ _ s;
    sb_alg : o_alg _ _ _ s' = o_alg _ _ _ s;
    sb_trace : o_trace _ _ _ s' = o_trace _ _ _ s }.

  (** the three reasons for which a tell is rejected on its arguments *)
  Definition bad_loss (l : loss_in) : Prop :=
    match l with
    | LOther => True
    | LReal _ => False
    | LSeq l => match l with
                | [] => True
                | [IFloat _] => False
                | [_] => True
                | _ => In IOther l
                end
    end.
  Definition rejected (s : ost ALG ARC HV) (c : cand_in) (l : loss_in) : Prop :=
    bad_loss l \/ c = CBad \/
    (o_num_obj _ _ _ s <> 0%nat /\ n_losses l <> o_num_obj _ _ _ s).
End Run.

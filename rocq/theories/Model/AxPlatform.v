(** The wrapper of the Ax platform: /repo/nevergrad/optimization/optimizerlib.py:1148-1203 (AXP). *)
From Coq Require Import Bool Arith List Reals Lia.
From Verif Require Import Model.Prelude.
Import ListNotations.
Open Scope nat_scope.
Open Scope list_scope.

Section Ax.
Context {L : Type}.

(** The client of Ax: trials are numbered from 0 in the order they are made (attach order of AxClient); [ax_done] are the
    completed trials with their data.
    Simplification: only what the wrapper relies on. *)
Record client : Type := Client { ax_made : nat; ax_done : list (nat * L) }.
(** complete_trial: unknown trials and trials already completed are refused *)
Definition complete (a : client) (i : nat) (l : L) : client * result unit :=
  if negb (i <? ax_made a) then (a, Err KeyError)
  else if existsb (Nat.eqb i) (map fst (ax_done a)) then (a, Err ValueError)
  else (Client (ax_made a) (ax_done a ++ [(i, l)]), Ok tt).

(** The optimizer: num_ask, _trials (numbers of trials), the candidates made with the trial their data comes from and the
    index kept in _meta["trial_index"] (None for suggestions, which have no trial), and the candidates
    asked and not told.  A candidate is its position in the list *)
Record axp : Type := Axp {
  x_num_ask : nat; x_trials : list nat; x_client : client; x_cands : list (option (nat * nat)); x_asked : list nat }.
Definition new_axp : axp := Axp 0 [] (Client 0 []) [] [].

(** _internal_ask_candidate: optimizerlib.py:1178-1197.  [free]: Ax can make a trial now (otherwise it gives none:
    it limits the trials in progress).  Returns the trial and the index kept *)
Definition internal_ask (s : axp) (free : bool) : axp * result (nat * nat) :=
  let s :=
    match x_trials s with
    | [] => if free then let a := x_client s in
                         Axp (x_num_ask s) [ax_made a] (Client (S (ax_made a)) (ax_done a)) (x_cands s) (x_asked s)
            else s
    | _ => s
    end in
  match x_trials s with
  | [] => (s, Err IndexError)
  | t :: ts => (Axp (x_num_ask s) ts (x_client s) (x_cands s) (x_asked s), Ok (t, x_num_ask s))
  end.

(** the loop of ask (base.py:511-533): each trial but the last violates a constraint; num_ask is increased after each of them.
    Simplification: the last one satisfies the constraints *)
Fixpoint ask_loop (s : axp) (first : bool) (more : list bool) : axp * result (nat * nat) :=
  match internal_ask s first with
  | (s, Err e) => (s, Err e)
  | (s, Ok r) =>
      match more with
      | [] => (s, Ok r)
      | f :: more' => ask_loop (Axp (S (x_num_ask s)) (x_trials s) (x_client s) (x_cands s) (x_asked s)) f more'
      end
  end.
(** ask: base.py:494, 511-533, 545-552: num_ask is set from its value at the beginning *)
Definition ask (s : axp) (first : bool) (more : list bool) : axp * result nat :=
  match ask_loop s first more with
  | (s', Err e) => (s', Err e)
  | (s', Ok r) =>
      let c := List.length (x_cands s') in
      (Axp (x_num_ask s + 1) (x_trials s') (x_client s') (x_cands s' ++ [Some r]) (x_asked s' ++ [c]), Ok c)
  end.
(** ask when a suggestion is waiting (base.py:514-516, 545): the candidate is not added to the asked ones *)
Definition ask_suggestion (s : axp) : axp * result nat :=
  let c := List.length (x_cands s) in
  (Axp (x_num_ask s + 1) (x_trials s) (x_client s) (x_cands s ++ [None]) (x_asked s), Ok c).

(** tell: base.py:431-437 with optimizerlib.py:1199-1203; TellNotAskedNotSupportedError is a NotImplementedError *)
Definition tell (s : axp) (c : nat) (l : L) : axp * result unit :=
  if existsb (Nat.eqb c) (x_asked s) then
    match nth_error (x_cands s) c with
    | Some (Some (_, meta)) =>
        match complete (x_client s) meta l with
        | (a, Err e) => (Axp (x_num_ask s) (x_trials s) a (x_cands s) (x_asked s), Err e)
        | (a, Ok _) => (Axp (x_num_ask s) (x_trials s) a (x_cands s) (filter (fun v => negb (Nat.eqb c v)) (x_asked s)), Ok tt)
        end
    | _ => (s, Err KeyError)
    end
  else (s, Err NotImplementedError).

Inductive event : Type := EAsk (first : bool) (more : list bool) | ESuggestion | ETell (c : nat) (l : L).
Definition step (s : axp) (e : event) : axp :=
  match e with
  | EAsk f m => fst (ask s f m)
  | ESuggestion => fst (ask_suggestion s)
  | ETell c l => fst (tell s c l)
  end.
Definition run (evs : list event) : axp := fold_left step evs new_axp.
End Ax.
Arguments axp L : clear implicits.
Arguments event L : clear implicits.

(** invsig: optimizerlib.py:1179-1183, over the reals *)
Open Scope R_scope.
Definition ax_eps : R := / 10 ^ 15.
Definition clip (x : R) : R := Rmin (Rmax x ax_eps) (1 - ax_eps).
Definition invsig (x : R) : R := ln (clip x / (1 - clip x)).

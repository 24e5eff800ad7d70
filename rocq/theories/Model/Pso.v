(** Model of [_PSO] (nevergrad/optimization/optimizerlib.py): the swarm, the best points, and
    (over the reals) the move of a particle.  Candidates are their uids, as in Model/Evolution.v,
    whose states (candidates, population, queue) are used; losses are rationals, [None] is no loss. *)
From Coq Require Import List Arith QArith Reals Bool.
From Verif.Model Require Import Prelude MultiValue UidQueue Evolution.
Import ListNotations.
Open Scope nat_scope.

(** optimizerlib.py:1376-1378 [population], [_uid_queue] and [_best] ([None]: the child of the
    parametrization, without loss), and [heritage["best_parent"]] of the candidates *)
Record pso : Type := PSO { pso_s : dest; pso_best : option nat; pso_bp : list (nat * nat) }.
Definition pso_init : pso := PSO de_init None [].

(** [base._loss(self._best)] *)
Definition best_loss (s : pso) : lo :=
  match pso_best s with None => None | Some b => loss b (de_c (pso_s s)) end.

(** a child has a copy of the heritage of its parent (parametrization/core.py:423) *)
Definition inherit (u : nat) (par : option nat) (bp : list (nat * nat)) : list (nat * nat) :=
  match par with
  | None => bp
  | Some p => match dget p bp with Some b => dset u b bp | None => bp end
  end.

Section PSO.
  (** optimizerlib.py:1373-1375 *)
  Variable llambda : nat.

  (** optimizerlib.py:1382-1416 [_internal_ask_candidate], the new candidate being [u]: a new particle,
      or a child of the next one, whose lineage becomes the key of the particle *)
  Definition pso_ask (u : nat) (s : pso) : pso * result unit :=
    let d := pso_s s in
    if (length (de_pop d) <? llambda) then
      (PSO (DESt (new_cand u u None (de_c d)) (dset u u (de_pop d))
                 (UQ (uq_told (de_q d)) (os_add u (uq_asked (de_q d))))) (pso_best s) (pso_bp s), Ok tt)
    else
      match uq_ask (de_q d) with
      | Err e => (s, Err e)
      | Ok (uid, q) =>
          match dget uid (de_pop d) with
          | None => (PSO (DESt (de_c d) (de_pop d) q) (pso_best s) (pso_bp s), Err KeyError)
          | Some p => (PSO (DESt (new_cand u uid (Some p) (de_c d)) (de_pop d) q) (pso_best s)
                           (inherit u (Some p) (pso_bp s)), Ok tt)
          end
      end.

  (** optimizerlib.py:1468-1473: the end of [_internal_tell_not_asked] *)
  Definition pso_add (c : nat) (l : Q) (d : dest) (s : pso) : pso :=
    PSO (DESt (de_c d) (dset c c (de_pop d)) (uq_tell c (de_q d)))
        (if lo_lt (Some l) (best_loss s) then Some c else pso_best s) (pso_bp s).
  (** optimizerlib.py:1458-1473 [_internal_tell_not_asked] *)
  Definition pso_tell_not_asked (c : nat) (l : Q) (s : pso) : pso * result unit :=
    let d := pso_s s in
    if (length (de_pop d) <? llambda) then (pso_add c l d s, Ok tt)
    else
      match worst (de_c d) (de_pop d) with
      | None => (s, Err ValueError)
      | Some (uid, w) =>
          if lo_lt (loss w (de_c d)) (Some l) then (s, Ok tt)
          else
            let d1 := DESt (de_c d) (ddel uid (de_pop d)) (de_q d) in
            match uq_discard uid (de_q d) with
            | Err e => (PSO d1 (pso_best s) (pso_bp s), Err e)
            | Ok q => (pso_add c l (DESt (de_c d) (ddel uid (de_pop d)) q) s, Ok tt)
            end
      end.

  (** optimizerlib.py:1446-1456 [_internal_tell_candidate]; comparing with a missing loss is a TypeError *)
  Definition pso_tell (c : nat) (l : Q) (s : pso) : pso * result unit :=
    let d := pso_s s in
    let uid := lineage c (de_c d) in
    if dmem uid (de_pop d) then
      let d' := DESt (de_c d) (dset uid c (de_pop d)) (uq_tell uid (de_q d)) in
      let best := if lo_lt (Some l) (best_loss s) then Some c else pso_best s in
      let personal := match dget c (pso_bp s) with Some b => b | None => c end in
      match loss personal (de_c d) with
      | None => (PSO d' best (pso_bp s), Err TypeError)
      | Some v => (PSO d' best (if qle l v then dset c c (pso_bp s) else pso_bp s), Ok tt)
      end
    else pso_tell_not_asked c l s.

  (** One operation; [l0] becomes the loss of the candidate, [l] is the loss with penalties.  PSO does not
      penalise the candidates refused by constraints (base.py:101, 529). *)
  Definition pso_step (asked : bool) (s : pso) (o : ev_op) : pso * result unit :=
    match o with
    | OAsk u => pso_ask u s
    | ONew u lin par =>
        (PSO (DESt (new_cand u lin par (de_c (pso_s s))) (de_pop (pso_s s)) (de_q (pso_s s))) (pso_best s)
             (inherit u par (pso_bp s)), Ok tt)
    | OTell c l0 l =>
        let d := pso_s s in
        let s := PSO (DESt (set_cand_loss c l0 (de_c d)) (de_pop d) (de_q d)) (pso_best s) (pso_bp s) in
        if asked then pso_tell c l s else pso_tell_not_asked c l s
    | OReject c => (s, Ok tt)
    end.
End PSO.

(** ** The move of a particle, for one coordinate in the box of the transform *)
Section Move.
  Open Scope R_scope.
  Variables omega phip phig : R.
  (** optimizerlib.py:1426-1444 [_spawn_mutated_particle]: the new speed and position; [eps] is [None] for
      the identity transform, 0 for arctan, 1e-10 for gaussian *)
  Definition new_speed (speed x personal global rp rg : R) : R :=
    omega * speed + phip * rp * (personal - x) + phig * rg * (global - x).
  Definition clip_R (a lo hi : R) : R := Rmin hi (Rmax lo a).
  Definition new_position (eps : option R) (speed x personal global rp rg : R) : R :=
    let data := new_speed speed x personal global rp rg + x in
    match eps with Some e => clip_R data e (1 - e) | None => data end.
End Move.

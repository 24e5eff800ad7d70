(** Model of [Portfolio] / [ConfPortfolio] (nevergrad/optimization/optimizerlib.py:1906-2082): several
    optimizers asked in turn, and a choice among them after a warm-up.  The sub-optimizers are arbitrary, as
    in Model/Chain.v; the log of a sub-optimizer keeps the calls and whether the tells were accepted. *)
From Coq Require Import List Arith ZArith QArith Qround Bool.
From Verif.Model Require Import Prelude MultiValue Chain.
Import ListNotations.
Open Scope nat_scope.

Definition ceil_div (a b : nat) : nat := a / b + (if 0 <? a mod b then 1 else 0).
(** int(x) and int(np.ceil(x)) of non-negative numbers *)
Definition qint (x : Q) : nat := Z.to_nat (Qfloor x).
Definition qceil (x : Q) : nat := Z.to_nat (Qceiling x).

Record setup : Type := Setup {
  su_sub_budget : option nat; su_sub_workers : nat; su_workers : list nat (* num_workers of each *);
  su_turns : list nat; su_warmup : option nat }.
(** optimizerlib.py:1949-2033 [__init__]; [nps]: the flags [no_parallelization] of the optimizers (classes, not
    instances), at least one; products of floats are exact here *)
Definition portfolio_setup (nps : list bool) (budget : option nat) (num_workers : nat) (warmup : option Q) : result setup :=
  let num := length nps in
  let non_para := if num_workers <=? num then 0 else length (filter (fun b => b) nps) in
  let num_para := num - non_para in
  if num_para =? 0 then Err ZeroDivisionError else
  let sub_budget := option_map (fun b =>
    let rebudget := match warmup with Some r => qceil (inject_Z (Z.of_nat b) * r) | None => b end in
    ceil_div rebudget num_para +
    match warmup with
    | Some r => if qlt r 1 then 1 + qint (inject_Z (Z.of_nat b) * (1 - r)) else 0
    | None => 0
    end) budget in
  let needed := num_workers - non_para in
  let distribute := match warmup with Some r => Qeq_bool r 1 | None => false end in
  let sub_workers := if distribute then ceil_div num_workers num else Nat.max 1 (ceil_div needed num_para) in
  if num * sub_workers <? num_workers then Err AssertionError else
  if sub_workers <? 1 then Err AssertionError else
  let workers := map (fun np : bool => if np then 1 else sub_workers) nps in
  let turns := flat_map (fun iw => repeat (fst iw) (snd iw)) (combine (seq 0 num) workers) in
  match warmup, budget with
  | Some _, None => Err ValueError
  | Some r, Some b => Ok (Setup sub_budget sub_workers workers turns (Some (qint (r * inject_Z (Z.of_nat b)))))
  | None, _ => Ok (Setup sub_budget sub_workers workers turns None)
  end.

Inductive pcall : Type := PAsk (u : nat) (sampled : bool) | PTell (c : nat) (l : Q) (accepted : bool).
Record psub (S : Type) : Type := PSub { pb : S; pb_log : list pcall }.
Arguments PSub {S}. Arguments pb {S}. Arguments pb_log {S}.
Definition fresh (l : list pcall) : bool :=
  forallb (fun c => match c with PAsk _ _ => false | PTell _ _ ok => negb ok end) l.

Section Portfolio.
  Variable S : Type.
  (** [sampled]: the answer is the sample which was suggested to it *)
  Variable sub_ask : nat -> bool -> meta -> S -> meta * S.
  Variable sub_tell : nat -> Q -> S -> S * result unit.
  Variable su : setup.
  Variable num_workers : nat.

  (** [pf_alive]: the only optimizer kept, if a choice was made; the others stay in [pf_subs], unused.
      [pf_count] is [_current] + 1. *)
  Record portfolio : Type := Portfolio { pf_tell : nat; pf_count : nat; pf_alive : option nat; pf_subs : list (psub S) }.
  Definition portfolio_init (subs : list S) : portfolio := Portfolio 0 0 None (map (fun s => PSub s []) subs).

  (** optimizerlib.py:2036-2042: the choice; [best]: the candidate of the pessimistic best point, if any *)
  Definition choose (best : option nat) (m : meta) (pf : portfolio) : option nat :=
    match pf_alive pf, su_warmup su with
    | None, Some w =>
        if (1 <? length (pf_subs pf)) && (w <? pf_tell pf) then
          match match best with Some c => dget c m | None => None end with
          | Some ind =>
              match nth_error (su_workers su) ind with
              | Some wk => if (num_workers =? 1) || (1 <? wk) then Some ind else None
              | None => None
              end
          | None => None
          end
        else None
    | alive, _ => alive
    end.

  (** optimizerlib.py:2036-2069 [_internal_ask_candidate] *)
  Definition portfolio_ask (best : option nat) (u : nat) (m : meta) (pf : portfolio) : result (meta * portfolio) :=
    let alive := choose best m pf in
    let turn :=
      match alive with
      | Some i => Ok (i, 0, pf_count pf)
      | None =>
          if length (pf_subs pf) =? 1 then Ok (0, 0, pf_count pf) else
          match length (su_turns su) with
          | 0 => Err ZeroDivisionError
          | L => match nth_error (su_turns su) (pf_count pf mod L) with
                 | Some i => Ok (i, i, pf_count pf + 1)
                 | None => Err IndexError
                 end
          end
      end in
    bind turn (fun '(i, lab, count) =>
    match nth_error (pf_subs pf) i with
    | None => Err AssertionError
    | Some s =>
        let sampled := (1 <? lab) && fresh (pb_log s) in
        let (m', s') := sub_ask u sampled m (pb s) in
        Ok (dset u lab m', Portfolio (pf_tell pf) count alive (update i (fun _ => PSub s' (pb_log s ++ [PAsk u sampled])) (pf_subs pf)))
    end).

  (** optimizerlib.py:2071-2085 [_internal_tell_candidate]; [no_crossing] is always False (:1950) *)
  Fixpoint tell_all (alive : option nat) (k : nat) (c : nat) (l : Q) (subs : list (psub S)) : list (psub S) * result nat :=
    match subs with
    | [] => ([], Ok 0)
    | s :: rest =>
        if match alive with Some i => k =? i | None => true end then
          let (s', r) := sub_tell c l (pb s) in
          let told ok := PSub s' (pb_log s ++ [PTell c l ok]) in
          match r with
          | Ok _ => let (rest, n) := tell_all alive (k + 1) c l rest in (told true :: rest, bind n (fun n => Ok (1 + n)))
          | Err NotImplementedError => let (rest, n) := tell_all alive (k + 1) c l rest in (told false :: rest, n)
          | Err e => (told false :: rest, Err e)
          end
        else let (rest, n) := tell_all alive (k + 1) c l rest in (s :: rest, n)
    end.
  Definition portfolio_tell (c : nat) (l : Q) (pf : portfolio) : portfolio * result unit :=
    let (subs, n) := tell_all (pf_alive pf) 0 c l (pf_subs pf) in
    match n with
    | Err e => (Portfolio (pf_tell pf) (pf_count pf) (pf_alive pf) subs, Err e)
    | Ok 0 => (Portfolio (pf_tell pf) (pf_count pf) (pf_alive pf) subs, Err NotImplementedError)
    | Ok _ => (Portfolio (pf_tell pf + 1) (pf_count pf) (pf_alive pf) subs, Ok tt)
    end.

  (** Histories: the candidates taken from the portfolio (one per [ask], more when some are refused) and the tells *)
  Inductive pfop : Type := FAsk (best : option nat) (u : nat) | FTell (c : nat) (l : Q).
  Definition portfolio_step (st : meta * portfolio) (o : pfop) : (meta * portfolio) * result unit :=
    let (m, pf) := st in
    match o with
    | FAsk best u => match portfolio_ask best u m pf with Ok st' => (st', Ok tt) | Err e => (st, Err e) end
    | FTell c l => let (pf, r) := portfolio_tell c l pf in ((m, pf), r)
    end.
  Fixpoint portfolio_run (st : meta * portfolio) (ops : list pfop) : (meta * portfolio) * list (result unit) :=
    match ops with
    | [] => (st, [])
    | o :: ops => let (st, r) := portfolio_step st o in let (st, rs) := portfolio_run st ops in (st, r :: rs)
    end.
End Portfolio.
Arguments Portfolio {S}. Arguments pf_tell {S}. Arguments pf_count {S}. Arguments pf_alive {S}. Arguments pf_subs {S}.

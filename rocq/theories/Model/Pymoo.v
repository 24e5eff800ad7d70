(** Wrappers of Pymoo: /repo/nevergrad/optimization/recastlib.py:574-873, on top of Model/Recast.v. *)
From Coq Require Import Bool Arith List QArith Reals Lia.
From Verif Require Import Model.Prelude Model.Recast.
Import ListNotations.
Open Scope nat_scope.
Open Scope list_scope.

Section Pymoo.
Context {P : Type}.
(** the value of the parametrization, which parametrization.spawn_child() has *)
Variable default : P.
(** points drawn when pymoo is over (recaster.py:277, 382) *)
Variable random : nat -> P.

(** ** PymooBatch: recastlib.py:719-796; pymoo is given arrays of losses, a list of losses for each candidate *)
Section Batch.
Variable lib : list (list (option (list Q))) -> request (list P).
(** num_objectives (0: not known yet) and the recast optimizer *)
Record pb : Type := mkpb { pb_nobj : nat; pb_opt : bopt (P := P) (L := list Q) }.
(** a new optimizer; the user may set num_objectives first *)
Definition new_pb (nobj : nat) : pb := mkpb nobj new_bopt.

(** num_objectives setter: base.py:176-185, from tell (base.py:368) *)
Definition set_nobj (n k : nat) : result nat :=
  if n =? 0 then Ok k else if k =? n then Ok n else Err ValueError.

(** ask: base.py:481-560 with recastlib.py:770-781, when constraints are satisfied *)
Definition pb_ask (s : pb) (linger : bool) : pb * outcome (nat * P) :=
  let o := pb_opt s in
  if pb_nobj s =? 0 then
    let u := next_uid o in
    (mkpb (pb_nobj s) (mkbopt (b_thread o) (current_batch o) (batch_losses o) (tell_counter o) (batch_size o) (indices o)
                         (b_asked o ++ [u]) (b_draws o) (S u)), Returned (u, default))
  else let '(o, r) := bask lib random o linger in (mkpb (pb_nobj s) o, r).

(** tell: base.py:325-438 with recastlib.py:783-796 *)
Definition pb_tell (s : pb) (u : nat) (losses : list Q) (linger : bool) : pb * outcome unit :=
  match set_nobj (pb_nobj s) (List.length losses) with
  | Err e => (s, Raised e)
  | Ok n =>
      let o := pb_opt s in
      match b_thread o with
      | None =>
          if existsb (Nat.eqb u) (b_asked o) then
            (mkpb n (mkbopt (b_thread o) (current_batch o) (batch_losses o) (tell_counter o) (batch_size o) (indices o)
                       (filter (fun v => negb (Nat.eqb u v)) (b_asked o)) (b_draws o) (next_uid o)), Returned tt)
          else (mkpb n o, Raised NotImplementedError)
      | Some _ => let '(o, r) := btell lib o u losses linger in (mkpb n o, r)
      end
  end.
Inductive pbcall : Type := PAsk (linger : bool) | PTell (u : nat) (losses : list Q) (linger : bool).
Inductive pbout : Type := POAsk (r : outcome (nat * P)) | POTell (r : outcome unit).
Definition pb_step (s : pb) (c : pbcall) : pb * pbout :=
  match c with
  | PAsk g => let '(s, r) := pb_ask s g in (s, POAsk r)
  | PTell u ls g => let '(s, r) := pb_tell s u ls g in (s, POTell r)
  end.
Fixpoint pb_history (s : pb) (cs : list pbcall) : pb * list pbout :=
  match cs with
  | [] => (s, [])
  | c :: cs' => let '(s1, x) := pb_step s c in let '(s2, xs) := pb_history s1 cs' in (s2, x :: xs)
  end.
End Batch.

(** ** Pymoo: recastlib.py:574-675; one candidate at a time *)
Section Sequential.
Variable lib : list (list Q) -> request P.
Record ps : Type := mkps { ps_nobj : nat; ps_opt : opt (P := P) (L := list Q) }.
Definition new_ps (nobj : nat) : ps := mkps nobj new_opt.

(** a candidate given by ask: base.py:548-560 *)
Definition handed (o : opt (P := P) (L := list Q)) (p : P) : opt (P := P) (L := list Q) :=
  mkopt (o_thread o) (pickling o) (replay o) (candidates o ++ [(p, None)]) (asked o ++ [List.length (candidates o)])
    (draws o) (S (num_ask o)) (num_tell o).
(** ask when constraints are satisfied: recastlib.py:642-656 *)
Definition ps_ask (s : ps) (linger : bool) : ps * outcome (nat * P) :=
  if ps_nobj s =? 0 then
    (mkps (ps_nobj s) (handed (ps_opt s) default), Returned (List.length (candidates (ps_opt s)), default))
  else let '(o, r) := ask lib random (ps_opt s) linger in (mkps (ps_nobj s) o, r).
(** in ask, a candidate violating a constraint is told with an infinite loss (base.py:524-533): before the thread is
    started the tell is ignored (recastlib.py:666-667); later what is sent is candidate.losses (recastlib.py:670-675),
    and this candidate has none: RuntimeError (parametrization/core.py:89-93) *)
Definition ps_refuse (s : ps) (linger : bool) : ps * outcome unit :=
  if ps_nobj s =? 0 then
    let o := ps_opt s in
    (mkps (ps_nobj s) (mkopt (o_thread o) (pickling o) (replay o) (candidates o ++ [(default, None)]) (asked o)
                         (draws o) (num_ask o) (num_tell o)), Returned tt)
  else
    match internal_ask lib random (ps_opt s) linger with
    | (o, Blocked) => (mkps (ps_nobj s) o, Blocked)
    | (o, Raised e) => (mkps (ps_nobj s) o, Raised e)
    | (o, Returned p) =>
        let o := mkopt (o_thread o) (pickling o) (replay o) (candidates o ++ [(p, None)]) (asked o) (draws o) (num_ask o) (num_tell o) in
        match o_thread o with
        | None => (mkps (ps_nobj s) o, Returned tt)
        | Some t =>
            let '(t, alive) := is_alive t linger in
            let o := with_thread o t in
            if alive then (mkps (ps_nobj s) o, Raised RuntimeError)
            else match error t with Some _ => (mkps (ps_nobj s) o, Raised RuntimeError) | None => (mkps (ps_nobj s) o, Returned tt) end
        end
    end.
(** tell: base.py:325-438 with recastlib.py:658-675.  [penalty] is what tell adds to the loss of a candidate violating
    constraints (base.py:397-419); candidate.loss was set before (base.py:389) *)
Definition ps_tell (s : ps) (c : nat) (losses : list Q) (penalty : Q) (linger : bool) : ps * outcome unit :=
  match set_nobj (ps_nobj s) (List.length losses) with
  | Err e => (s, Raised e)
  | Ok n =>
      let o := ps_opt s in
      match o_thread o with
      | None =>
          let o := mkopt (o_thread o) (pickling o) (replay o) (set_loss c losses (candidates o)) (asked o) (draws o) (num_ask o) (num_tell o) in
          if existsb (Nat.eqb c) (asked o) then
            (mkps n (mkopt (o_thread o) (pickling o) (replay o) (candidates o) (filter (fun c' => negb (Nat.eqb c c')) (asked o))
                       (draws o) (num_ask o) (S (num_tell o))), Returned tt)
          else (mkps n o, Raised NotImplementedError)
      | Some _ => let '(o, r) := tell lib o c losses losses linger in (mkps n o, r)
      end
  end.
Inductive pscall : Type :=
| SAsk (linger : bool) | STell (c : nat) (losses : list Q) (penalty : Q) (linger : bool) | SRefuse (linger : bool).
Inductive psout : Type := SOAsk (r : outcome (nat * P)) | SOTell (r : outcome unit) | SORefuse (r : outcome unit).
Definition ps_step (s : ps) (c : pscall) : ps * psout :=
  match c with
  | SAsk g => let '(s, r) := ps_ask s g in (s, SOAsk r)
  | STell c ls p g => let '(s, r) := ps_tell s c ls p g in (s, SOTell r)
  | SRefuse g => let '(s, r) := ps_refuse s g in (s, SORefuse r)
  end.
Fixpoint ps_history (s : ps) (cs : list pscall) : ps * list psout :=
  match cs with
  | [] => (s, [])
  | c :: cs' => let '(s1, x) := ps_step s c in let '(s2, xs) := ps_history s1 cs' in (s2, x :: xs)
  end.
End Sequential.
End Pymoo.

(** the coordinates pymoo works with, in [-pi/2, pi/2], and what the optimizer gets: recastlib.py:858-873 *)
Definition pymoo_lower : R := (- PI * (1 / 2))%R.
Definition pymoo_upper : R := (PI * (1 / 2))%R.
Definition to_standardized (X : list R) : list R := map tan X.

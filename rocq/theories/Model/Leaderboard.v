(** Model of [update_leaderboard] (nevergrad/functions/base.py:256-292). Losses are exact rationals
    or the special values; the text of the array is given. Simplified: the file, when it exists,
    reads back as the table which was written; errors of the file system (swallowed,
    base.py:291-292) are left out. *)
From Coq Require Import List Arith ZArith QArith Bool String.
From Verif.Model Require Import Prelude MultiValue Float Layers Configured.
Import ListNotations.
Open Scope list_scope.

(** base.py:275 [np.round(loss, decimals=12)] *)
Definition round12 (loss : fl) : fl :=
  match loss with
  | Fin q => Fin (inject_Z (round_half_even (q * inject_Z (10 ^ 12))) / inject_Z (10 ^ 12))
  | _ => loss
  end.

(** the table: identifier, best loss, text of its array *)
Definition board : Type := list (string * (fl * string)).
(** base.py:275-288; [None]: no file *)
Definition update_leaderboard (file : option board) (identifier : string) (loss : fl) (text : string) : option board :=
  let loss := round12 loss in
  let bests := match file with Some b => b | None => [] end in
  let bests := if smem identifier bests then bests else bests ++ [(identifier, (PosInf, ""%string))] in
  match sget identifier bests with
  | Some (best, _) =>
      if negb (fl_lt best loss) then Some (ssort (sset identifier (loss, text) bests)) else file
  | None => file
  end.
Definition submission : Type := (string * fl * string)%type.
Definition submit (file : option board) (s : submission) : option board :=
  update_leaderboard file (fst (fst s)) (snd (fst s)) (snd s).
Definition submissions (l : list submission) : option board := fold_left submit l None.

(** Curves of experiments: /repo/nevergrad/benchmark/plotting.py:607-890 (XpPlotter.make_data, save_txt, the optimizers which are
    drawn, split_long_title). *)
From Coq Require Import Bool Arith List String Ascii ZArith QArith Lia.
From Verif Require Import Model.Prelude Model.MultiValue Model.Planning Model.Pruning.
Import ListNotations.
Open Scope nat_scope.
Open Scope list_scope.

(** a row of results: optimizer_name, budget, loss (None: NaN).
    Simplification: exact and finite losses *)
Record row : Type := Row { r_opt : string; r_budget : Z; r_loss : option Q }.

(** keys of a groupby are sorted, each once *)
Fixpoint zadd (b : Z) (l : list Z) : list Z :=
  match l with
  | [] => [b]
  | c :: l' => if (b <? c)%Z then b :: l else if (b =? c)%Z then l else c :: zadd b l'
  end.
Definition budgets (o : string) (rows : list row) : list Z :=
  fold_right zadd [] (map r_budget (filter (fun r => String.eqb o (r_opt r)) rows)).
(** the losses of a group which are not NaN *)
Definition losses (o : string) (b : Z) (rows : list row) : list Q :=
  flat_map (fun r => if String.eqb o (r_opt r) && (b =? r_budget r)%Z
                     then match r_loss r with Some x => [x] | None => [] end else []) rows.

(** groupby.median() and groupby.mean(), NaN skipped: plotting.py:818 *)
Definition median (l : list Q) : option Q :=
  let s := qsort l in
  let n := List.length s in
  match nth_error s ((n - 1) / 2), nth_error s (n / 2) with
  | Some a, Some b => Some ((a + b) / 2)%Q
  | _, _ => None
  end.
Definition mean (l : list Q) : option Q :=
  match l with [] => None | _ => Some (qsum l / qnat (List.length l))%Q end.
(** groupby.std() squared: plotting.py:820 *)
Definition variance (l : list Q) : option Q :=
  match mean l with
  | Some m => if List.length l <=? 1 then None
              else Some (qsum (map (fun x => (x - m) * (x - m))%Q l) / qnat (List.length l - 1))%Q
  | None => None
  end.

(** one point of a curve: budget, loss, squared loss_std, loss_nums *)
Record point : Type := Point { p_budget : Z; p_loss : option Q; p_var : option Q; p_nums : nat }.
(** make_data without normalized losses: plotting.py:811-832; [no_limit] is a global of the module; [names] are the elements of
    the set df.unique("optimizer_name"), in any order *)
Definition curve (no_limit : bool) (rows : list row) (o : string) : list point :=
  map (fun b => let l := losses o b rows in
                Point b (if no_limit then mean l else median l) (variance l) (List.length l)) (budgets o rows).
Definition make_data (no_limit : bool) (names : list string) (rows : list row) : list (string * list point) :=
  map (fun o => (o, curve no_limit rows o)) names.

(** save_txt: plotting.py:845-851; None is the infinite loss of the default value (inf, "none") *)
Definition entry : Type := (Z * (option Q * string))%type.
Fixpoint bget (b : Z) (d : list entry) : option Q * string :=
  match d with [] => (None, "none"%string) | (c, v) :: d' => if (b =? c)%Z then v else bget b d' end.
Fixpoint bset (b : Z) (v : option Q * string) (d : list entry) : list entry :=
  match d with [] => [(b, v)] | (c, w) :: d' => if (b =? c)%Z then (c, v) :: d' else (c, w) :: bset b v d' end.
Definition below (l : option Q) (best : option Q) : bool :=
  match l, best with
  | Some x, Some y => qlt x y
  | Some _, None => true
  | None, _ => false
  end.
Definition txt_step (o : string) (d : list entry) (p : point) : list entry :=
  let cur := bget (p_budget p) d in
  let d := bset (p_budget p) cur d in (* reading a defaultdict creates the entry *)
  if below (p_loss p) (fst cur) then bset (p_budget p) (p_loss p, o) d else d.
Definition save_txt (vals : list (string * list point)) : list entry :=
  fold_left (fun d oc => fold_left (txt_step (fst oc)) (snd oc) d) vals [].

(** sorted(optim_vals, key=last loss, reverse=True): plotting.py:639; equal ones stay in order *)
Fixpoint dinsert (x : string * Q) (l : list (string * Q)) : list (string * Q) :=
  match l with
  | [] => [x]
  | y :: l' => if qle (snd y) (snd x) then x :: l else y :: dinsert x l'
  end.
Definition ranking (l : list (string * Q)) : list (string * Q) := fold_right dinsert [] l.
(** the optimizers drawn: plotting.py:671-675 *)
Definition drawn (l : list (string * Q)) : list (string * Q) :=
  let s := ranking l in
  if 35 <? List.length s then firstn 1 s ++ skipn (List.length s - 35) s else s.

(** split_long_title: plotting.py:881-890 *)
Fixpoint comma_indices (i : nat) (t : list ascii) : list nat :=
  match t with [] => [] | c :: t' => if Ascii.eqb c "," then i :: comma_indices (S i) t' else comma_indices (S i) t' end.
Definition absdiff (a b : nat) : nat := (a - b) + (b - a).
(** comma_indices[np.argmin(...)]: the first closest one *)
Fixpoint closest (m : nat) (best : nat) (l : list nat) : nat :=
  match l with [] => best | i :: l' => closest m (if absdiff i m <? absdiff best m then i else best) l' end.
Definition newline : ascii := "010"%char.
Definition split_long_title (t : list ascii) : list ascii :=
  if List.length t <=? 60 then t
  else match comma_indices 0 t with
       | [] => t
       | i :: l => let b := closest (List.length t / 2) i l in firstn (b + 1) t ++ [newline] ++ skipn (b + 1) t
       end.

(** Model of the placement of the legends of a plot (nevergrad/benchmark/plotting.py:1005-1092, [LegendGroup] and
    [compute_best_placements]).  Numbers are exact rationals. *)
From Coq Require Import List Arith QArith Bool.
From Verif.Model Require Import Prelude MultiValue.
Import ListNotations.
Open Scope nat_scope.

(** :1005-1028; the attribute [min_diff], which is the same for all, is an argument *)
Record group : Type := Group { g_indices : list nat; g_init : list Q; g_position : Q }.
Definition pairs {A} (l : list A) : list (A * A) := combine (tl l) (removelast l).
Definition qsum (l : list Q) : Q := fold_right Qplus 0%Q l.
(** :1021-1028 [__init__] *)
Definition new_group (indices : list nat) (init : list Q) : result group :=
  if negb (forallb (fun p => fst p =? S (snd p)) (pairs indices)) then Err AssertionError else
  if negb (forallb (fun p => qle (snd p) (fst p)) (pairs init)) then Err AssertionError else
  if negb (length indices =? length init) then Err AssertionError else
  Ok (Group indices init (qsum init / qnat (length init))).
Section Placements.
  Variable min_diff : Q.
  (** :1030-1034 *)
  Definition combine_with (a b : group) : result group := new_group (g_indices a ++ g_indices b) (g_init a ++ g_init b).
  (** :1040-1043 *)
  Definition half_span (g : group) : Q := (qnat (length (g_indices g)) * min_diff / 2)%Q.
  Definition lower (g : group) : Q := (g_position g - half_span g)%Q.
  Definition upper (g : group) : Q := (g_position g + half_span g)%Q.
  (** :1036-1038 *)
  Definition get_positions (g : group) : list Q :=
    let first := (lower g + min_diff / 2)%Q in
    map (fun k => (first + qnat k * min_diff)%Q) (seq 0 (length (g_indices g))).
  (** :1075-1087: one run of the for loop; [acc]: the groups which were kept.  None: no groups overlap. *)
  Fixpoint scan (acc gs : list group) : option (result (list group)) :=
    match gs with
    | g :: (h :: rest) as gs' =>
        if qlt (lower h) (upper g) then Some (bind (combine_with g h) (fun c => Ok (acc ++ c :: rest)))
        else scan (acc ++ [g]) gs'
    | _ => None
    end.
  (** :1072-1087 the while loop *)
  Fixpoint merge (fuel : nat) (gs : list group) : result (list group) :=
    match fuel with
    | 0 => Err OutOfFuel
    | S fuel => match scan [] gs with None => Ok gs | Some r => bind r (merge fuel) end
    end.
  (** :1069 *)
  Fixpoint singles (k : nat) (positions : list Q) : result (list group) :=
    match positions with
    | [] => Ok []
    | x :: l => bind (new_group [k] [x]) (fun g => bind (singles (S k) l) (fun gs => Ok (g :: gs)))
    end.
  (** new_positions[i] = v *)
  Fixpoint set_at (l : list Q) (i : nat) (v : Q) : result (list Q) :=
    match l, i with
    | [], _ => Err IndexError
    | _ :: l, 0 => Ok (v :: l)
    | x :: l, S i => bind (set_at l i v) (fun l => Ok (x :: l))
    end.
  Fixpoint set_all (l : list Q) (ivs : list (nat * Q)) : result (list Q) :=
    match ivs with [] => Ok l | (i, v) :: ivs => bind (set_at l i v) (fun l => set_all l ivs) end.
  Fixpoint place (l : list Q) (gs : list group) : result (list Q) :=
    match gs with [] => Ok l | g :: gs => bind (set_all l (combine (g_indices g) (get_positions g))) (fun l => place l gs) end.
  (** :1049-1092; each turn of the while loop but the last one removes a group *)
  Definition compute_best_placements (positions : list Q) : result (list Q) :=
    if negb (forallb (fun p => qle (snd p) (fst p)) (pairs positions)) then Err AssertionError else
    bind (singles 0 positions) (fun gs => bind (merge (S (length gs)) gs) (fun gs => place positions gs)).
End Placements.
(** :1088-1091 when all the positions are integers: the copy is then an array of integers, and numpy truncates what is put
    into it (simplified: truncated at the end, since each index is assigned once) *)
Definition truncate (q : Q) : Z := Z.quot (Qnum q) (Zpos (Qden q)).
Definition compute_best_placements_integers (min_diff : Q) (positions : list Z) : result (list Z) :=
  bind (compute_best_placements min_diff (map inject_Z positions)) (fun r => Ok (map truncate r)).

(** Vocabulary for constraints applied when reading a value. *)
From Coq Require Import QArith List.
From Verif.Model Require Import Prelude MultiValue ConstraintLayer.
Import ListNotations.

(** The documented convention: "positive if the constraint is not satisfied, null or negative otherwise". *)
Definition meets (a : answer) : Prop :=
  match a with ANum q => (q <= 0)%Q | AVec l => Forall (fun q => q <= 0)%Q l | _ => False end.
(** By how much a number misses the constraint. *)
Definition excess (a : answer) : Q :=
  match a with ANum q => qmin huge (qmax 0 q) | _ => huge end.
(** The same for several constraints. *)
Definition misses (a : answer) : list Q := match a with AVec l => map (qmax 0) l | _ => [] end.
Definition numeric (a : answer) : Prop := match a with ANum _ | ANan => True | _ => False end.
Definition vector (d : nat) (a : answer) : Prop := match a with AVec l => length l = d | _ => False end.

(** An optimizer which recommends the best point it was told (C07), and nothing of its own. *)
Definition recommends_best {V} (opt : searcher V) : Prop :=
  forall h, own opt h = None /\ (h = [] -> best opt h = None) /\
    (h <> [] -> exists v l, best opt h = Some (v, l) /\ In (v, l) h /\ forall w m, In (w, m) h -> (hd 0 l <= hd 0 m)%Q).

(** The points are those proposed, one after the other, each evaluated once. *)
Definition proposed {V} (opt : searcher V) (told : V -> list Q) (tried : list V) : Prop :=
  forall i v, nth_error tried i = Some v -> v = propose opt (map (fun w => (w, told w)) (firstn i tried)).
(** [tried] ends with the first point for which [P] holds, or has length [n] and no such point. *)
Definition until {V} (P : V -> Prop) (n : nat) (tried : list V) : Prop :=
  (exists before v, tried = before ++ [v] /\ (length tried <= n)%nat /\ P v /\ Forall (fun w => ~ P w) before) \/
  (length tried = n /\ Forall (fun w => ~ P w) tried).

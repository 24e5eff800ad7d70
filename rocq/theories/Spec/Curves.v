(** Vocabulary for the curves of experiments. *)
From Coq Require Import Arith List String Ascii ZArith QArith Sorting.Permutation Sorting.Sorted.
From Verif Require Import Model.MultiValue Model.Planning Model.Curves.
Import ListNotations.
Open Scope nat_scope.
Open Scope list_scope.

(** [l] are the losses (not NaN) of the rows of this optimizer and budget, in order *)
Inductive group_losses (o : string) (b : Z) : list row -> list Q -> Prop :=
| gl_nil : group_losses o b [] []
| gl_take rows l x : group_losses o b rows l -> group_losses o b (Row o b (Some x) :: rows) (x :: l)
| gl_skip r rows l : group_losses o b rows l -> r_opt r <> o \/ r_budget r <> b \/ r_loss r = None ->
    group_losses o b (r :: rows) l.

(** the middle of the sorted values *)
Definition is_median (l : list Q) (m : Q) : Prop :=
  exists s a c, Permutation s l /\ StronglySorted Qle s /\
    nth_error s ((List.length l - 1) / 2) = Some a /\ nth_error s (List.length l / 2) = Some c /\ m == (a + c) / 2.
Definition is_mean (l : list Q) (m : Q) : Prop := m * inject_Z (Z.of_nat (List.length l)) == qsum l.
Definition is_variance (l : list Q) (v : Q) : Prop := exists m, is_mean l m /\
  v * inject_Z (Z.of_nat (List.length l - 1)) == qsum (map (fun x => (x - m) * (x - m))%Q l).

(** the curves have a point for this optimizer at this budget, with this loss *)
Definition reached (vals : list (string * list point)) (o : string) (b : Z) (x : option Q) : Prop :=
  exists c p, In (o, c) vals /\ In p c /\ p_budget p = b /\ p_loss p = x.

(** Vocabulary for the helpers of parametrizations. *)
From Coq Require Import Reals List.
From Verif.Model Require Import Prelude RTransforms DataParam Helpers.
From Verif.Spec Require Import DataParam.
Import ListNotations.
Open Scope R_scope.

(** The value at the fraction [u] between two bounds, if both are given: in proportion, or on the logarithmic scale. *)
Definition linear (lo hi : option R) : option (R -> R) :=
  match lo, hi with Some l, Some h => Some (fun u => l + (h - l) * u) | _, _ => None end.
Definition geometric (lo hi : option R) : option (R -> R) :=
  match lo, hi with Some l, Some h => Some (fun u => exp (ln l + (ln h - ln l) * u)) | _, _ => None end.
(** The numbers made by the constructors or by [set_bounds]: the way values out of the bounds are treated, and the value at a
    fraction of the range. *)
Inductive made : data -> method -> option (R -> R) -> Prop :=
| made_plain make init lo hi d : make = new_scalar \/ make = new_array -> make init lo hi = Ok d -> made d Bouncing (linear lo hi)
| made_bounds v s m lo hi full d : s <> 0 -> set_bounds {| d_raw := v; d_layers := []; d_sigma := s; d_checks := [] |} lo hi m full = (d, None) ->
    made d m (linear lo hi)
| made_log init exponent lo hi d : (forall v, init = Some v -> 0 < v) -> (forall e, exponent = Some e -> 1 < e) -> positive lo hi -> in_order lo hi ->
    new_log init exponent lo hi = Ok d -> made d Bouncing (geometric lo hi).
(** An array of such numbers, all of them with both bounds or none; [ok] tells the accepted ways. *)
Definition regular_with (ok : method -> Prop) (lf : leaf) : Prop :=
  l_coords lf <> [] /\
  ((forall d, In d (l_coords lf) -> exists m f, ok m /\ made d m (Some f)) \/ (forall d, In d (l_coords lf) -> exists m, ok m /\ made d m None)).
Definition regular : leaf -> Prop := regular_with (fun _ => True).
(** all the numbers of a list of arrays *)
Definition numbers (leaves : list leaf) : list data := flat_map l_coords leaves.
(** a relation between three lists, element by element *)
Inductive Forall3 {A B C} (P : A -> B -> C -> Prop) : list A -> list B -> list C -> Prop :=
| Forall3_nil : Forall3 P [] [] []
| Forall3_cons a b c la lb lc : P a b c -> Forall3 P la lb lc -> Forall3 P (a :: la) (b :: lb) (c :: lc).
(** the normalizer of a parameter, as the optimizers make it *)
Definition default_normalizer (leaves : list leaf) : normalizer := {| n_leaves := leaves; n_trans := default_trans; n_only := false; n_working := true |}.

(** The instructions of a [with] block that are executed: those before the first exception. *)
Fixpoint executed {Raw Draw} (body : list (@act Raw Draw)) : list (@act Raw Draw) :=
  match body with [] => [] | Throw _ :: _ => [] | a :: body' => a :: executed body' end.
Fixpoint thrown {Raw Draw} (body : list (@act Raw Draw)) : option exn :=
  match body with [] => None | Throw e :: _ => Some e | _ :: body' => thrown body' end.

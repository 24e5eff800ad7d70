(** Model of [HypervolumePareto] (nevergrad/optimization/multiobjective/core.py:16-176): the single loss given to a vector of losses. Losses and bounds are exact
    rationals, all vectors have the same length. *)
From Coq Require Import QArith Bool List.
From Verif.Model Require Import Prelude MultiValue Pareto Hypervolume.
Import ListNotations.
Open Scope nat_scope.

(** a returned loss: a number or infinity *)
Inductive loss_t : Type := Fin (q : Q) | Infinity.

(** core.py:52-73: the remaining points of the automatic bounds, the bounds ([None] is the array with the only value minus infinity), the best volume
    ([None] is minus infinity), the front and the option. *)
Record hpareto : Type := HP { hp_auto : nat; hp_bounds : option (list Q); hp_best : option Q; hp_pf : pfront; hp_no : bool }.
Definition hp_init (upper_bounds : option (list Q)) (auto_bound : nat) (no_hypervolume : bool) : hpareto :=
  HP (match upper_bounds with None => auto_bound | Some _ => 0 end) upper_bounds None pf_init no_hypervolume.

(** numpy [(a < b).all()], [np.maximum(a, b)], [(a - b > 0).any()], [np.sum(np.maximum(0, a - b))] *)
Definition vall_lt (a b : list Q) : bool := forallb (fun xy => qlt (fst xy) (snd xy)) (combine a b).
Definition vmax (a b : list Q) : list Q := map (fun xy => qmax (fst xy) (snd xy)) (combine a b).
Definition over (losses bounds : list Q) : bool := existsb (fun xy => qlt 0%Q (fst xy - snd xy)%Q) (combine losses bounds).
Definition vexcess (losses bounds : list Q) : Q := fold_right (fun xy s => qmax 0 (fst xy - snd xy) + s)%Q 0%Q (combine losses bounds).
Definition best_below (best : option Q) (q : Q) : bool := match best with None => true | Some b => qlt b q end.
Definition hp_with_best b s := HP (hp_auto s) (hp_bounds s) b (hp_pf s) (hp_no s).
Definition hp_with_pf f s := HP (hp_auto s) (hp_bounds s) (hp_best s) f (hp_no s).

(** core.py:140-148: the smallest difference to the elements of the front which are nowhere worse; [None] is infinity *)
Definition vmin_diff (a b : list Q) : option Q :=
  match combine a b with
  | [] => None
  | xy :: l => Some (fold_left (fun m xy => qmin m (fst xy - snd xy)%Q) l (fst xy - snd xy)%Q)
  end.
Definition min_opt (a b : option Q) : option Q := match a, b with None, _ => b | _, None => a | Some x, Some y => Some (qmin x y) end.
Definition distance (losses : list Q) (front : list point) : option Q :=
  fold_left (fun d p => if vall_le (pt_losses p) losses then min_opt d (vmin_diff losses (pt_losses p)) else d) front None.

(** core.py:128-149 [_calc_hypervolume] *)
Definition calc_hypervolume (bounds : list Q) (p : point) (s : hpareto) : hpareto * result loss_t :=
  match compute bounds (map pt_losses (pf_pareto (hp_pf s)) ++ [pt_losses p]) with
  | Err e => (s, Err e)
  | Ok new_volume =>
      if best_below (hp_best s) new_volume then (hp_with_pf (pf_add p (hp_pf s)) (hp_with_best (Some new_volume) s), Ok (Fin (- new_volume)%Q))
      else
        let '(f, r) := pf_get_front None SRandom [] (hp_pf s) in
        let s := hp_with_pf f s in
        match r with
        | Err e => (s, Err e)
        | Ok front =>
            match distance (pt_losses p) front with
            | None => (s, Ok (if hp_no s then Fin 0%Q else Infinity))
            | Some dist => if qle 0%Q dist then (s, Ok (Fin (if hp_no s then 0 else - new_volume + dist)%Q)) else (s, Err AssertionError)
            end
        end
  end.

(** core.py:89-126 [add], of a parameter with an array of losses. A bound of minus infinity is exceeded by every vector, by an infinite amount. *)
Definition hp_add (p : point) (s : hpareto) : hpareto * result loss_t :=
  let losses := pt_losses p in
  match hp_auto s with
  | S auto =>
      let s := HP auto (hp_bounds s) (hp_best s) (hp_pf s) (hp_no s) in
      match hp_bounds s with
      | Some b =>
          if vall_lt b losses then (s, Ok Infinity)
          else (HP auto (Some (vmax b losses)) (hp_best s) (pf_add p (hp_pf s)) (hp_no s), Ok (Fin 0%Q))
      | None => (HP auto (Some losses) (hp_best s) (pf_add p (hp_pf s)) (hp_no s), Ok (Fin 0%Q))
      end
  | O =>
      match hp_bounds s with
      | None =>
          match losses with
          | [] => (s, Err IndexError)
          | _ => (if best_below (hp_best s) 0%Q then hp_with_pf (pf_add p (hp_pf s)) s else s, Ok Infinity)
          end
      | Some b =>
          if over losses b then
            let loss := (- vexcess losses b)%Q in
            let s := if best_below (hp_best s) loss then hp_with_best (Some loss) s else s in
            let s := if best_below (hp_best s) 0%Q then hp_with_pf (pf_add p (hp_pf s)) s else s in
            (s, Ok (Fin (- loss)%Q))
          else if hp_no s then (hp_with_pf (pf_add p (hp_pf s)) s, Ok (Fin 0%Q))
          else calc_hypervolume b p s
      end
  end.

(** core.py:151-173 [pareto_front] *)
Definition hp_front (size : option nat) (subset : subset_t) (draws : list (list nat)) (s : hpareto) : hpareto * result (list point) :=
  let '(f, r) := pf_get_front size subset draws (hp_pf s) in (hp_with_pf f s, r).

Inductive hp_op : Type := HAdd (p : point) | HFront (size : option nat) (subset : subset_t) (draws : list (list nat)).
Definition hp_step (s : hpareto) (o : hp_op) : hpareto :=
  match o with HAdd p => fst (hp_add p s) | HFront size subset draws => fst (hp_front size subset draws s) end.
Definition hp_run (ops : list hp_op) (s : hpareto) : hpareto := fold_left hp_step ops s.
(** core.py:83-87 [extend] *)
Fixpoint hp_extend (output : loss_t) (ps : list point) (s : hpareto) : hpareto * result loss_t :=
  match ps with
  | [] => (s, Ok output)
  | p :: ps' => match hp_add p s with (s, Ok l) => hp_extend l ps' s | (s, Err e) => (s, Err e) end
  end.

(** Model of [ParetoFront] (nevergrad/optimization/multiobjective/core.py).
    A parameter is its identity and its vector of losses; losses are rationals and
    all vectors have the same length (see C05), so that numpy compares them
    coordinate by coordinate. *)
From Coq Require Import List Arith QArith Bool.
From Verif.Model Require Import Prelude MultiValue.
Import ListNotations.

Definition point : Type := (nat * list Q)%type.
Definition pt_losses (p : point) : list Q := snd p.

(** numpy [(a <= b).all()] and [(a < b).any()] *)
Definition vall_le (a b : list Q) : bool := forallb (fun xy => qle (fst xy) (snd xy)) (combine a b).
Definition vany_lt (a b : list Q) : bool := existsb (fun xy => qlt (fst xy) (snd xy)) (combine a b).

(** multiobjective/core.py:202 *)
Definition dominates (other param : point) : bool :=
  vall_le (pt_losses other) (pt_losses param) && vany_lt (pt_losses other) (pt_losses param).

(** multiobjective/core.py:179-190 [ParetoFront.__init__] *)
Record pfront : Type := PF { pf_pareto : list point; pf_needs_filtering : bool }.
Definition pf_init : pfront := PF [] false.

(** multiobjective/core.py:192-194 [add_to_pareto] *)
Definition pf_add (p : point) (s : pfront) : pfront := PF (pf_pareto s ++ [p]) true.

(** multiobjective/core.py:196-209 [_filter_pareto_front] *)
Definition pf_filter (s : pfront) : pfront :=
  PF (filter (fun param => negb (existsb (fun other => dominates other param) (pf_pareto s))) (pf_pareto s)) false.

(** [rng.choice(pareto, size)]: draws with replacement; [draw] are the indices. *)
Definition choice (l : list point) (draw : list nat) : list point :=
  flat_map (fun i => match nth_error l i with Some p => [p] | None => [] end) draw.

(** first index of the smallest element, [scores.index(min(scores))] *)
Fixpoint argmin_from (i : nat) (best : nat) (bv : Q) (l : list Q) : nat :=
  match l with
  | [] => best
  | x :: l' => if qlt x bv then argmin_from (S i) i x l' else argmin_from (S i) best bv l'
  end.
Definition argminQ (l : list Q) : option nat :=
  match l with [] => None | x :: l' => Some (argmin_from 1 0 x l') end.

(** The subset methods: [SRandom], or a score for each tentative
    (loss-covering, EPS, domain-covering, hypervolume); [SHypervolume] is the one
    which needs an indicator, [SUnknown] any other string. *)
Inductive subset_t : Type := SRandom | SScored (score : list point -> list point -> Q) | SHypervolume (hv : option (list point -> Q)) | SUnknown.

(** multiobjective/core.py:246-266, scores of a tentative: the epsilon indicator... *)
Definition vmax_diff (a b : list Q) : Q :=
  match combine a b with
  | [] => 0%Q
  | xy :: l => fold_left (fun m xy => qmax m (fst xy - snd xy)%Q) l (fst xy - snd xy)%Q
  end.
Definition eps_best (tentative : list point) (v : point) : Q :=
  fold_left (fun best pa => qmin best (vmax_diff (pt_losses pa) (pt_losses v))) tentative 0%Q.
Definition eps_score (front tentative : list point) : Q :=
  fold_left (fun score v => (score + qmax score (eps_best tentative v))%Q) front 0%Q.
(** ... and the loss covering one. The code takes the smallest Euclidean distance,
    then squares it: the model takes the smallest squared distance. A tentative
    without element, which the code scores infinity, is not scored by this model. *)
Definition sqdist (a b : list Q) : Q :=
  fold_left (fun acc xy => (acc + (fst xy - snd xy) * (fst xy - snd xy))%Q) (combine a b) 0%Q.
Definition cover_best (tentative : list point) (v : point) : Q :=
  match tentative with
  | [] => 0%Q
  | pa :: l => fold_left (fun best pa => qmin best (sqdist (pt_losses pa) (pt_losses v))) l (sqdist (pt_losses pa) (pt_losses v))
  end.
Definition cover_score (front tentative : list point) : Q :=
  fold_left (fun score v => (score + cover_best tentative v)%Q) front 0%Q.

(** multiobjective/core.py:215-268 [get_front]; [draws] are the results of the
    successive calls to [rng.choice]. An empty list of tentatives makes [min]
    raise ValueError. *)
Definition pf_get_front (size : option nat) (subset : subset_t) (draws : list (list nat)) (s : pfront)
  : pfront * result (list point) :=
  let s := if pf_needs_filtering s then pf_filter s else s in
  let front := pf_pareto s in
  match size with
  | None => (s, Ok front)
  | Some n =>
      if (length front <=? n)%nat then (s, Ok front)
      else
        let tentatives := map (choice front) draws in
        let pick (scores : list Q) :=
          match argminQ scores with
          | None => Err ValueError
          | Some i => match nth_error tentatives i with Some t => Ok t | None => Err IndexError end
          end in
        (s, match subset with
            | SRandom => match tentatives with t :: _ => Ok t | [] => Err IndexError end
            | SScored score => pick (map (fun t => score front t) tentatives)
            | SHypervolume None => Err RuntimeError
            | SHypervolume (Some hv) => pick (map (fun t => - hv t)%Q tentatives)
            | SUnknown => match tentatives with
                          | [] => Err ValueError
                          | [] :: _ => pick (map (fun _ => 0%Q) tentatives)
                          | _ => Err ValueError
                          end
            end)
  end.

Inductive pf_op : Type := PAdd (p : point) | PFront (size : option nat) (subset : subset_t) (draws : list (list nat)).
Definition pf_step (s : pfront) (o : pf_op) : pfront :=
  match o with
  | PAdd p => pf_add p s
  | PFront size subset draws => fst (pf_get_front size subset draws s)
  end.
Definition pf_run (ops : list pf_op) : pfront := fold_left pf_step ops pf_init.
Definition pf_added (ops : list pf_op) : list point :=
  flat_map (fun o => match o with PAdd p => [p] | _ => [] end) ops.

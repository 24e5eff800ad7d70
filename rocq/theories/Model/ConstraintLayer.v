(** The operator which tries to satisfy a constraint when the value of a parameter is read: nevergrad/ops/constraints.py,
    [register_cheap_constraint(..., as_layer=True)] of nevergrad/parametrization/core.py:326-360. The points are any type;
    the optimizer of the search is any rule for proposing, and for choosing among the best told. Losses are exact. *)
From Coq Require Import Arith ZArith QArith Bool List.
From Verif.Model Require Import Prelude MultiValue Pareto Hypervolume HypervolumePareto.
Import ListNotations.
Open Scope nat_scope.

(** what the user's function returns, or raises *)
Inductive answer : Type := ABool (b : bool) | ANum (q : Q) | ANan | AVec (l : list Q) | ARaise (e : exn).
(** optimization/base.py:342: losses from there on are told as this number *)
Definition huge : Q := inject_Z (5 * 10 ^ 20).
(** constraints.py:56-62 [function], with the clipping of [tell] (base.py:337-349): a number stays below [huge] and nan becomes it (nan
    is not zero: [np.any] holds for it as for [huge]) *)
Definition losses (a : answer) : result (list Q) :=
  match a with
  | ABool _ => Err TypeError
  | ANum q => Ok [if qlt (qmax 0 q) huge then qmax 0 q else huge]
  | ANan => Ok [huge]
  | AVec l => Ok (map (qmax 0) l)
  | ARaise e => Err e
  end.
(** [not np.any(losses > 0)]; losses are not negative *)
Definition satisfied (l : list Q) : bool := forallb (fun x => qle x 0%Q) l.

Section Layer.
Variable V : Type.
Definition history : Type := list (V * list Q).
(** The optimizer: the next point to try, the point it recommends by itself if any (an array: the recommended parameter then is a new one,
    without loss, base.py:584-591), and the best of the points told, for a single loss (C07). *)
Record searcher : Type := { propose : history -> V; own : history -> option V; best : history -> option (V * list Q) }.
Variable opt : searcher.
Variable f : V -> answer.

(** base.py:165-185, :368, :384-387, :433-438: a vector of losses goes to the Pareto front, with 15 points for its bounds *)
Definition tell (h : history) (s : hpareto) (v : V) (l : list Q) : result (history * hpareto) :=
  match l, h with
  | [], _ => Err ValueError
  | _, (_, l0) :: _ => if negb (length l =? length l0) then Err ValueError else
      match l with
      | [_] => Ok (h ++ [(v, l)], s)
      | _ => match hp_add (length h, l) s with (s', Ok _) => Ok (h ++ [(v, l)], s') | (_, Err e) => Err e end
      end
  | [_], [] => Ok ([(v, l)], s)
  | _, [] => match hp_add (0, l) s with (s', Ok _) => Ok ([(v, l)], s') | (_, Err e) => Err e end
  end.
(** base.py:231-238, :571-591 [pareto_front()[0]]: the point and its losses, if it has some. Before any [tell] it is the parametrization. *)
Definition front0 (start : V) (h : history) (s : hpareto) : result (V * option (list Q)) * hpareto :=
  match h with
  | (_, _ :: _ :: _) :: _ =>
      let '(s, r) := hp_front None SRandom [] s in
      (match r with
       | Err e => Err e
       | Ok [] => Err RuntimeError
       | Ok ((i, l) :: _) => match nth_error h i with Some (v, _) => Ok (v, Some l) | None => Err IndexError end
       end, s)
  | _ => (match own opt h with
          | Some v => Ok (v, None)
          | None => match best opt h with Some (v, l) => Ok (v, Some l) | None => Ok (start, None) end
          end, s)
  end.
(** constraints.py:72-79 [stopping_criterion]; core.py:79-93 [losses] *)
Definition stop (start : V) (h : history) (s : hpareto) : result bool * hpareto :=
  match h with
  | [] => (Ok false, s)
  | _ => match front0 start h s with
         | (Ok (_, Some l), s) => (Ok (satisfied l), s)
         | (Ok (_, None), s) => (Err RuntimeError, s)
         | (Err e, s) => (Err e, s)
         end
  end.
(** constraints.py:47-54 [apply_constraint]: [minimize] (base.py:687-741) with one worker, every [ask] beginning with the criterion *)
Fixpoint search (start : V) (budget : nat) (h : history) (s : hpareto) : history * hpareto * result unit :=
  match budget with
  | O => (h, s, Ok tt)
  | S budget =>
      match stop start h s with
      | (Err e, s) => (h, s, Err e)
      | (Ok true, s) => (h, s, Ok tt)
      | (Ok false, s) =>
          let v := propose opt h in
          match losses (f v) with
          | Err e => (h, s, Err e)
          | Ok l => match tell h s v l with
                    | Err e => (h, s, Err e)
                    | Ok (h, s) => search start budget h s
                    end
          end
      end
  end.
(** A constrained parameter: the point without the layer, the cache of the layer, whether it is frozen *)
Record par : Type := { data : V; cache : option V; frozen : bool }.
(** constraints.py:81-94 [_layered_get_value]: the parameter after, the points evaluated, the value. core.py:217-224, :457-467: changing a
    frozen parameter raises. *)
Definition read (budget : nat) (p : par) : par * list V * result V :=
  match cache p with
  | Some v => (p, [], Ok v)
  | None =>
      match losses (f (data p)) with
      | Err e => (p, [data p], Err e)
      | Ok l =>
          if satisfied l then ({| data := data p; cache := Some (data p); frozen := frozen p |}, [data p], Ok (data p))
          else
            let '(h, s, r) := search (data p) budget [] (hp_init None 15 false) in
            let tried := data p :: map fst h in
            match r with
            | Err e => (p, tried, Err e)
            | Ok _ => match fst (front0 (data p) h s) with
                      | Err e => (p, tried, Err e)
                      | Ok (v, _) => if frozen p then (p, tried, Err RuntimeError)
                                     else ({| data := v; cache := Some v; frozen := false |}, tried, Ok v)
                      end
            end
      end
  end.
(** core.py:409-435 [copy]: unfrozen, without cache *)
Definition copy (p : par) : par := {| data := data p; cache := None; frozen := false |}.
(** [parameter.value = v] (_layering.py:183-190), with data that accept the value: the cache is cleared, then a frozen one raises.
    core.py:452-455 [freeze] *)
Definition assign (p : par) (v : V) : par * result unit :=
  if frozen p then ({| data := data p; cache := None; frozen := true |}, Err RuntimeError) else ({| data := v; cache := None; frozen := false |}, Ok tt).
Definition freeze (p : par) : par := {| data := data p; cache := cache p; frozen := true |}.
End Layer.
Arguments propose {V} s h. Arguments own {V} s h. Arguments best {V} s h. Arguments data {V} p. Arguments cache {V} p. Arguments frozen {V} p.
Arguments copy {V} p. Arguments assign {V} p v. Arguments freeze {V} p. Arguments read {V} opt f budget p. Arguments search {V} opt f start budget h s. Arguments tell {V} h s v l. Arguments front0 {V} opt start h s. Arguments stop {V} opt start h s.

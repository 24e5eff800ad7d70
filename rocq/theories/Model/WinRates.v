(** Win rates of optimizers in benchmarks: nevergrad/benchmark/plotting.py:67-134 and :938-992. Means and rates are exact rationals (the code
    has floats); optimizers are numbers, and the value of a descriptor an integer. *)
From Coq Require Import Arith ZArith QArith Qround Bool List.
From Verif.Model Require Import Prelude MultiValue Nsga2 Mutation.
Import ListNotations.
Open Scope nat_scope.

(** A run: the optimizer, the descriptors by column, and the loss, [None] for infinity (nan are removed before, [remove_errors]) *)
Record run : Type := { who : nat; col : nat -> Z; loss : option Q }.
Definition sumQ (l : list Q) : Q := fold_right Qplus 0%Q l.
(** [groupby(["optimizer_name"]).mean()] : no entry for an optimizer without run *)
Fixpoint finite (l : list (option Q)) : option (list Q) :=
  match l with
  | [] => Some []
  | Some x :: l => match finite l with Some m => Some (x :: m) | None => None end
  | None :: _ => None
  end.
Definition mean (df : list run) (i : nat) : option (option Q) :=
  match map loss (filter (fun r => who r =? i) df) with
  | [] => None
  | l => Some (match finite l with Some m => Some (sumQ m / qnat (length m))%Q | None => None end)
  end.
(** plotting.py:79-83: [(diffs < 0) + 0.5 * (diffs == 0)], 0 without run. The difference of two infinities is nan. *)
Definition duel (a b : option (option Q)) : Q :=
  match a, b with
  | Some (Some x), Some (Some y) => if qlt (x - y) 0 then 1 else if Qeq_bool (x - y) 0 then 1 # 2 else 0
  | Some (Some _), Some None => 1
  | _, _ => 0
  end%Q.
Definition matrix : Type := nat -> nat -> Q.
(** plotting.py:67-84 [_make_winners_df] *)
Definition winners (df : list run) (all : list nat) : result matrix :=
  if forallb (fun r => existsb (Nat.eqb (who r)) all) df then Ok (fun i j => duel (mean df i) (mean df j)) else Err AssertionError.
(** plotting.py:86-120 [aggregate_winners]; the set of values comes in any order, which does not matter for the sum. Without row there is
    nothing to unpack. *)
Fixpoint aggregate (df : list run) (categories : list nat) (all : list nat) : result (matrix * nat) :=
  match categories with
  | [] => bind (winners df all) (fun m => Ok (m, 1))
  | c :: categories =>
      match nodup Z.eq_dec (map (fun r => col r c) df) with
      | [] => Err ValueError
      | [_] => aggregate df categories all
      | vals => bind (map_result (fun v => aggregate (filter (fun r => Z.eqb (col r c) v) df) categories all) vals)
                  (fun l => Ok (fun i j => sumQ (map (fun mn => fst mn i j) l), list_sum (map snd l)))
      end
  end.
(** plotting.py:122-134 [_make_sorted_winrates_df]: the largest number of comparisons of [j] with one opponent... *)
Fixpoint maxQ (l : list Q) : Q := match l with [] => 0%Q | [x] => x | x :: l => qmax x (maxQ l) end.
Definition comparisons (v : matrix) (all : list nat) (j : nat) : Q := maxQ (map (fun k => v j k + v k j)%Q all).
(** ... divides column [j]: pandas aligns the series with the columns. [None] is nan: zero over zero. *)
Definition rate (v : matrix) (all : list nat) (i j : nat) : option Q :=
  if Qeq_bool (comparisons v all j) 0 then None else Some (v i j / comparisons v all j)%Q.
(** [winrates.mean(axis=1)] skips nan *)
Definition somes {A} (l : list (option A)) : list A := flat_map (fun o => match o with Some x => [x] | None => [] end) l.
Definition row_mean (v : matrix) (all : list nat) (i : nat) : option Q :=
  match somes (map (rate v all i) all) with [] => None | l => Some (sumQ l / qnat (length l))%Q end.
(** [sort_values(ascending=False)], nan last; the order of ties, unspecified, is the one of [all] here *)
Definition above (a b : option Q) : bool := match a, b with Some x, Some y => qlt y x | Some _, None => true | None, _ => false end.
Definition ranking (v : matrix) (all : list nat) : list nat :=
  stable_sort (fun i j => negb (above (row_mean v all j) (row_mean v all i))) all.
(** plotting.py:938-992 [winrates_from_selection]: the optimizers from best to worst, their rates, the numbers of cases of each and in total. The
    cut to [num_rows] rows and [num_cols] columns, and the text of the labels, are not modelled. *)
Record fight : Type := { ranked : list nat; rates : nat -> nat -> option Q; played : nat -> Z; total : nat }.
Definition twice_self (v : matrix) (i : nat) : Z := Qfloor (2 * v i i).
Definition winrates (df : list run) (categories : list nat) (complete_runs_only : bool) : result fight :=
  let all := nodup Nat.eq_dec (map who df) in
  bind (aggregate df categories all) (fun vt =>
  let show (vt : matrix * nat) all := {| ranked := ranking (fst vt) all; rates := rate (fst vt) all; played := twice_self (fst vt); total := snd vt |} in
  if complete_runs_only then
    let best := fold_right Z.max (-1)%Z (map (twice_self (fst vt)) all) in
    let kept := filter (fun i => Z.eqb (twice_self (fst vt) i) best) all in
    bind (aggregate (filter (fun r => existsb (Nat.eqb (who r)) kept) df) categories kept) (fun vt => Ok (show vt kept))
  else Ok (show vt all)).

(** Model of the archive and of the current bests of an optimizer
    (nevergrad/optimization/base.py and utils.py). *)
From Coq Require Import List Arith ZArith QArith Bool.
From Verif.Model Require Import Prelude MultiValue Pruning.
Import ListNotations.

(** State.  MultiValue objects live in [st_heap] and are designated by their
    position, so that the archive and the current bests can share one object.
    - utils.py:177-205 [Archive]: [st_archive] maps the bytes of the standardized
      data of a point (a number here: equal numbers = equal bytes) to an object;
    - base.py:116-119 [current_bests]: [None] is the initial object with loss inf;
    - [st_loss]: attribute [loss] of each candidate object, by uid. *)
Record archst : Type := ArchSt {
  st_heap : list mv;
  st_archive : list (nat * nat);
  st_bests : crit -> option nat;
  st_loss : list (nat * Q) }.

Definition arch_init : archst := ArchSt [] [] (fun _ => None) [].

(** Reading an object.  All identifiers held by a reachable state are valid
    (theorem [C08_identifiers_valid]), the default is never used. *)
Definition hget (h : list mv) (i : nat) : mv := nth i h (MV 0 0 0 0 0 0).

Fixpoint hset (h : list mv) (i : nat) (m : mv) : list mv :=
  match h, i with
  | [], _ => []
  | _ :: h', 0%nat => m :: h'
  | x :: h', S i' => x :: hset h' i' m
  end.

Definition crit_eqb (a b : crit) : bool :=
  match a, b with
  | Optimistic, Optimistic | Pessimistic, Pessimistic | Average, Average | Minimum, Minimum => true
  | _, _ => false
  end.

Section Arch.
  Variable msqrt : Q -> Q.
  (** [self.pruning], an arbitrary callable reading the objects (base.py:478-479). *)
  Variable pruning : list mv -> list (nat * nat) -> result (list (nat * nat)).

  (** Python [min(values, key=...)]: the first minimal one. *)
  Fixpoint argmin_from (e : nat -> Q) (best : nat) (l : list nat) : nat :=
    match l with
    | [] => best
    | i :: l' => argmin_from e (if qlt (e i) (e best) then i else best) l'
    end.
  Definition argmin (e : nat -> Q) (l : list nat) : option nat :=
    match l with [] => None | i :: l' => Some (argmin_from e i l') end.

  (** base.py:462-469: update of one current best after the point [id] was
      created ([reeval = false]) or re-evaluated ([reeval = true]).
      [mvalue is self.current_bests[name]] can only hold for a re-evaluation. *)
  Definition best_update (h : list mv) (archive : list (nat * nat)) (reeval : bool) (id : nat)
      (n : crit) (cur : option nat) : option nat :=
    let e i := mv_est msqrt n (hget h i) in
    match cur with
    | None => Some id                       (* est <= inf *)
    | Some b =>
        if reeval && (b =? id)%nat then argmin e (map snd archive)
        else if qle (e id) (e b) then Some id else Some b
    end.

  (** base.py:451-458: the point of data [key] is created or re-evaluated.  Returns
      the objects, the archive, the identifier of the point and whether it was
      already in the archive.  Both losses compared in line 457 are set when the
      point is in the archive, so the last branch of the inner match is not used. *)
  Definition archive_put (c key : nat) (loss : Q) (s : archst)
    : list mv * list (nat * nat) * nat * bool :=
    match dget key (st_archive s) with
    | None =>
        (st_heap s ++ [mv_new c loss], st_archive s ++ [(key, length (st_heap s))],
         length (st_heap s), false)
    | Some id =>
        let m := mv_add msqrt loss (hget (st_heap s) id) in
        let m := match dget (mv_param m) (st_loss s), dget c (st_loss s) with
                 | Some l1, Some l2 => if qlt l2 l1
                     then MV (mv_count m) (mv_mean m) (mv_min m) (mv_square m) (mv_var m) c
                     else m
                 | _, _ => m
                 end in
        (hset (st_heap s) id m, st_archive s, id, true)
    end.

  (** base.py:440-479 [_update_archive_and_bests] for a candidate of uid [c] whose
      standardized data is [key].  The loss is a finite number: the type check, and
      the warning for NaN and inf (442-449), are left out.  If the pruning raises,
      everything else has been updated. *)
  Definition update_archive (c key : nat) (loss : Q) (s : archst) : archst * result unit :=
    let '(h, a, id, reeval) := archive_put c key loss s in
    let bests n := best_update h a reeval id n (st_bests s n) in
    match pruning h a with
    | Ok a' => (ArchSt h a' bests (st_loss s), Ok tt)
    | Err e => (ArchSt h a bests (st_loss s), Err e)
    end.

  (** base.py:300-431 [tell], the part concerning the archive: [candidate.loss] is
      set (line 389) then the archive is updated.
      Model/Optimizer.v has the complete [tell]. *)
  Definition arch_tell (s : archst) (op : nat * nat * Q) : archst * result unit :=
    let '(c, key, y) := op in
    update_archive c key y
      (ArchSt (st_heap s) (st_archive s) (st_bests s) (dset c y (st_loss s))).

  Fixpoint arch_run (s : archst) (ops : list (nat * nat * Q)) : archst :=
    match ops with [] => s | o :: ops' => arch_run (fst (arch_tell s o)) ops' end.

  (** base.py:571-591 [recommend] when the algorithm provides no recommendation of
      its own (line 585-587): uid of the recommended candidate, [None] being the
      initial parametrization. *)
  Definition arch_recommend (deterministic : bool) (s : archst) : option nat :=
    match st_bests s (if deterministic then Minimum else Pessimistic) with
    | None => None
    | Some b => Some (mv_param (hget (st_heap s) b))
    end.
End Arch.

(** The default pruning (base.py:122-124): utils.Pruning on the three criteria. *)
Definition default_pruning (msqrt : Q -> Q) (min_len max_len : nat)
  (h : list mv) (a : list (nat * nat)) : result (list (nat * nat)) :=
  prune min_len max_len
    (map (fun n (p : nat * nat) => mv_est msqrt n (hget h (snd p))) [Optimistic; Pessimistic; Average]) a.

(** [self.pruning = None]. *)
Definition no_pruning (h : list mv) (a : list (nat * nat)) : result (list (nat * nat)) := Ok a.

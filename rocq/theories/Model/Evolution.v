(** Model of the populations of [_EvolutionStrategy]
    (nevergrad/optimization/es.py) and [_DE]
    (nevergrad/optimization/differentialevolution.py).

    Candidates are their uids.  Only what concerns the populations is modelled:
    values, mutations and recombinations are left out.  Losses are rationals, [None]
    stands for no loss or an infinite one (both are [inf] for [base._loss],
    base.py:33-37). *)
From Coq Require Import List Arith QArith Bool.
From Verif.Model Require Import Prelude MultiValue UidQueue.
Import ListNotations.

(** Comparison of losses, [None] being +inf. *)
Definition lo : Type := option Q.
Definition lo_le (a b : lo) : bool :=
  match a, b with
  | _, None => true
  | None, Some _ => false
  | Some x, Some y => qle x y
  end.
Definition lo_lt (a b : lo) : bool := negb (lo_le b a).

(** The candidates existing so far: heritage["lineage"], first of [parents_uids],
    and loss (parametrization/core.py:65-66, 443-450). *)
Record cands : Type := Cands {
  ca_lineage : list (nat * nat);
  ca_parent : list (nat * nat);
  ca_loss : list (nat * Q) }.
Definition no_cands : cands := Cands [] [] [].

Definition known (c : nat) (k : cands) : bool := dmem c (ca_lineage k).
(** a parameter without recorded lineage is its own lineage (core.py:66) *)
Definition lineage (c : nat) (k : cands) : nat :=
  match dget c (ca_lineage k) with Some l => l | None => c end.
Definition parent (c : nat) (k : cands) : option nat := dget c (ca_parent k).
(** base.py:33-37 [_loss] *)
Definition loss (c : nat) (k : cands) : lo := dget c (ca_loss k).

Definition new_cand (c lin : nat) (par : option nat) (k : cands) : cands :=
  Cands (dset c lin (ca_lineage k))
        (match par with Some p => dset c p (ca_parent k) | None => ca_parent k end)
        (ca_loss k).
(** [candidate.loss = loss] (base.py:389) *)
Definition set_cand_loss (c : nat) (l : Q) (k : cands) : cands :=
  Cands (ca_lineage k) (ca_parent k) (dset c l (ca_loss k)).

(** What happens to an optimizer: an ask ([u] is the uid of the new candidate), a
    candidate created by the user, a tell ([l0] becomes the loss of the candidate,
    [l] is the loss with penalties passed to the algorithm), a candidate rejected
    by a constraint (base.py:527-528, told as inf to the algorithm). *)
Inductive ev_op : Type :=
| OAsk (u : nat)
| ONew (u lin : nat) (par : option nat)
| OTell (c : nat) (l0 l : Q)
| OReject (c : nat).

(** Python's stable sort by loss. *)
Fixpoint linsert (key : nat -> lo) (x : nat) (l : list nat) : list nat :=
  match l with
  | [] => [x]
  | y :: l' => if lo_le (key x) (key y) then x :: l else y :: linsert key x l'
  end.
Definition lsort (key : nat -> lo) (l : list nat) : list nat := fold_right (linsert key) [] l.

(** es.py:86 [{x.uid: x for x in choices}] *)
Definition uid_dict (l : list nat) : list (nat * nat) := fold_left (fun d x => dset x x d) l [].

Section ES.
  Variable popsize : nat.
  Variable offsprings : option nat.
  Variable only_offsprings : bool.

  (** es.py:33-44: the state; [es_num_ask] is the counter of the base class. *)
  Record est : Type := ESt {
    es_c : cands; es_num_ask : nat;
    es_pop : list (nat * nat); es_q : uq; es_wait : list nat }.
  Definition es_init : est := ESt no_cands 0 [] uq_empty [].

  (** [nsga2.rank] for several objectives: the uids selected, or [None] when the
      sort by loss is used (es.py:81). *)
  Variable rank : est -> list nat -> option (list nat).

  (** es.py:46-60 [_internal_ask_candidate], the new candidate being [u].  The
      draw and recombination of line 57-59 do not change the population. *)
  Definition es_ask (u : nat) (s : est) : est * result nat :=
    if (es_num_ask s <? popsize)%nat then
      (ESt (new_cand u u None (es_c s)) (S (es_num_ask s)) (dset u u (es_pop s))
           (UQ (uq_told (es_q s)) (os_add u (uq_asked (es_q s)))) (es_wait s), Ok u)
    else
      match uq_ask (es_q s) with
      | Err e => (s, Err e)
      | Ok (uid, q) =>
          match dget uid (es_pop s) with
          | None => (ESt (es_c s) (es_num_ask s) (es_pop s) q (es_wait s), Err KeyError)
          | Some p =>
              (ESt (new_cand u (lineage p (es_c s)) (Some p) (es_c s)) (S (es_num_ask s))
                   (es_pop s) q (es_wait s), Ok u)
          end
      end.

  (** es.py:79-90 [_select] *)
  Definition es_choices (s : est) : list nat :=
    es_wait s ++ (if only_offsprings then [] else dvals (es_pop s)).
  Definition es_ranked (s : est) : list nat :=
    match rank s (es_choices s) with
    | Some r => filter (fun x => existsb (Nat.eqb x) r) (es_choices s)
    | None => lsort (fun c => loss c (es_c s)) (es_choices s)
    end.
  Definition es_select (s : est) : est :=
    let pop := uid_dict (firstn popsize (es_ranked s)) in
    ESt (es_c s) (es_num_ask s) pop
        (fold_left (fun q u => uq_tell u q) (dkeys pop) (uq_clear (es_q s))) [].

  (** es.py:62-77 [_internal_tell_candidate] *)
  Definition es_tell (c : nat) (l : lo) (s : est) : est :=
    match offsprings with
    | None =>
        let uid := lineage c (es_c s) in
        let parent_value := match dget uid (es_pop s) with
                            | None => None
                            | Some m => loss m (es_c s)
                            end in
        ESt (es_c s) (es_num_ask s)
            (if lo_lt l parent_value then dset uid c (es_pop s) else es_pop s)
            (uq_tell uid (es_q s)) (es_wait s)
    | Some off =>
        let no_parent := match parent c (es_c s) with
                         | Some p => negb (dmem p (es_pop s))
                         | None => true
                         end in
        let s := if no_parent && (length (es_pop s) <? popsize)%nat
                 then ESt (es_c s) (es_num_ask s) (dset c c (es_pop s)) (uq_tell c (es_q s)) (es_wait s)
                 else ESt (es_c s) (es_num_ask s) (es_pop s) (es_q s) (es_wait s ++ [c]) in
        if (off <=? length (es_wait s))%nat then es_select s else s
    end.

  (** One operation.  A tell of a candidate which was not asked is handled the same
      way (base.py:592-596). *)
  Definition es_step (s : est) (o : ev_op) : est * result nat :=
    match o with
    | OAsk u => es_ask u s
    | ONew u lin par => (ESt (new_cand u lin par (es_c s)) (es_num_ask s) (es_pop s) (es_q s) (es_wait s), Ok u)
    | OTell c l0 l =>
        (es_tell c (Some l) (ESt (set_cand_loss c l0 (es_c s)) (es_num_ask s) (es_pop s) (es_q s) (es_wait s)), Ok c)
    | OReject c => (s, Ok c)      (* ES does not penalise cheap violations *)
    end.

  Fixpoint es_run (s : est) (ops : list ev_op) : est :=
    match ops with [] => s | o :: ops' => es_run (fst (es_step s o)) ops' end.
End ES.

Section DE.
  (** differentialevolution.py:141-144 *)
  Variable llambda : nat.

  (** differentialevolution.py:152-153 *)
  Record dest : Type := DESt { de_c : cands; de_pop : list (nat * nat); de_q : uq }.
  Definition de_init : dest := DESt no_cands [] uq_empty.

  (** differentialevolution.py:182-253 [_internal_ask_candidate]; the values of the
      donors and the crossover do not change the population. *)
  Definition de_ask (u : nat) (s : dest) : dest * result nat :=
    if (length (de_pop s) <? llambda)%nat then
      (DESt (new_cand u u None (de_c s)) (dset u u (de_pop s))
            (UQ (uq_told (de_q s)) (os_add u (uq_asked (de_q s)))), Ok u)
    else
      match uq_ask (de_q s) with
      | Err e => (s, Err e)
      | Ok (lin, q) =>
          match dget lin (de_pop s) with
          | None => (DESt (de_c s) (de_pop s) q, Err KeyError)
          | Some p => (DESt (new_cand u lin (Some p) (de_c s)) (de_pop s) q, Ok u)
          end
      end.

  (** [max(population.items(), key=loss)]: the first maximal one. *)
  Fixpoint worst_from (k : cands) (best : nat * nat) (l : list (nat * nat)) : nat * nat :=
    match l with
    | [] => best
    | x :: l' => worst_from k (if lo_lt (loss (snd best) k) (loss (snd x) k) then x else best) l'
    end.
  Definition worst (k : cands) (l : list (nat * nat)) : option (nat * nat) :=
    match l with [] => None | x :: l' => Some (worst_from k x l') end.

  (** The multiobjective case: the uids of the Pareto front, the order in which the
      set of non Pareto uids is listed, and whether the parent is replaced
      (a random draw). [None] is the single objective case. *)
  Record multi : Type := Multi { mo_pareto : list nat; mo_order : list nat -> list nat; mo_replace : bool }.

  (** differentialevolution.py:281-296: the individual to remove; [max] of an empty
      population is a ValueError (llambda = 0). *)
  Definition de_discardable (mo : option multi) (c : nat) (l : lo) (s : dest) : result (option nat) :=
    if (llambda <=? length (de_pop s))%nat then
      match mo with
      | None =>
          match worst (de_c s) (de_pop s) with
          | None => Err ValueError
          | Some (uid, w) => Ok (if lo_lt l (loss w (de_c s)) then Some uid else None)
          end
      | Some m =>
          if existsb (Nat.eqb c) (mo_pareto m) then
            match mo_order m (filter (fun x => negb (existsb (Nat.eqb x) (mo_pareto m))) (dvals (de_pop s))) with
            | [] => Ok None
            | x :: _ => Ok (Some (lineage x (de_c s)))
            end
          else Ok None
      end
    else Ok None.

  (** differentialevolution.py:281-304 [_internal_tell_not_asked] *)
  Definition de_tell_not_asked (mo : option multi) (c : nat) (l : lo) (s : dest) : dest * result unit :=
    match de_discardable mo c l s with
    | Err e => (s, Err e)
    | Ok d =>
        let '(s, r) :=
          match d with
          | None => (s, Ok tt)
          | Some uid =>
              if dmem uid (de_pop s) then
                let s := DESt (de_c s) (ddel uid (de_pop s)) (de_q s) in
                match uq_discard uid (de_q s) with
                | Ok q => (DESt (de_c s) (de_pop s) q, Ok tt)
                | Err e => (s, Err e)
                end
              else (s, Err KeyError)
          end in
        match r with
        | Err e => (s, Err e)
        | Ok _ =>
            if (length (de_pop s) <? llambda)%nat
            then (DESt (de_c s) (dset c c (de_pop s)) (uq_tell c (de_q s)), Ok tt)
            else (s, Ok tt)
        end
    end.

  (** differentialevolution.py:255-279 [_internal_tell_candidate]; the heritage
      propagation (277-279) only concerns the lineage, which gets the key: this is
      [fix_lineage]. *)
  Variable propagate_heritage : bool.
  Definition de_tell (mo : option multi) (c : nat) (l : lo) (s : dest) : dest * result unit :=
    let uid := lineage c (de_c s) in
    match dget uid (de_pop s) with
    | None => de_tell_not_asked mo c l s
    | Some p =>
        let q := uq_tell uid (de_q s) in
        let replace := match mo with None => lo_le l (loss p (de_c s)) | Some m => mo_replace m end in
        if replace then (DESt (de_c s) (dset uid c (de_pop s)) q, Ok tt)
        else if propagate_heritage
        then (DESt (Cands (dset p uid (ca_lineage (de_c s))) (ca_parent (de_c s)) (ca_loss (de_c s))) (de_pop s) q, Ok tt)
        else (DESt (de_c s) (de_pop s) q, Ok tt)
    end.

  (** One operation; [asked c] tells whether [c] is an outstanding candidate
      (base.py:421-429), and [mo] is the multiobjective information. *)
  Definition de_step (asked : bool) (mo : option multi) (s : dest) (o : ev_op) : dest * result unit :=
    match o with
    | OAsk u => let '(s, r) := de_ask u s in (s, match r with Ok _ => Ok tt | Err e => Err e end)
    | ONew u lin par => (DESt (new_cand u lin par (de_c s)) (de_pop s) (de_q s), Ok tt)
    | OTell c l0 l =>
        let s := DESt (set_cand_loss c l0 (de_c s)) (de_pop s) (de_q s) in
        if asked then de_tell mo c (Some l) s else de_tell_not_asked mo c (Some l) s
    | OReject c => de_tell mo c None s
    end.
End DE.

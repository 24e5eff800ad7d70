(** Model of the optimizers which translate the candidates of other optimizers: [SplitOptimizer]
    (nevergrad/optimization/optimizerlib.py:1707-1809), one optimizer per group of variables, and [_Rescaled]
    (:1615-1660), another scale.  The sub-optimizers are arbitrary; the log of a sub-optimizer keeps its calls. *)
From Coq Require Import Reals List Arith ZArith QArith Bool.
From Verif.Model Require Import Prelude.
Import ListNotations.
Open Scope nat_scope.

(** ** How the variables are split *)
Definition zsum (l : list Z) : Z := fold_right Z.add 0%Z l.
(** optimizerlib.py:1758-1762: the loop over the optimizers, [n] of them left from [i] *)
Fixpoint sizes_loop (dim num : Z) (n : nat) (i : nat) (vars : list Z) : result (list Z) :=
  match n with
  | 0 => Ok []
  | S n =>
      let vars := if length vars <? i + 1 then vars ++ [(dim / num + (if (Z.of_nat i <? dim mod num)%Z then 1 else 0))%Z] else vars in
      match nth_error vars i with
      | None => Err IndexError
      | Some v => if (v <? 1)%Z then Err AssertionError else bind (sizes_loop dim num n (i + 1) vars) (fun l => Ok (v :: l))
      end
  end.
(** optimizerlib.py:1724-1773 [__init__] and :1869-1870: the dimensions of the sub-optimizers. [num_optims]: an
    integer ([float("inf")] is any number above the dimension); [data]: the dimensions of the data of the parametrization
    in order ([list_data]), none if it is given as an integer. *)
Definition split_sizes (num_optims : option Z) (num_vars : option (list Z)) (max_num_vars : option Z) (data : list Z) (dim : Z)
  : result (list Z) :=
  let given := (if num_optims then 1 else 0) + (if num_vars then 1 else 0) + (if max_num_vars then 1 else 0) in
  if 1 <? given then Err ValueError else
  bind (match max_num_vars with
        | None => Ok num_vars
        | Some m =>
            if (m =? 0)%Z then Err ZeroDivisionError else
            let l := repeat m (Z.to_nat (dim / m)) in
            Ok (Some (if (zsum l <? dim)%Z then l ++ [(dim - zsum l)%Z] else l))
        end) (fun num_vars =>
  let data := if length data =? 1 then [] else data in
  bind (match num_vars, num_optims with
        | Some l, _ =>
            if (zsum l =? dim)%Z then
              match num_optims with
              | None => Ok (Z.of_nat (length l), [])
              | Some n => if (n =? Z.of_nat (length l))%Z then Ok (n, []) else Err AssertionError
              end
            else Err AssertionError
        | None, Some n => Ok (n, [])
        | None, None => match data with [] => Ok (2%Z, []) | _ => Ok (Z.of_nat (length data), data) end
        end) (fun '(num, subs) =>
  bind (match subs with
        | [] => let num := Z.min num dim in
                sizes_loop dim num (Z.to_nat num) 0 (match num_vars with Some l => l | None => [] end)
        | _ => Ok subs
        end) (fun sizes =>
  if (zsum sizes =? dim)%Z then Ok sizes else Err AssertionError))).

(** ** The calls received by a sub-optimizer: [u] is the number of the candidate it proposed, if it is one of its own *)
Inductive scall (X : Type) : Type := SAsk (u : nat) (d : list X) | STell (u : option nat) (d : list X) (l : Q).
Arguments SAsk {X}. Arguments STell {X}.
Record ssub (S X : Type) : Type := SSub { sb : S; sb_log : list (scall X) }.
Arguments SSub {S X}. Arguments sb {S X}. Arguments sb_log {S X}.

Section Split.
  Variables (S X : Type) (zero : X).
  Variable sub_ask : nat -> nat -> S -> list X * S.
  Variable sub_tell : option nat -> list X -> Q -> S -> S * result unit.
  (** the dimensions; the budget when [progressive] *)
  Variable dims : list nat.
  Variable progressive : option nat.

  (** what is kept for a candidate and one optimizer: whether it was asked, and its point *)
  Definition part : Type := (bool * list X)%type.
  (** [sp_asked]: [Optimizer._asked] of the split optimizer itself (base.py:431-437) *)
  Record split : Type := Split { sp_subs : list (ssub S X); sp_parts : list (nat * list part); sp_asked : list nat }.
  Definition split_init (subs : list S) : split := Split (map (fun s => SSub s []) subs) [] [].

  (** optimizerlib.py:1780-1783, for i > 0: i / n > sqrt(2 * num_ask / budget), without rounding *)
  Definition skipped (i num_ask : nat) : bool :=
    match progressive with
    | None => false
    | Some budget => (0 <? i) && (2 * num_ask * (length dims * length dims) <? i * i * budget)
    end.
  Fixpoint ask_all (u num_ask i : nat) (ds : list nat) (subs : list (ssub S X)) : list part * list (ssub S X) :=
    match ds, subs with
    | d :: ds, s :: subs =>
        if skipped i num_ask then
          let (ps, subs) := ask_all u num_ask (i + 1) ds subs in ((false, repeat zero d) :: ps, s :: subs)
        else
          let (x, s') := sub_ask i u (sb s) in
          let (ps, subs) := ask_all u num_ask (i + 1) ds subs in ((true, x) :: ps, SSub s' (sb_log s ++ [SAsk u x]) :: subs)
    | _, _ => ([], subs)
    end.
  (** optimizerlib.py:1776-1793 [_internal_ask_candidate]: the standardized data of the candidate *)
  Definition internal_ask (u num_ask : nat) (sp : split) : list X * split :=
    let (ps, subs) := ask_all u num_ask 0 dims (sp_subs sp) in
    (concat (map snd ps), Split subs (dset u ps (sp_parts sp)) (sp_asked sp)).

  (** optimizerlib.py:1797-1798 and :1803-1807: a tell to each, until one raises *)
  Fixpoint tell_parts (ps : list (option nat * list X)) (l : Q) (subs : list (ssub S X)) : list (ssub S X) * result unit :=
    match ps, subs with
    | (u, x) :: ps, s :: subs =>
        let (s', r) := sub_tell u x l (sb s) in
        let s' := SSub s' (sb_log s ++ [STell u x l]) in
        match r with
        | Ok _ => let (subs, r) := tell_parts ps l subs in (s' :: subs, r)
        | Err e => (s' :: subs, Err e)
        end
    | _, _ => (subs, Ok tt)
    end.
  (** optimizerlib.py:1795-1798 [_internal_tell_candidate] *)
  Definition internal_tell (u : nat) (l : Q) (sp : split) : split * result unit :=
    match dget u (sp_parts sp) with
    | None => (sp, Err KeyError)
    | Some ps =>
        let (subs, r) := tell_parts (map (fun p : part => (if fst p then Some u else None, snd p)) ps) l (sp_subs sp) in
        (Split subs (ddel u (sp_parts sp)) (sp_asked sp), r)
    end.
  (** optimizerlib.py:1800-1807 [_internal_tell_not_asked] *)
  Fixpoint slices (ds : list nat) (data : list X) : list (list X) :=
    match ds with [] => [] | d :: ds => firstn d data :: slices ds (skipn d data) end.
  Definition internal_tell_not_asked (data : list X) (l : Q) (sp : split) : split * result unit :=
    let (subs, r) := tell_parts (map (fun x => (None, x)) (slices dims data)) l (sp_subs sp) in
    (Split subs (sp_parts sp) (sp_asked sp), r).

  (** Histories. [TAsk u num_ask]: a candidate from the optimizer; [TSolved u' num_ask u]: the candidate [u'] did not satisfy the
      constraints and was replaced by [u] (base.py:535-551); [TTell u data l]: the tell of candidate [u], whose data are
      [data] (base.py:431-437): asked by the optimizer and not told, or not. *)
  Inductive top : Type := TAsk (u num_ask : nat) | TSolved (u' num_ask u : nat) | TTell (u : nat) (data : list X) (l : Q).
  Definition split_step (sp : split) (o : top) : split * result (list X) :=
    match o with
    | TAsk u n => let (x, sp) := internal_ask u n sp in (Split (sp_subs sp) (sp_parts sp) (u :: sp_asked sp), Ok x)
    | TSolved u' n u => let (x, sp) := internal_ask u' n sp in (Split (sp_subs sp) (sp_parts sp) (u :: sp_asked sp), Ok [])
    | TTell u data l =>
        if existsb (Nat.eqb u) (sp_asked sp) then
          let (sp, r) := internal_tell u l sp in
          match r with
          | Ok _ => (Split (sp_subs sp) (sp_parts sp) (filter (fun v => negb (v =? u)) (sp_asked sp)), Ok [])
          | Err e => (sp, Err e)
          end
        else let (sp, r) := internal_tell_not_asked data l sp in (sp, bind r (fun _ => Ok []))
    end.
  Fixpoint split_run (sp : split) (ops : list top) : split * list (result (list X)) :=
    match ops with
    | [] => (sp, [])
    | o :: ops => let (sp, r) := split_step sp o in let (sp, rs) := split_run sp ops in (sp, r :: rs)
    end.
End Split.
Arguments Split {S X}. Arguments sp_subs {S X}. Arguments sp_parts {S X}. Arguments sp_asked {S X}.
Arguments TAsk {X}. Arguments TSolved {X}. Arguments TTell {X}.

Section Rescaled.
  Variable S : Type.
  Variable sub_ask : nat -> S -> list Q * S.
  Variable sub_tell : option nat -> list Q -> Q -> S -> S * result unit.
  Variables (scale : Q) (shift : option Q).

  (** optimizerlib.py:1638-1643 [rescale_candidate] on the standardized data; [noise]: the draws of [np.random.randn] *)
  Definition rescale (inverse : bool) (noise data : list Q) : list Q :=
    let data := match shift with
                | Some h => map (fun dn => (fst dn + h * snd dn)%Q) (combine data noise)
                | None => data
                end in
    map (fun x => ((if inverse then 1 / scale else scale) * x)%Q) data.

  Record rescaled : Type := Rescaled { rs_sub : ssub S Q; rs_pending : list (nat * list Q); rs_asked : list nat }.
  Definition rescaled_init (s : S) : rescaled := Rescaled (SSub s []) [] [].
  (** optimizerlib.py:1645-1657, inside [ask] and [tell] as above *)
  Inductive rop : Type := RAsk (u : nat) (noise : list Q) | RTell (u : nat) (data : list Q) (noise : list Q) (l : Q).
  Definition tell_sub (u : option nat) (x : list Q) (l : Q) (s : ssub S Q) : ssub S Q * result unit :=
    let (s', r) := sub_tell u x l (sb s) in (SSub s' (sb_log s ++ [STell u x l]), r).
  Definition rescaled_step (rs : rescaled) (o : rop) : rescaled * result (list Q) :=
    match o with
    | RAsk u noise =>
        let (x, s) := sub_ask u (sb (rs_sub rs)) in
        (Rescaled (SSub s (sb_log (rs_sub rs) ++ [SAsk u x])) (dset u x (rs_pending rs)) (u :: rs_asked rs), Ok (rescale false noise x))
    | RTell u data noise l =>
        if existsb (Nat.eqb u) (rs_asked rs) then
          match dget u (rs_pending rs) with
          | None => (rs, Err KeyError)
          | Some x =>
              let (s, r) := tell_sub (Some u) x l (rs_sub rs) in
              match r with
              | Ok _ => (Rescaled s (ddel u (rs_pending rs)) (filter (fun v => negb (v =? u)) (rs_asked rs)), Ok [])
              | Err e => (Rescaled s (ddel u (rs_pending rs)) (rs_asked rs), Err e)
              end
          end
        else
          let (s, r) := tell_sub None (rescale true noise data) l (rs_sub rs) in
          (Rescaled s (rs_pending rs) (rs_asked rs), bind r (fun _ => Ok []))
    end.
  Fixpoint rescaled_run (rs : rescaled) (ops : list rop) : rescaled * list (result (list Q)) :=
    match ops with
    | [] => (rs, [])
    | o :: ops => let (rs, r) := rescaled_step rs o in let (rs, l) := rescaled_run rs ops in (rs, r :: l)
    end.
End Rescaled.
Arguments Rescaled {S}. Arguments rs_sub {S}. Arguments rs_pending {S}. Arguments rs_asked {S}.

(** optimizerlib.py:1631-1636: the scale by default, which must not be zero *)
Definition default_scale (budget dim : nat) : R := sqrt (ln (INR budget) / INR dim).

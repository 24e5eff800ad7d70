(** Model of [_Chain] / [Chaining] (nevergrad/optimization/optimizerlib.py): optimizers used one after
    the other.  The sub-optimizers are arbitrary: a state, a function for [ask] and one for [tell]; a
    log of the calls received is kept beside each of them.  Candidates are their uids; [_meta["optim_index"]]
    is a dictionary from uids to indices, shared by all levels as it is a field of the candidate. *)
From Coq Require Import List Arith QArith Bool.
From Verif.Model Require Import Prelude.
Import ListNotations.
Open Scope nat_scope.

Definition meta : Type := list (nat * nat).
Inductive call : Type := CAsk (u : nat) | CTell (c : nat) (l : Q).
Record sub (S : Type) : Type := Sub { sb : S; sb_log : list call }.
Arguments Sub {S}. Arguments sb {S}. Arguments sb_log {S}.

(** optimizerlib.py:3370-3380 [converter]: the names of the budgets *)
Inductive bname : Type :=
| BInt (n : nat) | BWorkers | BDimension | BHalf | BThird | BFourth | BTenth | BEqual | BMost | BSqrt.
(** optimizerlib.py:3370-3381 [self.budgets]; no budget, or a zero one, is replaced by the number of workers.
    [int(np.sqrt(budget))] is exact here. *)
Definition conv_budget (budget : option nat) (workers dim nb : nat) (b : bname) : nat :=
  let part f := match budget with Some (Datatypes.S x) => f (Datatypes.S x) | _ => workers end in
  match b with
  | BInt n => n
  | BWorkers => Nat.max 1 workers
  | BDimension => Nat.max 1 dim
  | BHalf => Nat.max 1 (part (fun b => b / 2))
  | BThird => Nat.max 1 (part (fun b => b / 3))
  | BFourth => Nat.max 1 (part (fun b => b / 4))
  | BTenth => Nat.max 1 (part (fun b => b / 10))
  | BEqual => Nat.max 1 (part (fun b => b / (nb + 1)))
  | BMost => Nat.max 1 (part (fun b => (b * 4) / 5))
  | BSqrt => Nat.max 1 (part Nat.sqrt)
  end.
Definition nsum (l : list nat) : nat := fold_right Nat.add 0 l.
(** optimizerlib.py:3381-3389: the budgets of the [n_opts] optimizers *)
Definition chain_budgets (budget : option nat) (workers dim n_opts : nat) (names : list bname) : result (list (option nat)) :=
  let bs := map (conv_budget budget workers dim (length names)) names in
  let last := match budget with None => None | Some b => Some (Nat.max 4 (b - nsum bs)) end in
  if negb (n_opts =? length bs + 1) then Err AssertionError
  else if negb (forallb (fun b => 0 <? b) bs) then Err AssertionError
  else Ok (map Some bs ++ [last]).

Section Chain.
  Variable S : Type.
  (** a new candidate with the given uid; it may be labelled *)
  Variable sub_ask : nat -> meta -> S -> meta * S.
  Variable sub_tell : nat -> Q -> meta -> S -> S * result unit.
  (** the attribute [budget] of the optimizers *)
  Variable budgets : list (option nat).
  Variable no_crossing : bool.

  Record chain : Type := Chain { ch_ask : nat; ch_tell : nat; ch_subs : list (sub S) }.
  Definition chain_init (subs : list S) : chain := Chain 0 0 (map (fun s => Sub s []) subs).

  (** optimizerlib.py:3402-3406: the loop, [None] if it is not left by [break] *)
  Fixpoint pick (n sum k : nat) (bs : list (option nat)) : option nat :=
    match bs with
    | [] => None
    | None :: _ => Some k
    | Some b :: bs => if n <? sum + b then Some k else pick n (sum + b) (k + 1) bs
    end.
  Definition chosen (n : nat) : nat := match pick n 0 0 budgets with Some k => k | None => length budgets - 1 end.
  Definition label (n : nat) : nat := match pick n 0 0 budgets with Some k => k | None => 0 end.

  Fixpoint update {A} (k : nat) (f : A -> A) (l : list A) : list A :=
    match l, k with
    | [], _ => []
    | x :: l, 0 => f x :: l
    | x :: l, Datatypes.S k => x :: update k f l
    end.

  (** optimizerlib.py:3397-3411 [_internal_ask_candidate], the value of [num_ask] being [n] *)
  Definition internal_ask (n u : nat) (m : meta) (subs : list (sub S)) : meta * list (sub S) :=
    match nth_error subs (chosen n) with
    | None => (m, subs)
    | Some s => let (m', s') := sub_ask u m (sb s) in
                (dset u (label n) m', update (chosen n) (fun _ => Sub s' (sb_log s ++ [CAsk u])) subs)
    end.
  (** optimizerlib.py:3413-3423 [_internal_tell_candidate], the value of [num_tell] being [n]; also used for
      candidates which were not asked (base.py:593-597) *)
  Fixpoint internal_tell (n c : nat) (l : Q) (m : meta) (sum : option nat) (k : nat) (bs : list (option nat))
      (subs : list (sub S)) : list (sub S) * result unit :=
    match bs, subs with
    | b :: bs', s :: subs' =>
        let is_last := match bs' with [] => true | _ => false end in
        let sum := match sum, b with
                   | Some x, Some b => if is_last then None else Some (x + b)
                   | _, _ => None
                   end in
        let crossing := match dget c m with None => true | Some i => negb (k =? i) end in
        if (match sum with None => true | Some x => n <? x end) && negb (no_crossing && crossing) then
          let (s', r) := sub_tell c l m (sb s) in
          let s'' := Sub s' (sb_log s ++ [CTell c l]) in
          match r with
          | Err e => (s'' :: subs', Err e)
          | Ok _ => let (rest, r) := internal_tell n c l m sum (k + 1) bs' subs' in (s'' :: rest, r)
          end
        else let (rest, r) := internal_tell n c l m sum (k + 1) bs' subs' in (s :: rest, r)
    | _, _ => (subs, Ok tt)
    end.

  (** base.py:481-560 [ask] and :424-431 [tell], without suggestion: the counters *)
  Definition chain_ask (u : nat) (m : meta) (ch : chain) : meta * chain :=
    let (m, subs) := internal_ask (ch_ask ch) u m (ch_subs ch) in (m, Chain (ch_ask ch + 1) (ch_tell ch) subs).
  Definition chain_tell (c : nat) (l : Q) (m : meta) (ch : chain) : chain * result unit :=
    let (subs, r) := internal_tell (ch_tell ch) c l m (Some 0) 0 budgets (ch_subs ch) in
    match r with
    | Err e => (Chain (ch_ask ch) (ch_tell ch) subs, Err e)
    | Ok _ => (Chain (ch_ask ch) (ch_tell ch + 1) subs, Ok tt)
    end.

  (** base.py:511-534: the candidates [rejected] are refused by the constraints, each of them increases
      [num_ask], which is reset at the end (:553) *)
  Fixpoint rejections (n : nat) (us : list nat) (m : meta) (subs : list (sub S)) : meta * list (sub S) :=
    match us with
    | [] => (m, subs)
    | u :: us => let (m, subs) := internal_ask n u m subs in rejections (n + 1) us m subs
    end.
  Inductive mop : Type :=
  | MAsk (rejected : list nat) (u : nat)
  | MSuggested (u : nat) (** an ask answered by a suggestion *)
  | MTell (c : nat) (l : Q).
  Definition chain_step (st : meta * chain) (o : mop) : (meta * chain) * result unit :=
    let (m, ch) := st in
    match o with
    | MAsk us u =>
        let n := ch_ask ch in
        let (m, subs) := rejections n (us ++ [u]) m (ch_subs ch) in
        ((m, Chain (n + 1) (ch_tell ch) subs), Ok tt)
    | MSuggested _ => ((m, Chain (ch_ask ch + 1) (ch_tell ch) (ch_subs ch)), Ok tt)
    | MTell c l => let (ch, r) := chain_tell c l m ch in ((m, ch), r)
    end.
  Fixpoint chain_run (st : meta * chain) (ops : list mop) : (meta * chain) * list (result unit) :=
    match ops with
    | [] => (st, [])
    | o :: ops => let (st, r) := chain_step st o in let (st, rs) := chain_run st ops in (st, r :: rs)
    end.
End Chain.
Arguments Chain {S}. Arguments ch_ask {S}. Arguments ch_tell {S}. Arguments ch_subs {S}.

(** A plain optimizer: the outstanding candidates and whether [tell] accepts those which were not asked
    (TellNotAskedNotSupportedError is NotImplementedError here) *)
Record leaf : Type := Leaf { lf_accepts : bool; lf_asked : list nat }.
Definition leaf_ask (u : nat) (m : meta) (s : leaf) : meta * leaf := (m, Leaf (lf_accepts s) (u :: lf_asked s)).
Definition leaf_tell (c : nat) (l : Q) (m : meta) (s : leaf) : leaf * result unit :=
  if existsb (Nat.eqb c) (lf_asked s) then (Leaf (lf_accepts s) (filter (fun x => negb (x =? c)) (lf_asked s)), Ok tt)
  else if lf_accepts s then (s, Ok tt) else (s, Err NotImplementedError).

(** Callbacks which write to disk or show progress:
    /repo/nevergrad/optimization/callbacks.py:101-304 (ParametersLogger, OptimizerDump, ProgressBar). *)
From Coq Require Import Arith List String Ascii ZArith Decimal DecimalString Lia.
From Verif Require Import Model.Prelude Model.Configured.
Import ListNotations.
Open Scope nat_scope.
Open Scope list_scope.

(** A Python value as given to json: an atom (number, string, boolean or None, an identifier here), a (nested)
    list, or an object json refuses.
    Simplification: atoms are opaque, json is taken to read back what it wrote. *)
Inductive jv : Type := JAtom (a : Z) | JList (l : list jv) | JBad.

Definition is_list (v : jv) : bool := match v with JList _ => true | _ => false end.

(** json.dumps raises on an object it does not know: callbacks.py:174-178 *)
Fixpoint dumpable (v : jv) : bool :=
  match v with JAtom _ => true | JBad => false | JList l => forallb dumpable l end.

(** What a call of the logger sees of the optimizer and the candidate: callbacks.py:137-173.
    [ti_flat n] is helpers.flatten(candidate, with_containers=False, order=n): name, value, and the value of
    sigma for Data parameters.  Values are those after .item()/.tolist()/repr conversions.
    [ti_losses] is candidate.losses (used when there are several objectives), [ti_config] the configuration of a
    configured optimizer (empty for others), [ti_meta_sigma] candidate._meta["sigma"] when it is a float. *)
Record tellinfo : Type := TellInfo {
  ti_parametrization : Z; ti_optimizer : Z; ti_num_ask : Z; ti_num_tell : Z; ti_not_asked : Z;
  ti_uid : Z; ti_lineage : Z; ti_generation : Z; ti_parents : list Z; ti_loss : Z;
  ti_losses : list Z; ti_pareto : Z; ti_config : list (string * Z); ti_meta_sigma : option Z;
  ti_flat : nat -> list (string * jv * option jv) }.

(** str(int) *)
Definition str_nat (n : nat) : string := NilEmpty.string_of_uint (Nat.to_uint n).

(** dict.update: callbacks.py:152, 157 *)
Definition updates (d : list (string * jv)) (w : list (string * jv)) : list (string * jv) :=
  fold_left (fun d kv => sset (fst kv) (snd kv) d) w d.

(** enumerate *)
Definition enum {A} (l : list A) : list (nat * A) := combine (seq 0 (List.length l)) l.

(** name if name else "0": callbacks.py:168 *)
Definition shown_name (name : string) : string := if String.eqb name "" then "0"%string else name.

(** one parameter of the loop: callbacks.py:162-173 *)
Definition param_writes (p : string * jv * option jv) : list (string * jv) :=
  let '(name, v, sigma) := p in
  (shown_name name, v) ::
  match sigma with Some s => [((shown_name name ++ "#sigma")%string, s)] | None => [] end.

(** the dict built by a call: callbacks.py:138-173; [order] is self._order, the one of the constructor (line 132):
    it is not used, the loop asks for order=1 (line 162) *)
Definition record_of (session : Z) (order : nat) (t : tellinfo) : list (string * jv) :=
  let data :=
    [("#parametrization"%string, JAtom (ti_parametrization t)); ("#optimizer"%string, JAtom (ti_optimizer t));
     ("#session"%string, JAtom session); ("#num-ask"%string, JAtom (ti_num_ask t));
     ("#num-tell"%string, JAtom (ti_num_tell t)); ("#num-tell-not-asked"%string, JAtom (ti_not_asked t));
     ("#uid"%string, JAtom (ti_uid t)); ("#lineage"%string, JAtom (ti_lineage t));
     ("#generation"%string, JAtom (ti_generation t)); ("#parents_uids"%string, JList []);
     ("#loss"%string, JAtom (ti_loss t))] in
  let data :=
    if 1 <? List.length (ti_losses t) then
      sset "#pareto-length"%string (JAtom (ti_pareto t))
        (updates data (map (fun kv => (("#losses#" ++ str_nat (fst kv))%string, JAtom (snd kv))) (enum (ti_losses t))))
    else data in
  let data := updates data (map (fun xy => (("#optimizer#" ++ fst xy)%string, JAtom (snd xy))) (ti_config t)) in
  let data := match ti_meta_sigma t with Some s => sset "#meta-sigma"%string (JAtom s) data | None => data end in
  let data := if (1 <? ti_generation t)%Z then sset "#parents_uids"%string (JList (map JAtom (ti_parents t))) data
              else data in
  updates data (flat_map param_writes (ti_flat t 1)).

(** the log file: absent, or its lines (each a dumped dict) *)
Definition file : Type := option (list (list (string * jv))).

(** __init__: callbacks.py:129-135 *)
Definition create (append : bool) (f : file) : file :=
  match f with Some _ => if append then f else None | None => None end.

(** end of __call__: callbacks.py:174-178.  The file is opened for appending, which creates it, before json.dumps is
    called; when json.dumps raises nothing has been written *)
Definition write (rec : list (string * jv)) (f : file) : file :=
  let lines := match f with Some ls => ls | None => [] end in
  if forallb (fun kv => dumpable (snd kv)) rec then Some (lines ++ [rec]) else Some lines.

(** load: callbacks.py:180-187 *)
Definition load (f : file) : list (list (string * jv)) := match f with Some ls => ls | None => [] end.

(** what happens to one log file: loggers are created on it, loggers are called *)
Inductive event : Type := Create (append : bool) | Told (session : Z) (order : nat) (t : tellinfo).
Definition step (f : file) (e : event) : file :=
  match e with
  | Create append => create append f
  | Told session order t => write (record_of session order t) f
  end.
Definition run (evs : list event) (f : file) : file := fold_left step evs f.

(** np.asarray of nested lists: the shape, None when the lists are ragged *)
Fixpoint shape (v : jv) : option (list nat) :=
  match v with
  | JAtom _ => Some []
  | JBad => None
  | JList [] => Some [0]
  | JList (x :: l) =>
      match shape x with
      | None => None
      | Some s => if forallb (fun y => match shape y with
                                       | Some s' => if list_eq_dec Nat.eq_dec s s' then true else false
                                       | None => false end) l
                  then Some (S (List.length l) :: s) else None
      end
  end.

(** np.ndenumerate: indices and value, last index fastest *)
Fixpoint leaves (v : jv) : list (list nat * Z) :=
  match v with
  | JAtom a => [([], a)]
  | JBad => []
  | JList l =>
      (fix go (i : nat) (l : list jv) : list (list nat * Z) :=
         match l with
         | [] => []
         | x :: l' => map (fun pa => (i :: fst pa, snd pa)) (leaves x) ++ go (S i) l'
         end) 0 l
  end.

(** "_".join(str(i) for i in indices) *)
Fixpoint join_idx (l : list nat) : string :=
  match l with
  | [] => ""%string
  | [i] => str_nat i
  | i :: l' => (str_nat i ++ "_" ++ join_idx l')%string
  end.
(** key + "#" + ...: callbacks.py:207 *)
Definition elt_key (key : string) (p : list nat) : string := (key ++ "#" ++ join_idx p)%string.

(** one record in load_flattened: callbacks.py:200-207.  The keys of list values come from a set, in an order which is
    not specified: [order] rearranges them.  Ragged lists raise in numpy *)
Definition flat_record (order : list (string * jv) -> list (string * jv)) (max : nat) (rec : list (string * jv))
  : result (list (string * jv)) :=
  let lists := order (filter (fun kv => is_list (snd kv)) rec) in
  let plain := filter (fun kv => negb (is_list (snd kv))) rec in
  if forallb (fun kv => match shape (snd kv) with Some _ => true | None => false end) lists then
    Ok (updates plain
          (flat_map (fun kv => map (fun pa => (elt_key (fst kv) (fst pa), JAtom (snd pa)))
                                   (firstn max (leaves (snd kv)))) lists))
  else Err ValueError.

(** load_flattened: callbacks.py:189-208 *)
Fixpoint flat_records (order : list (string * jv) -> list (string * jv)) (max : nat)
    (data : list (list (string * jv))) : result (list (list (string * jv))) :=
  match data with
  | [] => Ok []
  | rec :: data' =>
      bind (flat_record order max rec) (fun r => bind (flat_records order max data') (fun rs => Ok (r :: rs)))
  end.
Definition load_flattened order (max : nat) (f : file) : result (list (list (string * jv))) :=
  flat_records order max (load f).

(** ProgressBar: callbacks.py:277-304: the count shown by the bar (None: no bar yet) and _current *)
Record progress : Type := Progress { pg_bar : option nat; pg_current : nat }.
Definition new_progress : progress := Progress None 0.
Definition pg_call (p : progress) : progress :=
  let shown := match pg_bar p with Some n => n | None => 0 + pg_current p end in
  Progress (Some (shown + 1)) (pg_current p + 1).
(** pickling and loading again: the bar is dropped (lines 300-304) *)
Definition pg_reload (p : progress) : progress := Progress None (pg_current p).
Inductive pg_event : Type := PCall | PReload.
Definition pg_step (p : progress) (e : pg_event) : progress :=
  match e with PCall => pg_call p | PReload => pg_reload p end.
Definition pg_run (evs : list pg_event) : progress := fold_left pg_step evs new_progress.

(** OptimizerDump registered on "tell" or on "ask": callbacks.py:261-274.  The optimizer is reduced to the list of
    tells it has processed and the number of asks; the callbacks of an operation run before it is processed
    (base.py:391-394 before 421-438, base.py:492-493 before 495-560).
    Simplification: for one objective; with several the Pareto front is updated before the callbacks run. *)
Record dopt : Type := DOpt { d_told : list Z; d_asked : nat }.
Inductive dop : Type := DAsk | DTell (x : Z).
Inductive hook : Type := OnAsk | OnTell.
Definition d_do (o : dopt) (e : dop) : dopt :=
  match e with DAsk => DOpt (d_told o) (S (d_asked o)) | DTell x => DOpt (d_told o ++ [x]) (d_asked o) end.
Definition d_step (h : hook) (s : dopt * option dopt) (e : dop) : dopt * option dopt :=
  let '(o, f) := s in
  let f' := match h, e with OnAsk, DAsk => Some o | OnTell, DTell _ => Some o | _, _ => f end in
  (d_do o e, f').
Definition d_run (h : hook) (evs : list dop) : dopt * option dopt :=
  fold_left (d_step h) evs (DOpt [] 0, None).

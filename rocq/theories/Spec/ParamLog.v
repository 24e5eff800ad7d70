(** Vocabulary for the logging callbacks. *)
From Coq Require Import Arith List String Ascii ZArith.
From Verif Require Import Model.ParamLog.
Import ListNotations.
Open Scope nat_scope.
Open Scope list_scope.

(** everything in the dict can be written as json *)
Fixpoint plain_data (v : jv) : Prop :=
  match v with
  | JAtom _ => True
  | JBad => False
  | JList l => (fix all l := match l with [] => True | x :: l' => plain_data x /\ all l' end) l
  end.
Definition writable (rec : list (string * jv)) : Prop := forall k v, In (k, v) rec -> plain_data v.

(** the lines that calls of the logger should leave, in order *)
Inductive lines_of : list event -> list (list (string * jv)) -> Prop :=
| lines_nil : lines_of [] []
| lines_create a evs out : lines_of evs out -> lines_of (Create a :: evs) out
| lines_ok s o t evs out : writable (record_of s o t) -> lines_of evs out ->
    lines_of (Told s o t :: evs) (record_of s o t :: out)
| lines_bad s o t evs out : ~ writable (record_of s o t) -> lines_of evs out ->
    lines_of (Told s o t :: evs) out.

(** what the key [k] holds in a dict *)
Definition holds (d : list (string * jv)) (k : string) (v : jv) : Prop :=
  Model.Configured.sget k d = Some v.

(** the element of nested lists reached by a path of indices *)
Fixpoint elt (v : jv) (p : list nat) : option Z :=
  match v, p with
  | JAtom a, [] => Some a
  | JList l, i :: p' => match nth_error l i with Some x => elt x p' | None => None end
  | _, _ => None
  end.
(** number of atoms *)
Fixpoint size (v : jv) : nat :=
  match v with JAtom _ => 1 | JBad => 0 | JList l => list_sum (map size l) end.
(** number of atoms before the element of path p, in reading order *)
Fixpoint rank (v : jv) (p : list nat) : nat :=
  match v, p with
  | JList l, i :: p' =>
      list_sum (map size (firstn i l)) + match nth_error l i with Some x => rank x p' | None => 0 end
  | _, _ => 0
  end.

(** the parameters of a candidate show the value [v] under the key [k]: the value of a parameter under its name ("0" for
    a parameter without a name) and its sigma under the name followed by #sigma *)
Definition label (name : string) : string := if string_dec name "" then "0"%string else name.
Definition shows (t : tellinfo) (k : string) (v : jv) : Prop :=
  exists name value sigma, In (name, value, sigma) (ti_flat t 1) /\
    ((k = label name /\ v = value) \/ (sigma = Some v /\ k = (label name ++ "#sigma")%string)).

(** the fields about the run *)
Inductive field (session : Z) (t : tellinfo) : string -> jv -> Prop :=
| f_parametrization : field session t "#parametrization" (JAtom (ti_parametrization t))
| f_optimizer : field session t "#optimizer" (JAtom (ti_optimizer t))
| f_session : field session t "#session" (JAtom session)
| f_num_ask : field session t "#num-ask" (JAtom (ti_num_ask t))
| f_num_tell : field session t "#num-tell" (JAtom (ti_num_tell t))
| f_not_asked : field session t "#num-tell-not-asked" (JAtom (ti_not_asked t))
| f_uid : field session t "#uid" (JAtom (ti_uid t))
| f_lineage : field session t "#lineage" (JAtom (ti_lineage t))
| f_generation : field session t "#generation" (JAtom (ti_generation t))
| f_loss : field session t "#loss" (JAtom (ti_loss t))
| f_parents : (ti_generation t > 1)%Z -> field session t "#parents_uids" (JList (map JAtom (ti_parents t)))
| f_no_parents : (ti_generation t <= 1)%Z -> field session t "#parents_uids" (JList [])
| f_losses i x : List.length (ti_losses t) > 1 -> nth_error (ti_losses t) i = Some x ->
    field session t ("#losses#" ++ str_nat i)%string (JAtom x)
| f_pareto : List.length (ti_losses t) > 1 -> field session t "#pareto-length" (JAtom (ti_pareto t))
| f_config x y : In (x, y) (ti_config t) -> field session t ("#optimizer#" ++ x)%string (JAtom y)
| f_meta_sigma x : ti_meta_sigma t = Some x -> field session t "#meta-sigma" (JAtom x).

(** the element of path [p] of the list under [key] is among the [max] first ones and is [a] *)
Definition kept (max : nat) (rec : list (string * jv)) (key : string) (p : list nat) (a : Z) : Prop :=
  exists l, holds rec key (JList l) /\ elt (JList l) p = Some a /\ rank (JList l) p < max.

(** [r] is the dict [rec] with its lists split into elements, at most [max] for each list *)
Definition flattened (max : nat) (rec r : list (string * jv)) : Prop :=
  (forall key p a, kept max rec key p a -> holds r (elt_key key p) (JAtom a)) /\
  (forall k v, holds rec k v -> (forall l, v <> JList l) ->
     (forall key p a, kept max rec key p a -> k <> elt_key key p) -> holds r k v) /\
  (forall k u, holds r k u ->
     (holds rec k u /\ forall l, u <> JList l) \/
     exists key p a, kept max rec key p a /\ k = elt_key key p /\ u = JAtom a).

(** rectangular nested lists: what an array becomes *)
Inductive rectangular : list nat -> jv -> Prop :=
| rect_atom a : rectangular [] (JAtom a)
| rect_list s l : (forall x, In x l -> rectangular s x) -> rectangular (List.length l :: s) (JList l).

(** number of calls *)
Definition calls (evs : list pg_event) : nat :=
  List.length (filter (fun e => match e with PCall => true | PReload => false end) evs).
(** the values told, in order *)
Definition tells (evs : list dop) : list Z :=
  flat_map (fun e => match e with DTell x => [x] | DAsk => [] end) evs.

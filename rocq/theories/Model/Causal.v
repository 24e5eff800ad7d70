(** Model of the graphs of [CausalDiscovery] (nevergrad/functions/causaldiscovery/core.py:76-107). The nodes are numbers.
    The data sets and the score of a graph, computed by the library cdt, are not modelled. *)
From Coq Require Import List Arith ZArith Bool.
From Verif.Model Require Import Prelude.
Import ListNotations.
Open Scope nat_scope.

(** A directed graph of networkx: its nodes and its edges, both without repetition. *)
Record digraph : Type := mkGraph { g_nodes : list nat; g_edges : list (nat * nat) }.
Definition g_empty : digraph := mkGraph [] [].
Definition has_node (n : nat) (g : digraph) : bool := existsb (Nat.eqb n) (g_nodes g).
Definition has_edge (u v : nat) (g : digraph) : bool :=
  existsb (fun e => (u =? fst e) && (v =? snd e)) (g_edges g).
(** networkx [add_node]: nothing happens for a node which is there *)
Definition add_node (n : nat) (g : digraph) : digraph :=
  if has_node n g then g else mkGraph (g_nodes g ++ [n]) (g_edges g).
(** networkx [add_edge]: the missing ends are added *)
Definition add_edge (u v : nat) (g : digraph) : digraph :=
  let g := add_node v (add_node u g) in
  if has_edge u v g then g else mkGraph (g_nodes g) (g_edges g ++ [(u, v)]).

(** core.py:78 [self._nvars * (self._nvars - 1) // 2]: the number of links of the parametrization *)
Definition num_links (nvars : nat) : nat := nvars * (nvars - 1) / 2.

(** [l[k]] *)
Definition index {A} (l : list A) (k : nat) : result A :=
  match nth_error l k with Some a => Ok a | None => Err IndexError end.

(** core.py:102-106: one link *)
Definition apply_link (nodes : list nat) (links : list Z) (i j : nat) (s : digraph * nat) : result (digraph * nat) :=
  let (g, k) := s in
  bind (index links k) (fun l =>
    if Z.eqb l (-1) then
      bind (index nodes j) (fun u => bind (index nodes i) (fun v => Ok (add_edge u v g, S k)))
    else if Z.eqb l 1 then
      bind (index nodes i) (fun u => bind (index nodes j) (fun v => Ok (add_edge u v g, S k)))
    else Ok (g, S k)).
(** a [for] loop over a list *)
Fixpoint for_each {A S} (f : A -> S -> result S) (l : list A) (s : S) : result S :=
  match l with [] => Ok s | a :: l' => bind (f a s) (for_each f l') end.
(** core.py:98-106: [range(1, nvars)] and [range(i + 1, nvars)] *)
Definition read_links (nodes : list nat) (nvars : nat) (links : list Z) : result (digraph * nat) :=
  for_each (fun i => for_each (fun j => apply_link nodes links i j) (seq (i + 1) (nvars - (i + 1))))
    (seq 1 (nvars - 1)) (g_empty, 0).
(** core.py:92-95; the set of the missing nodes is taken in the order of the list *)
Definition add_missing_nodes (nodes : list nat) (g : digraph) : digraph :=
  fold_left (fun g n => add_node n g) (filter (fun n => negb (has_node n g)) nodes) g.
(** core.py:97-107 [choices_to_graph] *)
Definition choices_to_graph (nodes : list nat) (nvars : nat) (links : list Z) : result digraph :=
  bind (read_links nodes nvars links) (fun s => Ok (add_missing_nodes nodes (fst s))).

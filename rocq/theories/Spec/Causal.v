(** Vocabulary for the graphs of causal discovery. *)
From Coq Require Import List ZArith.
From Verif.Model Require Import Causal.
Open Scope nat_scope.

(** [u -> v] is an edge of the graph. *)
Definition arrow (g : digraph) (u v : nat) : Prop := In (u, v) (g_edges g).
(** Every link is one of the three choices of the parametrization. *)
Definition choices (links : list Z) : Prop := Forall (fun l => l = (-1) \/ l = 0 \/ l = 1)%Z links.
(** Two graphs with the same nodes and the same arrows. *)
Definition same_graph (g h : digraph) : Prop :=
  (forall n, In n (g_nodes g) <-> In n (g_nodes h)) /\ (forall u v, arrow g u v <-> arrow h u v).

(** * Specification vocabulary for directed graphs given by adjacency lists. *)
From Coq Require Import List.
Import ListNotations.

(** n nodes, and every listed neighbour is a node. *)
Definition graph_ok (n : nat) (g : list (list nat)) : Prop :=
  length g = n /\ forall x nbrs y, nth_error g x = Some nbrs -> In y nbrs -> y < n.

(** y is an out-neighbour of x that the filter accepts. *)
Definition edge (acc : nat -> bool) (g : list (list nat)) (x y : nat) : Prop :=
  exists nbrs, nth_error g x = Some nbrs /\ In y nbrs /\ acc y = true.

(** Reachable from the set S along accepted edges. *)
Inductive reach (acc : nat -> bool) (g : list (list nat)) (S : nat -> Prop) : nat -> Prop :=
| reach_start : forall x, S x -> reach acc g S x
| reach_edge : forall x y, reach acc g S x -> edge acc g x y -> reach acc g S y.

(** * Specification: what a graph search has seen when it ends. *)
From Coq Require Import List.
From Verif Require Import Float32 PoolModel GreedyModel.
Import ListNotations.

(** [p_ins] holds the points whose distance was computed, [g_exp] those whose list was
    read: the same distances for the former, the same lists for the latter. *)
Definition same_seen (dist dist' : nat -> f32) (g g' : graph) (st : gstate) : Prop :=
  (forall x, In x (p_ins (g_pool st)) -> dist' x = dist x) /\ (forall x, In x (g_exp st) -> nth_error g' (nid x) = nth_error g (nid x)).

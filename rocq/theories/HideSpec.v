(** * Specification: two collections that agree on the points that match a filter. *)
From Coq Require Import NArith String List Arith.
From Verif Require Import Base Float32 PoolModel FilterSpec LshModel.
Import ListNotations.

(** Each of the [n] points has a sorted label list. *)
Definition labelled (n : nat) (lc : label_ctx) : Prop :=
  length (pts_to_labels lc) = n /\ forall ls, In ls (pts_to_labels lc) -> sorted_labels ls.

Definition point_matches (lc : label_ctx) (filters : list label) (id : nat) : Prop :=
  exists ls, nth_error (pts_to_labels lc) id = Some ls /\ matches (universal_of lc) filters ls.

(** The lists have the same members among the points in [m], in the same order; other
    members may be anything, anywhere. *)
Inductive same_among (m : nat -> Prop) : list nat -> list nat -> Prop :=
| same_nil : same_among m [] []
| same_both : forall x l l', same_among m l l' -> same_among m (x :: l) (x :: l')
| same_left : forall x l l', ~ m x -> same_among m l l' -> same_among m (x :: l) l'
| same_right : forall x l l', ~ m x -> same_among m l l' -> same_among m l (x :: l').

(** Two collections of [n] points: the same points match the filters, and those are equally
    far from the query. *)
Definition agree (n : nat) (filters : list label) (lc lc' : label_ctx) (dist dist' : nat -> f32) : Prop :=
  sorted_labels filters /\ labelled n lc /\ labelled n lc' /\
  forall id, id < n -> (point_matches lc filters id <-> point_matches lc' filters id) /\ (point_matches lc filters id -> dist id = dist' id).

(** A hash table: the ids under a key; two tables with the same planes that hold the same
    points of [m] under every key. *)
Definition bucket (t : table) (k : N) : list nat := match map_get (t_map t) k with Some l => l | None => [] end.
Definition same_table (m : nat -> Prop) (t t' : table) : Prop := t_hps t = t_hps t' /\ forall k, same_among m (bucket t k) (bucket t' k).

(** What the caller of an LSH search gets. *)
Definition answer_of {A B} (r : res (A * B)) : res A := do x <- r; Ok (fst x).

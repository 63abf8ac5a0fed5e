(** * Specification: being the k nearest of a collection.

    Independent of any model of the code. *)
From Coq Require Import List Sorting.Sorted Sorting.Permutation.
From Verif Require Import Float32.
Import ListNotations.

(** A scored point: its id and its distance. *)
Definition scored := (nat * f32)%type.

Definition no_farther (x y : scored) : Prop := fle (snd x) (snd y) = true.

(** In non-decreasing distance order. *)
Definition by_distance (l : list scored) : Prop := StronglySorted no_farther l.

(** [out] is a list of the [k] nearest elements of [cands], nearest first (all
    of them if there are fewer than [k]): what is left out is not nearer than
    anything kept. *)
Definition is_top_k (k : nat) (cands out : list scored) : Prop :=
  exists rest,
    Permutation cands (out ++ rest) /\
    length out = min k (length cands) /\
    by_distance out /\
    (forall x y, In x out -> In y rest -> no_farther x y).

(** Attach distances to ids. *)
Definition score (dist : nat -> f32) (ids : list nat) : list scored :=
  map (fun id => (id, dist id)) ids.

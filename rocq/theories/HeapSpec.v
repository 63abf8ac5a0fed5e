(** * Specification: std::priority_queue with interleaved push and pop.

    A heap is the list of its elements in some internal order.  The standard fixes
    neither that order nor which of several largest elements is on top, so the theorems
    quantify over all functions that meet this promise. *)
From Coq Require Import List Sorting.Sorted Sorting.Permutation.
From Verif Require Import Float32.
Import ListNotations.

(** [pushf x h] is h.emplace(x); [takef h] gives h.top() and the heap after h.pop(), [None]
    when h is empty.  With a NaN among the distances the comparison is no order and
    nothing is promised. *)
Definition heap_ok (pushf : nat * f32 -> list (nat * f32) -> list (nat * f32))
    (takef : list (nat * f32) -> option ((nat * f32) * list (nat * f32))) : Prop :=
  (forall x h, Permutation (x :: h) (pushf x h)) /\
  takef [] = None /\
  (forall h, h <> [] -> (forall z, In z h -> is_nan (snd z) = false) ->
     exists x r, takef h = Some (x, r) /\ Permutation h (x :: r) /\ forall y, In y r -> fle (snd y) (snd x) = true).

(** std::sort of (id, distance) pairs by distance. *)
Definition sorts_pairs (sortf : list (nat * f32) -> list (nat * f32)) : Prop :=
  forall l, (forall z, In z l -> is_nan (snd z) = false) ->
    Permutation l (sortf l) /\ StronglySorted (fun x y => fle (snd x) (snd y) = true) (sortf l).

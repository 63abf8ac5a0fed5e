(** * Specification: what std::sort promises.

    std::sort is not stable and its order among equal elements is unspecified, so
    every theorem quantifies over all functions that meet this promise. *)
From Coq Require Import List Sorting.Sorted Sorting.Permutation.
From Verif Require Import Float32 PoolModel.
Import ListNotations.

(** std::sort on a vector of Neighbor (operator< compares distances,
    include/index.h:59): on lists without NaN distances the result is a
    permutation in non-decreasing distance order.  With a NaN operator< is not a
    strict weak order and the standard promises nothing. *)
Definition sorts (sortf : list neighbor -> list neighbor) : Prop :=
  forall l, (forall z, In z l -> is_nan (ndist z) = false) ->
    Permutation l (sortf l) /\
    StronglySorted (fun x y => fle (ndist x) (ndist y) = true) (sortf l).

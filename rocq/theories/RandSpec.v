(** * What a sample at a rate is. *)
From Coq Require Import NArith ZArith Reals List Arith Sorting.Sorted.
Import ListNotations.
Local Open Scope R_scope.

(** A word of the generator as a number in [0, 1). *)
Definition fraction (w : N) : R := IZR (Z.of_N w) / powerRZ 2 32.

(** The ids of a sample of [n] points at [rate]: increasing, and point [i] is in the sample if its
    word is below the rate, out of it if its word is not below, but for a margin of 2^-24. *)
Definition sample_at (rate : R) (words : nat -> N) (n : nat) (ids : list nat) : Prop :=
  StronglySorted lt ids /\ (forall i, In i ids -> (i < n)%nat) /\
  (forall i, (i < n)%nat -> fraction (words i) + powerRZ 2 (-24) < rate -> In i ids) /\
  (forall i, rate + powerRZ 2 (-24) <= fraction (words i) -> ~ In i ids).

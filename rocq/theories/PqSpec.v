(** * Specification of product quantisation. *)
From Coq Require Import List Arith.
From Verif Require Import Float32 ClosestSpec.
Import ListNotations.

(** The sizes of consecutive chunks of [dim] dimensions as even as possible: the first
    dim mod chunks ones have one more. *)
Definition chunk_size (dim chunks i : nat) : nat := dim / chunks + (if i <? dim mod chunks then 1 else 0).

(** [offs] are the boundaries of [chunks] consecutive blocks that cover 0 ... dim - 1. *)
Definition boundaries (dim chunks : nat) (offs : list nat) : Prop :=
  length offs = S chunks /\ nth_error offs 0 = Some 0 /\ nth_error offs chunks = Some dim /\
  forall i, i < chunks -> exists a, nth_error offs i = Some a /\ nth_error offs (S i) = Some (a + chunk_size dim chunks i).

(** A point minus the centroid; the coordinates of a chunk. *)
Definition centred (centroid x : list f32) : list f32 := map (fun p => fsub (fst p) (snd p)) (combine x centroid).
Definition coords (a size : nat) (x : list f32) : list f32 := firstn size (skipn a x).

(** The distance of chunk [a, a + size) of point [p] to the pivots. *)
Definition pivot_dist (cdist : nat -> list f32 -> list f32 -> f32) (centroid : list f32) (pivots rows : list (list f32)) (a size p c : nat) : f32 :=
  cdist p (coords a size (centred centroid (nth p rows []))) (coords a size (nth c pivots [])).

(** Matrices of the right shapes. *)
Definition rows_of (n dim : nat) (m : list (list f32)) : Prop := length m = n /\ forall x, In x m -> length x = dim.

(** Usable distances: no NaN among them, and one below FLT_MAX for each point and chunk. *)
Definition usable (dist : nat -> f32) (nc : nat) : Prop := (forall c, c < nc -> is_nan (dist c) = false) /\ exists c, c < nc /\ flt (dist c) FLT_MAX = true.

(** The parallel loops of every block and chunk run in some order; [bs] is the number of
    points of a block, [mbs] the block size of the closest centre computation. *)
Definition pq_orders (n bs mbs : nat) (orders : nat -> nat -> nat -> list (nat * nat)) : Prop :=
  forall b i, let size := min (S b * bs) n - b * bs in block_orders size 1 (min size mbs) (orders b i).

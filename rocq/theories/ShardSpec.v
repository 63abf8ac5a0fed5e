(** * Specification of sharding. *)
From Coq Require Import List Arith NArith.
From Verif Require Import Bytes Float32 TopKSpec ClosestSpec.
Import ListNotations.

(** The file of [n] vectors given as rows of bytes. *)
Definition vector_file (dim : nat) (rows : list (list N)) : list N := u32 (N.of_nat (length rows)) ++ u32 (N.of_nat dim) ++ concat rows.

(** The points of shard [i], in increasing order, each as often as it was assigned to it. *)
Definition members (assign : nat -> list nat) (n i : nat) : list nat := flat_map (fun p => repeat p (count_occ Nat.eq_dec (assign p) i)) (seq 0 n).

(** The files of a shard: its vectors and its ids. *)
Definition shard_file (dim : nat) (rows : list (list N)) (ids : list nat) : list N := vector_file dim (map (fun p => nth p rows []) ids).
Definition id_file (ids : list nat) : list N := vector_file 1 (map (fun p => u32 (N.of_nat p)) ids).

(** Each point is assigned to its [k] nearest of [nc] centres, all different. *)
Definition nearest_shards (dmat : nat -> nat -> f32) (n nc k : nat) (assign : nat -> list nat) : Prop :=
  forall p, p < n -> length (assign p) = k /\ NoDup (assign p) /\ (forall c, In c (assign p) -> c < nc) /\
    is_top_k k (score (dmat p) (seq 0 nc)) (score (dmat p) (assign p)) /\ (k = 1 -> exists c, assign p = [c] /\ first_nearest (dmat p) nc c).

(** Usable distances: no NaN, and with k = 1 one below FLT_MAX for each point. *)
Definition usable_dists (dmat : nat -> nat -> f32) (n nc k : nat) : Prop :=
  forall p, p < n -> (forall c, is_nan (dmat p c) = false) /\ (k = 1 -> exists c, c < nc /\ flt (dmat p c) FLT_MAX = true).

(** The orders of the parallel loops of each block of at most [bs] points. *)
Definition shard_orders (n k bs mbs : nat) (orders : nat -> nat -> list (nat * nat)) : Prop :=
  forall b, let size := min (S b * bs) n - b * bs in block_orders size k (min size mbs) (orders b).

(** A data set of [n] rows of [rowlen] bytes that fits a file. *)
Definition rows_ok (n rowlen dim : nat) (rows : list (list N)) : Prop :=
  length rows = n /\ (forall r, In r rows -> length r = rowlen) /\ (N.of_nat n < 2 ^ 32)%N /\ (N.of_nat dim < 2 ^ 32)%N /\
  (N.of_nat (n * rowlen) + 8 < 18446744073709551616)%N.

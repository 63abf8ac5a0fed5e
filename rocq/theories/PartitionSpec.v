(** * Specification of partitioning. *)
From Coq Require Import ZArith NArith String List Arith Bool Floats.SpecFloat.
From Verif Require Import Base Bytes Float32 IndexFileModel LloydModel ShardModel ShardSpec PqFileModel PqFileSpec PartitionModel.
Import ListNotations.

(** The points of shard [i] when [assign p] are the shards of point p. *)
Definition shard_points_of (assign : nat -> list nat) (n i : nat) : list nat := filter (fun p => if in_dec Nat.eq_dec i (assign p) then true else false) (seq 0 n).

(** The files that are written. *)
Definition partition_names (prefix : string) (p : nat) : list string :=
  centroids_name prefix :: flat_map (fun i => [shard_name prefix i; ids_name prefix i]) (seq 0 p).

(** No shard is estimated to need more than the budget (nor is the budget negative): the
    count in the sample, over the sampling rate, as an integer, through the formula. *)
Definition fits_budget (dim w : nat) (degree : N) (rate budget : spec_float) (sizes : list N) : Prop :=
  SFltb (ram_limit budget) f64_zero = false /\
  forall s, In s sizes -> exists q, u64_of_f64 (f64_div (f64_of_N s) rate) = Ok q /\ SFltb (ram_limit budget) (vamana_ram q dim w degree) = false.

(** The distances of the points of the data file to centres. *)
Definition data_dist (a : clenv) (rows cs : list (list f32)) (p c : nat) : f32 := cl_dist a p (nth p rows []) (nth c cs []).

(** The sizes of the shards as estimated with the test sample (C76). *)
Definition round_sizes (est : clenv) (garbage : list nat) (test cs : list (list f32)) (k : nat) : res (list N) :=
  estimate_sizes (cl_popf est) (cl_mbs est) (cl_maxb est) (data_dist est test cs) (length test) (length cs) k (cl_orders est) garbage.

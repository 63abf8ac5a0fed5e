(** * Theorems: partitioning a data set (C87).

    [e], [env p] are what k-means depends on besides its points (random numbers,
    schedules, computed distances), [a], [est p] what assigning points to centres depends
    on.  [pick], [pick2] tell which vectors are sampled. *)
From Coq Require Import ZArith NArith String List Arith Lia Bool Sorting.Permutation Floats.SpecFloat.
From Verif Require Import Base Bytes Float32 FloatBits DivFacts BinModel BinSpec IndexFileModel ClosestModel ClosestSpec PopInst PqModel PqSpec LloydModel ShardModel ShardSpec
  PqFileModel PqFileSpec PartitionModel PartitionSpec PartitionProofs.
Import ListNotations.

(** C87.  partition: the centres are the k-means centres of the sampled vectors; they are
    saved; each shard's two files hold the vectors and the ids of exactly the points that
    have the shard among their k nearest; no other file changes. *)
Theorem C87_partition : forall g g' e a w conv pick data prefix nparts reps k n dim base d d', rows_ok n (dim * w) dim base -> d data = Some (vector_file dim base) ->
  ~ In data (partition_names prefix nparts) -> 1 <= reps -> partition g g' e a w conv pick data prefix nparts reps k d = Ok d' ->
  exists cs, kmeans_new e dim nparts reps (picked w conv dim base pick) = Ok cs /\ rows_of nparts dim cs /\
    d' (centroids_name prefix) = Some (float_file nparts dim cs) /\ same_but (partition_names prefix nparts) d d' /\
    (pops (cl_popf a) -> 1 <= cl_mbs a -> 1 <= cl_maxb a -> 1 <= nparts -> k <= nparts -> shard_orders n k (min n (cl_maxb a)) (cl_mbs a) (cl_orders a) ->
     usable_dists (data_dist a (float_rows w conv dim base) cs) n nparts k ->
     exists assign, nearest_shards (data_dist a (float_rows w conv dim base) cs) n nparts k assign /\
       forall i, i < nparts -> d' (ids_name prefix i) = Some (id_file (shard_points_of assign n i)) /\ d' (shard_name prefix i) = Some (shard_file dim base (shard_points_of assign n i))).
Proof. exact partition_ok. Qed.
Print Assumptions C87_partition.

(** C87.  partition_with_ram_budget, when it returns: the number of parts is the least of
    3, 5, 7, ... for which the shards, as estimated with the second sample, fit the budget;
    the centres and the ids of the shards are saved, and no other file changes.  The
    vectors of a shard can then be retrieved from its ids. *)
Theorem C87_budget : forall fuel g g2 g' env est garbage a w conv pick pick2 rate budget degree data prefix k n dim base d p d',
  rows_ok n (dim * w) dim base -> d data = Some (vector_file dim base) -> (forall q, ~ In data (partition_names prefix q)) ->
  partition_budget fuel g g2 g' env est garbage a w conv pick pick2 rate budget degree data prefix k d = Ok (Some (p, d')) ->
  let train := picked w conv dim base pick in let test := picked w conv dim base pick2 in
  exists j cs, p = 3 + 2 * j /\ kmeans_new (env p) dim p 10 train = Ok cs /\ rows_of p dim cs /\
    (exists sizes, round_sizes (est p) (garbage p) test cs k = Ok sizes /\ fits_budget dim w degree rate budget sizes) /\
    (forall i, i < j -> exists cs' sizes, kmeans_new (env (3 + 2 * i)) dim (3 + 2 * i) 10 train = Ok cs' /\ round_sizes (est (3 + 2 * i)) (garbage (3 + 2 * i)) test cs' k = Ok sizes /\
      ~ fits_budget dim w degree rate budget sizes) /\
    d' (centroids_name prefix) = Some (float_file p dim cs) /\ same_but (centroids_name prefix :: map (ids_name prefix) (seq 0 p)) d d' /\
    (pops (cl_popf a) -> 1 <= cl_mbs a -> 1 <= cl_maxb a -> k <= p -> shard_orders n k (min n (cl_maxb a)) (cl_mbs a) (cl_orders a) ->
     usable_dists (data_dist a (float_rows w conv dim base) cs) n p k ->
     exists assign, nearest_shards (data_dist a (float_rows w conv dim base) cs) n p k assign /\
       forall i, i < p -> d' (ids_name prefix i) = Some (id_file (shard_points_of assign n i)) /\
         forall gr g1 g3 maxb, 1 <= maxb -> length g1 = 4 -> length g3 = 4 ->
           retrieve gr g1 g3 maxb w (d' data) (d' (ids_name prefix i)) = Ok (shard_file dim base (shard_points_of assign n i))).
Proof. exact partition_budget_ok. Qed.
Print Assumptions C87_budget.

(** C87.  The estimated sizes are the numbers of sampled points in each shard. *)
Theorem C87_sizes : forall est garbage test cs k, pops (cl_popf est) -> 1 <= cl_mbs est -> 1 <= cl_maxb est -> 1 <= length test -> 1 <= length cs -> k <= length cs ->
  usable_dists (data_dist est test cs) (length test) (length cs) k -> shard_orders (length test) k (min (length test) (cl_maxb est)) (cl_mbs est) (cl_orders est) ->
  length garbage = min (length test) (cl_maxb est) * k -> (N.of_nat (length test * k) < 2 ^ 32)%N ->
  exists assign, nearest_shards (data_dist est test cs) (length test) (length cs) k assign /\
    round_sizes est garbage test cs k = Ok (map (fun i => N.of_nat (length (shard_points_of assign (length test) i))) (seq 0 (length cs))).
Proof. exact round_sizes_ok. Qed.
Print Assumptions C87_sizes.

(** C87.  Refuted: that the search for a number of parts ends.  With a negative budget no
    number of rounds is enough. *)
Theorem C87_ends_refuted : forall env est garbage w dim k degree rate budget train test, SFltb (ram_limit budget) f64_zero = true -> forall fuel p r,
  budget_loop fuel env est garbage w dim k degree rate budget train test p = Ok r -> r = None.
Proof. exact budget_negative. Qed.
Print Assumptions C87_ends_refuted.

(** Seven vectors of two floats. *)
Definition ex_row (l : list Z) : list N := concat (map (fun z => u32 (bits_of_f32 (f32_of_Z z))) l).
Definition ex_base : list (list N) := [ex_row [0; 0]; ex_row [10; 1]; ex_row [1; 0]; ex_row [10; 0]; ex_row [50; 2]; ex_row [11; 0]; ex_row [50; 4]]%Z.
Definition ex_l2 (x y : list f32) : f32 := fold_left fadd (map (fun q => fmul (fsub (fst q) (snd q)) (fsub (fst q) (snd q))) (combine x y)) f32_zero.
Definition ex_half : spec_float := S754_finite false 4503599627370496 (-53).
Definition ex_block (k n bs b : nat) : list (nat * nat) := rev (list_prod (seq (b * bs) (min bs (n - b * bs))) (seq 0 k)).
Definition ex_env (n : nat) : kmenv := mkKm pop_all 3 2 ex_l2 (fun _ => ex_l2) 0 (fun _ => ex_half) (fun j => j) 20 (fun _ => ex_block 1 n (min n 3)).
Definition ex_cl (k n : nat) : clenv := mkCl pop_all 3 4 (fun _ => ex_l2) (fun b => let size := min (S b * min n 4) n - b * min n 4 in ex_block k size (min size 3)).
Definition ex_d (name : string) : option (list N) := if (name =? "data.bin")%string then Some (vector_file 2 ex_base) else None.

(** The budget is given in bytes here; the rate is m / n. *)
Definition ex_budget (bytes : N) : spec_float := f64_div (f64_of_N bytes) (f64_of_N 1073741824).
Definition ex_rate (m n : N) : spec_float := f64_div (f64_of_N m) (f64_of_N n).
Definition ex_run (pick2 : nat -> bool) (m : nat) (rate : spec_float) (bytes : N) : res (option (nat * fs)) :=
  partition_budget 5 (fun _ => 0%N) (fun _ => 0%N) (fun _ => 0%N) (fun _ => ex_env 7) (fun _ => ex_cl 1 m) (fun _ => repeat 0 (min m 4)) (ex_cl 1 7) 4 f32_of_bits (fun _ => true) pick2
    rate (ex_budget bytes) 4 "data.bin" "p" 1 ex_d.

Example C87_case : rows_ok 7 (2 * 4) 2 ex_base /\ pops pop_all /\ shard_orders 7 2 (min 7 4) 3 (cl_orders (ex_cl 2 7)) /\
  (match partition (fun _ => 0%N) (fun _ => 0%N) (ex_env 4) (ex_cl 2 7) 4 f32_of_bits (fun i => i <? 4) "data.bin" "p" 2 15 2 ex_d with
   | Ok d => d "p_centroids.bin"%string = Some (float_file 2 2 [[f32_of_bits 1056964608; f32_of_Z 0]; [f32_of_Z 10; f32_of_bits 1056964608]]) /\
             d "p_subshard-0_ids_uint32.bin"%string = Some (id_file [0; 1; 2; 3; 4; 5; 6])
   | _ => False end) /\
  (match partition (fun _ => 0%N) (fun _ => 0%N) (ex_env 4) (ex_cl 1 7) 4 f32_of_bits (fun i => i <? 4) "data.bin" "p" 2 15 1 ex_d with
   | Ok d => d "p_subshard-0_ids_uint32.bin"%string = Some (id_file [0; 2]) /\ d "p_subshard-1_ids_uint32.bin"%string = Some (id_file [1; 3; 4; 5; 6]) /\
             d "p_subshard-0.bin"%string = Some (vector_file 2 [ex_row [0; 0]; ex_row [1; 0]]%Z)
   | _ => False end).
Proof.
  split; [|split; [exact pop_all_pops|split; [|split]]].
  - split; [reflexivity|]. split; [|repeat split; reflexivity]. intros r Hr. cbn in Hr. repeat (destruct Hr as [<-|Hr]; [reflexivity|]). destruct Hr.
  - intros b i size. apply Permutation_sym, Permutation_rev.
  - vm_compute. auto.
  - vm_compute. auto.
Qed.

(** A shard of three points is estimated at 112.32 bytes: with 120 bytes three parts are
    enough; with 100 bytes neither three nor five are, but seven. *)
Example C87_budget_case :
  match ex_run (fun _ => true) 7 (ex_rate 1 1) 120, ex_run (fun _ => true) 7 (ex_rate 1 1) 100 with
  | Ok (Some (p, d)), Ok (Some (p', d')) => p = 3 /\ p' = 7 /\ d "p_subshard-2_ids_uint32.bin"%string = Some (id_file [1; 3; 5]) /\ d' "p_subshard-2_ids_uint32.bin"%string = Some (id_file [3])
  | _, _ => False end.
Proof. vm_compute. auto. Qed.

(** C87.  Refuted: that the shards written fit the budget.  The estimate is made with a
    sample; here two of seven points are drawn at the rate 1/2, three parts are accepted
    for 100 bytes, and the third shard needs more. *)
Theorem C87_shards_fit_refuted : exists d,
  ex_run (fun i => i <? 2) 2 (ex_rate 1 2) 100 = Ok (Some (3, d)) /\ d "p_subshard-2_ids_uint32.bin"%string = Some (id_file [1; 3; 5]) /\
  SFltb (ram_limit (ex_budget 100)) (vamana_ram 3 2 4 4) = true.
Proof.
  assert (E : match ex_run (fun i => i <? 2) 2 (ex_rate 1 2) 100 with Ok (Some (p, d)) => p = 3 /\ d "p_subshard-2_ids_uint32.bin"%string = Some (id_file [1; 3; 5]) | _ => False end) by (vm_compute; auto).
  destruct (ex_run (fun i => i <? 2) 2 (ex_rate 1 2) 100) as [[[p d]|]| | | |]; try (exfalso; exact E). destruct E as [-> E]. exists d. split; [reflexivity|]. split; [exact E|]. vm_compute. reflexivity.
Qed.
Print Assumptions C87_shards_fit_refuted.

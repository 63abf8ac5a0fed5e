(** * Theorems: sharding and sampling (C56, C57, C58, C59, C76).

    [vector_file dim rows] is a .bin file of the given rows.  [dmat p c] is the computed
    distance of point p to shard centre c.  [popf] is any priority queue ([pops]), [mbs]
    and [maxb] any block sizes, [orders] any order of the parallel loops, [g] anything
    the uninitialised memory may hold. *)
From Coq Require Import ZArith NArith SpecFloat List Arith Lia Bool Sorting.Permutation.
From Verif Require Import Base Bytes Float32 ListLemmas TopKSpec StreamModel ClosestModel ClosestSpec PopInst PqModel ShardModel ShardSpec SliceModel
  ShardProofs ShardProofs2 ShardProofs3 SliceProofs.
Import ListNotations.

(** C56.  With k_base not above the number of shards every point goes to its k_base
    nearest shards, all different; shard i holds exactly the points assigned to it, in
    increasing order and once each, with their vectors; the sizes add up to k_base * n. *)
Theorem C56_nearest_shards : forall g popf mbs maxb wd dmat n w nc dim k orders rows, pops popf -> 1 <= mbs -> 1 <= maxb -> 1 <= nc -> 1 <= n ->
  rows_ok n (dim * w) dim rows -> usable_dists dmat n nc k -> shard_orders n k (min n maxb) mbs orders -> k <= nc ->
  exists assign, nearest_shards dmat n nc k assign /\
    (exists out, shard_data g popf mbs maxb wd dmat w nc dim k orders (Some (vector_file dim rows)) = Ok (Some out) /\ length out = nc /\
      forall i, i < nc -> let ids := filter (fun p => if in_dec Nat.eq_dec i (assign p) then true else false) (seq 0 n) in
        nth_error out i = Some (if wd then Some (shard_file dim rows ids) else None, id_file ids)) /\
    sum (map (fun i => length (filter (fun p => if in_dec Nat.eq_dec i (assign p) then true else false) (seq 0 n))) (seq 0 nc)) = k * n.
Proof. exact shard_nearest. Qed.
Print Assumptions C56_nearest_shards.

(** C56.  With k_base above the number of shards all copies go to shard 0. *)
Theorem C56_too_many_copies : forall g popf mbs maxb wd dmat n w nc dim k orders rows, pops popf -> 1 <= mbs -> 1 <= maxb -> 1 <= nc -> 1 <= n ->
  rows_ok n (dim * w) dim rows -> usable_dists dmat n nc k -> shard_orders n k (min n maxb) mbs orders -> nc < k ->
  exists out, shard_data g popf mbs maxb wd dmat w nc dim k orders (Some (vector_file dim rows)) = Ok (Some out) /\ length out = nc /\
    forall i, i < nc -> let ids := if i =? 0 then flat_map (fun p => repeat p k) (seq 0 n) else [] in
      nth_error out i = Some (if wd then Some (shard_file dim rows ids) else None, id_file ids).
Proof. exact shard_too_many. Qed.
Print Assumptions C56_too_many_copies.

(** C56.  A file of another dimension is refused; one without points makes the code
    divide by zero. *)
Theorem C56_other_dimension : forall g popf mbs maxb wd dmat n w nc dim dim' rl k orders rows, rows_ok n rl dim' rows -> dim <> dim' ->
  shard_data g popf mbs maxb wd dmat w nc dim k orders (Some (vector_file dim' rows)) = Ok None.
Proof. exact shard_dim_mismatch. Qed.
Print Assumptions C56_other_dimension.

Theorem C56_no_points_refuted : forall g popf mbs maxb wd dmat w nc dim k orders, (N.of_nat dim < 2 ^ 32)%N ->
  shard_data g popf mbs maxb wd dmat w nc dim k orders (Some (vector_file dim [])) = UB.
Proof. exact shard_no_points. Qed.
Print Assumptions C56_no_points_refuted.

(** Five points of two bytes, three shards, two copies, blocks of two points. *)
Definition ex_rows : list (list N) := [[1; 2]; [30; 3]; [55; 4]; [6; 5]; [40; 6]]%N.
Definition ex_dmat (p c : nat) : f32 := f32_of_Z ((nth p [1; 30; 55; 6; 40] 0 - nth c [5; 30; 55] 1000) ^ 2)%Z.
Definition ex_orders (k n b i : nat) : list (nat * nat) :=
  rev (list_prod (seq (i * min (min (S b * 2) n - b * 2) 3) (min (min (min (S b * 2) n - b * 2) 3) (min (S b * 2) n - b * 2 - i * min (min (S b * 2) n - b * 2) 3))) (seq 0 k)).

Lemma ex_usable : usable_dists ex_dmat 5 3 2.
Proof.
  intros p Hp. split; [|lia]. intros c. unfold ex_dmat. destruct p as [|[|[|[|[|p]]]]]; try lia; destruct c as [|[|[|c]]]; try (vm_compute; reflexivity); cbn [nth]; destruct c; vm_compute; reflexivity.
Qed.

Lemma ex_rows_ok : rows_ok 5 (2 * 1) 2 ex_rows.
Proof.
  split; [reflexivity|]. split; [intros r Hr; cbn in Hr; repeat (destruct Hr as [<-|Hr]; [reflexivity|]); destruct Hr|]. split; [reflexivity|]. split; reflexivity.
Qed.

Lemma ex_orders_ok : forall k, shard_orders 5 k (min 5 2) 3 (ex_orders k 5).
Proof. intros k b size i. apply Permutation_sym, Permutation_rev. Qed.

Example C56_case : rows_ok 5 (2 * 1) 2 ex_rows /\ usable_dists ex_dmat 5 3 2 /\ shard_orders 5 2 (min 5 2) 3 (ex_orders 2 5) /\
  shard_data (fun _ => 7%N) pop_all 3 2 true ex_dmat 1 3 2 2 (ex_orders 2 5) (Some (vector_file 2 ex_rows)) =
    Ok (Some (map (fun l => (Some (shard_file 2 ex_rows l), id_file l)) [[0; 1; 3]; [0; 1; 2; 3; 4]; [2; 4]])).
Proof. split; [exact ex_rows_ok|]. split; [exact ex_usable|]. split; [apply ex_orders_ok|]. vm_compute. reflexivity. Qed.

Example C56_too_many_case : shard_data (fun _ => 7%N) pop_all 3 2 false ex_dmat 1 3 2 4 (ex_orders 4 5) (Some (vector_file 2 ex_rows)) =
    Ok (Some (map (fun l => (None, id_file l)) [[0; 0; 0; 0; 1; 1; 1; 1; 2; 2; 2; 2; 3; 3; 3; 3; 4; 4; 4; 4]; []; []])).
Proof. vm_compute. reflexivity. Qed.

(** C57.  Sharding only ids and retrieving the vectors of each shard later gives, for
    every shard, the files of direct sharding; all three may use different blocks. *)
Theorem C57_two_phase : forall g g' g'' g1 g2 popf mbs mbs' maxb maxb' maxb'' dmat n w nc dim k orders orders' rows, pops popf -> 1 <= mbs -> 1 <= mbs' ->
  1 <= maxb -> 1 <= maxb' -> 1 <= maxb'' -> 1 <= nc -> 1 <= n -> rows_ok n (dim * w) dim rows -> usable_dists dmat n nc k ->
  shard_orders n k (min n maxb) mbs orders -> shard_orders n k (min n maxb') mbs' orders' -> k <= nc -> length g1 = 4 -> length g2 = 4 ->
  exists out out', shard_data g popf mbs maxb true dmat w nc dim k orders (Some (vector_file dim rows)) = Ok (Some out) /\
    shard_data g' popf mbs' maxb' false dmat w nc dim k orders' (Some (vector_file dim rows)) = Ok (Some out') /\ length out = nc /\ length out' = nc /\
    forall i, i < nc -> exists df idf, nth_error out i = Some (Some df, idf) /\ nth_error out' i = Some (None, idf) /\
      retrieve g'' g1 g2 maxb'' w (Some (vector_file dim rows)) (Some idf) = Ok df.
Proof. exact two_phase. Qed.
Print Assumptions C57_two_phase.

(** C57.  Retrieving any increasing list of ids gives exactly their vectors. *)
Theorem C57_retrieve : forall g g1 g2 maxb n w dim rows (m : nat -> bool), 1 <= maxb -> 1 <= n -> rows_ok n (dim * w) dim rows -> length g1 = 4 -> length g2 = 4 ->
  let ids := filter m (seq 0 n) in retrieve g g1 g2 maxb w (Some (vector_file dim rows)) (Some (id_file ids)) = Ok (shard_file dim rows ids).
Proof. exact retrieve_eq. Qed.
Print Assumptions C57_retrieve.

Example C57_case : retrieve (fun _ => 7%N) [0; 0; 0; 0]%N [0; 0; 0; 0]%N 2 1 (Some (vector_file 2 ex_rows)) (Some (id_file [1; 2; 4])) =
  Ok (vector_file 2 [[30; 3]; [55; 4]; [40; 6]]%N).
Proof. vm_compute. reflexivity. Qed.

(** C57.  With repeated ids (k_base above the number of shards) only the first is found. *)
Theorem C57_repeated_ids_refuted :
  exists out, shard_data (fun _ => 7%N) pop_all 3 2 true ex_dmat 1 1 2 2 (ex_orders 2 5) (Some (vector_file 2 ex_rows)) = Ok (Some [out]) /\
    snd out = id_file [0; 0; 1; 1; 2; 2; 3; 3; 4; 4] /\
    retrieve (fun _ => 7%N) [0; 0; 0; 0]%N [0; 0; 0; 0]%N 2 1 (Some (vector_file 2 ex_rows)) (Some (snd out)) = Ok (vector_file 2 [[1; 2]]%N) /\
    fst out <> Some (vector_file 2 [[1; 2]]%N).
Proof. eexists. split; [vm_compute; reflexivity|]. split; [vm_compute; reflexivity|]. split; [vm_compute; reflexivity|]. vm_compute. intros H. discriminate. Qed.
Print Assumptions C57_repeated_ids_refuted.

(** C58.  Whatever points are picked, the data file holds the vectors of the picked
    points and the id file their ids, in increasing order. *)
Theorem C58_slice_files : forall g w n dim rows pick, rows_ok n (dim * w) dim rows ->
  let ids := filter pick (seq 0 n) in slice_file g w pick (Some (vector_file dim rows)) = Ok (shard_file dim rows ids, id_file ids).
Proof. exact slice_file_ok. Qed.
Print Assumptions C58_slice_files.

Example C58_case : slice_file (fun _ => 7%N) 1 (fun i => nth i [true; false; true; true; false] true) (Some (vector_file 2 ex_rows)) =
  Ok (vector_file 2 [[1; 2]; [55; 4]; [6; 5]]%N, id_file [0; 2; 3]).
Proof. vm_compute. reflexivity. Qed.

(** C58.  The samples returned in memory: the picked vectors converted to float, from a
    file or from a matrix. *)
Theorem C58_slice_floats : forall g w conv n dim rows pick, rows_ok n (dim * w) dim rows ->
  let ids := filter pick (seq 0 n) in slice_floats g w conv pick (Some (vector_file dim rows)) =
    Ok (concat (map (fun p => map conv (dec_all w dim (nth p rows []))) ids), length ids, dim).
Proof. exact slice_floats_ok. Qed.
Print Assumptions C58_slice_floats.

Theorem C58_slice_memory : forall conv dim pick rows, (forall r, In r rows -> length r = dim) -> forall cnt i, i + cnt <= length rows ->
  slice_memory conv dim pick (concat rows) i cnt = Ok (map (fun p => map conv (nth p rows [])) (filter pick (seq i cnt))).
Proof. exact slice_memory_ok. Qed.
Print Assumptions C58_slice_memory.

Example C58_floats_case : slice_floats (fun _ => 7%N) 1 (fun x => f32_of_Z (Z.of_N x)) (fun i => nth i [true; false; true] false) (Some (vector_file 2 ex_rows)) =
    Ok (map f32_of_Z [1; 2; 55; 4]%Z, 2, 2) /\
  slice_memory (fun x => f32_of_Z (Z.of_N x)) 2 (fun i => nth i [true; false; true] false) (concat ex_rows) 0 5 = Ok [map f32_of_Z [1; 2]%Z; map f32_of_Z [55; 4]%Z].
Proof. split; vm_compute; reflexivity. Qed.

(** C59.  The files of the shards do not depend on the block sizes nor on the order of
    the parallel loops. *)
Theorem C59_shard_block_free : forall g g' popf mbs mbs' maxb maxb' wd dmat n w nc dim k orders orders' rows, pops popf -> 1 <= mbs -> 1 <= mbs' -> 1 <= maxb -> 1 <= maxb' -> 1 <= nc -> 1 <= n ->
  rows_ok n (dim * w) dim rows -> usable_dists dmat n nc k -> shard_orders n k (min n maxb) mbs orders -> shard_orders n k (min n maxb') mbs' orders' ->
  shard_data g popf mbs maxb wd dmat w nc dim k orders (Some (vector_file dim rows)) = shard_data g' popf mbs' maxb' wd dmat w nc dim k orders' (Some (vector_file dim rows)).
Proof. exact shard_block_free. Qed.
Print Assumptions C59_shard_block_free.

(** C76.  The estimated shard sizes are the numbers of points each shard would get. *)
Theorem C76_estimate : forall popf mbs maxb dmat n nc k orders garbage, pops popf -> 1 <= mbs -> 1 <= maxb -> 1 <= n -> 1 <= nc -> k <= nc -> usable_dists dmat n nc k ->
  shard_orders n k (min n maxb) mbs orders -> length garbage = min n maxb * k -> (N.of_nat (n * k) < 2 ^ 32)%N ->
  exists assign, nearest_shards dmat n nc k assign /\
    estimate_sizes popf mbs maxb dmat n nc k orders garbage =
      Ok (map (fun i => N.of_nat (length (filter (fun p => if in_dec Nat.eq_dec i (assign p) then true else false) (seq 0 n)))) (seq 0 nc)).
Proof. exact estimate_ok. Qed.
Print Assumptions C76_estimate.

Example C76_case : estimate_sizes pop_all 3 2 ex_dmat 5 3 2 (ex_orders 2 5) [9; 9; 9; 9] = Ok [3; 5; 2]%N.
Proof. vm_compute. reflexivity. Qed.

(** C76.  With k_base above the number of shards the estimate reads memory never written. *)
Theorem C76_too_many_copies_refuted : forall popf mbs maxb dmat n nc k orders garbage, nc < k -> estimate_sizes popf mbs maxb dmat n nc k orders garbage = UB.
Proof. intros popf mbs maxb dmat n nc k orders garbage H. unfold estimate_sizes. rewrite (proj2 (Nat.ltb_lt nc k)) by auto. now destruct (_ =? 0). Qed.
Print Assumptions C76_too_many_copies_refuted.

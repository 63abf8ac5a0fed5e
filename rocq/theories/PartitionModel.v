(** * Partitioning a data set (src/partition_and_pq.cpp:857-990). *)
From Coq Require Import ZArith NArith String List Arith Bool Floats.SpecFloat.
From Verif Require Import Base Bytes Float32 FloatBits StreamModel BinModel TextModel IndexFileModel CacheModel ClosestModel TruthModel PqModel LloydModel ConvertModel ShardModel SliceModel PqFileModel.
Import ListNotations.

(** src/partition_and_pq.cpp:879-889 and 944-953: pivot_data is a new array, so a centre
    that is not written is not initialised. *)
Definition kmeans_new (e : kmenv) (dim nc reps : nat) (rows : list (list f32)) : res (list (list f32)) :=
  do first <- first_centers e rows nc;
  do centers <- collect (fun c => match c with Some y => Ok y | None => UB end) first;
  do st <- run_lloyds (km_popf e) (km_mbs e) (km_csz e) (fun p => km_cdist e p (nth p rows [])) (km_dist e)
             (length rows) dim nc reps rows (km_orders e) centers (repeat 0 (length rows)) (repeat [] nc);
  Ok (ll_centers st).

(** src/partition_and_pq.cpp:627-630, 712-713, 878: names of the files. *)
Definition shard_name (prefix : string) (i : nat) : string := (prefix ++ "_subshard-" ++ show (N.of_nat i) ++ ".bin")%string.
Definition ids_name (prefix : string) (i : nat) : string := (prefix ++ "_subshard-" ++ show (N.of_nat i) ++ "_ids_uint32.bin")%string.
Definition centroids_name (prefix : string) : string := (prefix ++ "_centroids.bin")%string.

(** The files of the shards [i] on, when all is written. *)
Fixpoint write_shards (prefix : string) (i : nat) (l : list (option (list N) * list N)) (d : fs) : fs :=
  match l with
  | [] => d
  | (data, ids) :: t =>
      let d1 := match data with Some f => fs_set d (shard_name prefix i) (Some f) | None => d end in
      write_shards prefix (S i) t (fs_set d1 (ids_name prefix i) (Some ids))
  end.

(** Lines 651-653: point [p] of the data file as floats. *)
Definition file_row (w : nat) (conv : N -> f32) (dim : nat) (f : file) (p : nat) : list f32 :=
  match f with Some l => map conv (dec_all w dim (firstn (dim * w) (skipn (8 + p * (dim * w)) l))) | None => [] end.

(** What assigning points to centres depends on: the priority queue, the block sizes, the
    orders of the loops and the computed distance of point p with coordinates x to a
    centre y. *)
Record clenv : Type := mkCl {
  cl_popf : list (nat * f32) -> list (nat * f32); cl_mbs : nat; cl_maxb : nat;
  cl_dist : nat -> list f32 -> list f32 -> f32; cl_orders : nat -> nat -> list (nat * nat)
}.

(** Saving the centres and writing the shards: lines 892-900 with their vectors, 980-985
    only the ids.  A return value -1 of the sharding is not looked at. *)
Definition save_shards (g : nat -> N) (a : clenv) (with_data : bool) (w : nat) (conv : N -> f32) (data prefix : string) (dim k : nat) (cs : list (list f32)) (d : fs) : res fs :=
  do f <- save_bin 4 (map bits_of_f32 (concat cs)) (N.of_nat (length cs)) (N.of_nat dim);
  let d1 := fs_set d (centroids_name prefix) (Some f) in
  do out <- shard_data g (cl_popf a) (cl_mbs a) (cl_maxb a) with_data (fun p c => cl_dist a p (file_row w conv dim (d1 data) p) (nth c cs [])) w (length cs) dim k (cl_orders a) (d1 data);
  Ok (match out with None => d1 | Some l => write_shards prefix 0 l d1 end).

(** src/partition_and_pq.cpp:857-901 partition *)
Definition partition (g g' : nat -> N) (e : kmenv) (a : clenv) (w : nat) (conv : N -> f32) (pick : nat -> bool) (data prefix : string) (nparts reps k : nat) (d : fs) : res fs :=
  do s <- slice_floats g w conv pick (d data);
  let '(floats, n, dim) := s in
  do cs <- kmeans_new e dim nparts reps (split_rows dim n floats);
  save_shards g' a true w conv data prefix dim k cs d.

(** ** src/partition_and_pq.cpp:903-990 partition_with_ram_budget *)

(** Conversion of an unsigned number to double, of a double to _u64 (undefined if it does
    not fit), and the constant 1.3. *)
Definition f64_of_N (n : N) : spec_float := binary_normalize 53 1024 (Z.of_N n) 0 false.
Definition u64_of_f64 (x : spec_float) : res N :=
  match trunc x with Some z => if ((0 <=? z) && (z <? 18446744073709551616))%Z then Ok (Z.to_N z) else UB | None => UB end.
Definition c_1_3 : spec_float := S754_finite false 5854679515581645 (-52).

(** include/essentials.h:78-80 ESTIMATE_VAMANA_RAM_USAGE *)
Definition vamana_ram (size : N) (dim datasize : nat) (degree : N) : spec_float :=
  let s := f64_of_N size in
  f64_mul c_1_3 (f64_add (f64_mul (f64_mul s (f64_of_nat dim)) (f64_of_nat datasize)) (f64_mul (f64_mul (f64_mul s (f64_of_N degree)) (f64_of_nat 4)) c_1_3)).

(** Lines 958-969: the largest estimate, from [m] on.  A count of the sample is divided
    by the sampling rate. *)
Fixpoint max_ram (dim w : nat) (degree : N) (rate : spec_float) (sizes : list N) (m : spec_float) : res spec_float :=
  match sizes with
  | [] => Ok m
  | p :: t =>
      do q <- u64_of_f64 (f64_div (f64_of_N p) rate);
      let r := vamana_ram q dim w degree in
      max_ram dim w degree rate t (if SFltb m r then r else m)
  end.

(** Line 973: max_ram_usage > 1024 * 1024 * 1024 * ram_budget *)
Definition ram_limit (budget : spec_float) : spec_float := f64_mul (f64_of_N 1073741824) budget.
Definition over_budget (dim w : nat) (degree : N) (rate budget : spec_float) (sizes : list N) : res bool :=
  do m <- max_ram dim w degree rate sizes f64_zero;
  Ok (SFltb (ram_limit budget) m).

(** Lines 937-977: [p] is num_parts; [fuel] bounds the rounds and [None] is returned when
    it runs out.  [env p], [est p] and [garbage p] belong to the round with p parts. *)
Fixpoint budget_loop (fuel : nat) (env : nat -> kmenv) (est : nat -> clenv) (garbage : nat -> list nat) (w dim k : nat) (degree : N) (rate budget : spec_float)
    (train test : list (list f32)) (p : nat) : res (option (nat * list (list f32))) :=
  match fuel with
  | O => Ok None
  | S fuel' =>
      do cs <- kmeans_new (env p) dim p 10 train;
      do sizes <- estimate_sizes (cl_popf (est p)) (cl_mbs (est p)) (cl_maxb (est p)) (fun i c => cl_dist (est p) i (nth i test []) (nth c cs []))
                    (length test) p k (cl_orders (est p)) (garbage p);
      do over <- over_budget dim w degree rate budget sizes;
      if over then budget_loop fuel' env est garbage w dim k degree rate budget train test (2 + p)
      else Ok (Some (p, cs))
  end.

(** The number of parts that is returned, and the files.  num_parts is an int; that it
    does not overflow is left out (2^31 parts). *)
Definition partition_budget (fuel : nat) (g g2 g' : nat -> N) (env : nat -> kmenv) (est : nat -> clenv) (garbage : nat -> list nat) (a : clenv) (w : nat) (conv : N -> f32)
    (pick pick2 : nat -> bool) (rate budget : spec_float) (degree : N) (data prefix : string) (k : nat) (d : fs) : res (option (nat * fs)) :=
  do s <- slice_floats g w conv pick (d data);
  let '(floats, n, dim) := s in
  do s2 <- slice_floats g2 w conv pick2 (d data);
  let '(floats2, n2, dim2) := s2 in
  do r <- budget_loop fuel env est garbage w dim k degree rate budget (split_rows dim n floats) (split_rows dim n2 floats2) 3;
  match r with
  | None => Ok None
  | Some (p, cs) => do d' <- save_shards g' a false w conv data prefix dim k cs d; Ok (Some (p, d'))
  end.

(** * LSH index: src/lsh.cpp and include/lsh.h. *)
From Coq Require Import NArith String List Arith Bool.
From Verif Require Import Base Float32 Bytes PoolModel FlatModel.
Import ListNotations.

(** include/lsh.h:36-40.  Hyperplanes are kept as IEEE-754 bit patterns; the map is
    the list of its pairs in key order, as a std::map iterates. *)
Record table : Type := mkT {
  t_hps : list (list N);            (* random_hps *)
  t_map : list (N * list nat)       (* hashed_vectors *)
}.

(** hashed_vectors[k] as a value, if the key is there. *)
Fixpoint map_get (m : list (N * list nat)) (k : N) : option (list nat) :=
  match m with
  | [] => None
  | (k', l) :: t => if N.ltb k k' then None else if N.eqb k k' then Some l else map_get t k
  end.

(** The effect of evaluating hashed_vectors[k] and applying [f] to the value: a
    missing key is inserted with an empty vector. *)
Fixpoint map_update (m : list (N * list nat)) (k : N) (f : list nat -> list nat) : list (N * list nat) :=
  match m with
  | [] => [(k, f [])]
  | (k', l) :: t =>
      if N.ltb k k' then (k, f []) :: m
      else if N.eqb k k' then (k', f l) :: t
      else (k', l) :: map_update t k f
  end.

(** The dot product of src/lsh.cpp:52-56 in source order.  -Ofast lets the compiler
    reorder the sum, so the theorems take any function of the two vectors. *)
Definition seq_dot (hp : list N) (v : list f32) : f32 :=
  fold_left (fun acc p => fadd acc (fmul (f32_of_bits (fst p)) (snd p))) (combine hp v) f32_zero.

(** std::bitset::to_ulong, bit 0 first. *)
Fixpoint bits_value (bits : list bool) : N :=
  match bits with
  | [] => 0%N
  | b :: t => ((if b then 1 else 0) + 2 * bits_value t)%N
  end.

(** src/lsh.cpp:47-64 get_hash (with to_ulong at its uses, 43 and 67).  The number of
    hyperplanes of a table is its table_size. *)
Definition get_hash (dotf : list N -> list f32 -> f32) (t : table) (v : list f32) : N :=
  bits_value (map (fun hp => fgt (dotf hp v) f32_zero) (t_hps t)).

(** src/lsh.cpp:42-44: the bucket, and the table with the key now present. *)
Definition get_bucket (t : table) (k : N) : list nat * table :=
  (match map_get (t_map t) k with Some l => l | None => [] end,
   mkT (t_hps t) (map_update (t_map t) k (fun l => l))).

(** src/lsh.cpp:66-68 *)
Definition add_vector (t : table) (k : N) (id : nat) : table :=
  mkT (t_hps t) (map_update (t_map t) k (fun l => l ++ [id])).

(** include/lsh.h:49-56 and the base class. *)
Record lsh_index : Type := mkLsh {
  l_n : nat;                        (* _num_points *)
  l_tags : list nat;                (* _tag_map *)
  l_labels : label_ctx;             (* _pts_to_labels etc. *)
  l_num_tables : N;                 (* num_tables *)
  l_table_size : N;                 (* table_size *)
  l_tables : list table             (* tables *)
}.

(** src/lsh.cpp:141-145: points [i] ... into one table.  Tags are stored, not
    internal indices. *)
Fixpoint fill_table (dotf : list N -> list f32 -> f32) (data : nat -> list f32) (tags : list nat)
    (i cnt : nat) (t : table) : res table :=
  match cnt with
  | O => Ok t
  | S cnt' =>
      do tag <- rd tags i;
      fill_table dotf data tags (S i) cnt' (add_vector t (get_hash dotf t (data i)) tag)
  end.

Fixpoint fill_tables (dotf : list N -> list f32 -> f32) (data : nat -> list f32) (tags : list nat)
    (n : nat) (ts : list table) : res (list table) :=
  match ts with
  | [] => Ok []
  | t :: rest =>
      do t' <- fill_table dotf data tags 0 n t;
      do rest' <- fill_tables dotf data tags n rest;
      Ok (t' :: rest')
  end.

(** src/lsh.cpp:129-148 build.  [planes] are the random hyperplanes, one list of
    [table_size] of them per table (src/lsh.cpp:27-40).  A table size above 64 exits
    (src/lsh.cpp:13-16).  Tables are pushed behind those already there. *)
Definition lsh_build (dotf : list N -> list f32 -> f32) (data : nat -> list f32) (table_size : N)
    (planes : list (list (list N))) (ix : lsh_index) : res lsh_index :=
  if (64 <? table_size)%N && negb (length planes =? 0) then Exit
  else
    do ts <- fill_tables dotf data (l_tags ix) (l_n ix) (l_tables ix ++ map (fun hps => mkT hps []) planes);
    Ok (mkLsh (l_n ix) (l_tags ix) (l_labels ix) (N.of_nat (length planes)) table_size ts).

(** src/lsh.cpp:158-163: the candidates and the tables afterwards. *)
Fixpoint lookup_all (dotf : list N -> list f32 -> f32) (q : list f32) (ts : list table) : list nat * list table :=
  match ts with
  | [] => ([], [])
  | t :: rest =>
      let (l, t') := get_bucket t (get_hash dotf t q) in
      let (ls, rest') := lookup_all dotf q rest in
      (l ++ ls, t' :: rest')
  end.

(** src/lsh.cpp:151-189 search: the result and the index afterwards.  [q] is the query
    vector, [dist id] its distance to point id. *)
Definition lsh_search (dotf : list N -> list f32 -> f32) (ix : lsh_index) (q : list f32) (dist : nat -> f32)
    (res_count : nat) (filters : list label) (indices : list nat) (distances : option (list f32))
  : res ((list nat * option (list f32) * nat * nat) * lsh_index) :=
  let (cands, ts) := lookup_all dotf q (l_tables ix) in
  do r <- flat_search (l_n ix) dist (passes_filter (l_labels ix) filters) res_count cands indices distances;
  Ok (r, mkLsh (l_n ix) (l_tags ix) (l_labels ix) (l_num_tables ix) (l_table_size ix) ts).

(** ** Files *)
(** src/lsh.cpp:91-100 *)
Definition bucket_bytes (p : N * list nat) : list N :=
  u64 (fst p) ++ u32 (N.of_nat (length (snd p))) ++ enc_all 4 (map N.of_nat (snd p)).

(** src/lsh.cpp:74-105 write_to_file *)
Definition table_bytes (t : table) : list N :=
  [64%N] ++ flat_map (enc_all 4) (t_hps t) ++ [37%N] ++
  u32 (N.of_nat (length (t_map t))) ++ flat_map bucket_bytes (t_map t) ++ [36%N].

(** src/lsh.cpp:192-215 save, the file <name>_index.bin *)
Definition lsh_bytes (ix : lsh_index) : list N :=
  [42%N] ++ u32 (l_num_tables ix) ++ u32 (l_table_size ix) ++ flat_map table_bytes (l_tables ix).

(** in.read into an uninitialised variable of [k] bytes: using it after a short
    read is undefined. *)
Definition get_int (k : nat) (s : list N) : res (N * list N) :=
  if k <=? length s then Ok (dec (firstn k s), skipn k s) else UB.

(** in.get(c) and the comparison with the expected character (exit on mismatch). *)
Definition expect (c : N) (s : list N) : res (list N) :=
  match s with
  | [] => UB
  | x :: t => if N.eqb x c then Ok t else Exit
  end.

(** src/lsh.cpp:253-258 and 253-261: [cnt] numbers of 4 bytes. *)
Fixpoint get_u32s (cnt : nat) (s : list N) : res (list N * list N) :=
  match cnt with
  | O => Ok ([], s)
  | S cnt' =>
      do r <- get_int 4 s;
      do rest <- get_u32s cnt' (snd r);
      Ok (fst r :: fst rest, snd rest)
  end.

Fixpoint get_planes (dim cnt : nat) (s : list N) : res (list (list N) * list N) :=
  match cnt with
  | O => Ok ([], s)
  | S cnt' =>
      do r <- get_u32s dim s;
      do rest <- get_planes dim cnt' (snd r);
      Ok (fst r :: fst rest, snd rest)
  end.

(** src/lsh.cpp:275-287: the buckets; an id is added by add_vector. *)
Fixpoint get_buckets (cnt : nat) (t : table) (s : list N) : res (table * list N) :=
  match cnt with
  | O => Ok (t, s)
  | S cnt' =>
      do h <- get_int 8 s;
      do sz <- get_int 4 (snd h);
      do ids <- get_u32s (N.to_nat (fst sz)) (snd sz);
      get_buckets cnt' (fold_left (fun t id => add_vector t (fst h) (N.to_nat id)) (fst ids) t) (snd ids)
  end.

(** src/lsh.cpp:239-303: the loop over the tables *)
Fixpoint get_tables (dim table_size cnt : nat) (s : list N) : res (list table) :=
  match cnt with
  | O => Ok []
  | S cnt' =>
      do s1 <- expect 64 s;
      if 64 <? table_size then Exit else
      do hps <- get_planes dim table_size s1;
      do s2 <- expect 37 (snd hps);
      do nb <- get_int 4 s2;
      do t <- get_buckets (N.to_nat (fst nb)) (mkT (fst hps) []) (snd nb);
      do s3 <- expect 36 (snd t);
      do rest <- get_tables dim table_size cnt' s3;
      Ok (fst t :: rest)
  end.

(** src/lsh.cpp:218-304 load of the file <name>_index.bin into [ix], whose data are
    already loaded ([dim] is _aligned_dim).  num_tables and table_size are not set. *)
Definition lsh_load (dim : nat) (s : list N) (ix : lsh_index) : res lsh_index :=
  do s1 <- expect 42 s;
  do nt <- get_int 4 s1;
  do tsz <- get_int 4 (snd nt);
  do ts <- get_tables dim (N.to_nat (fst tsz)) (N.to_nat (fst nt)) (snd tsz);
  Ok (mkLsh (l_n ix) (l_tags ix) (l_labels ix) (l_num_tables ix) (l_table_size ix) ts).

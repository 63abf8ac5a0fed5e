(** * Sharding a data set (src/partition_and_pq.cpp:550-849).

    The distance matrix of the points to the centres is an arbitrary function [dmat
    point centre]; elements have [w] bytes. *)
From Coq Require Import List Arith NArith Bool.
From Verif Require Import Base Bytes Float32 StreamModel BinModel CacheModel ClosestModel TruthModel PqModel.
Import ListNotations.

(** What has been written to the data file and the id file of a shard behind their
    headers, and the shard's count. *)
Record shard : Type := mkSh { sh_data : list N; sh_ids : list N; sh_count : nat }.

(** Row [p] of a block of bytes. *)
Definition row_bytes (rowlen p : nat) (blk : list N) : list N := firstn rowlen (skipn (p * rowlen) blk).

(** src/partition_and_pq.cpp:662-671 and 759-765: the copies of one point, from copy
    [p1] on.  [with_data] is false in shard_data_into_clusters_only_ids. *)
Fixpoint shard_copies (with_data : bool) (k p : nat) (id : N) (row : list N) (closest : list nat) (p1 cnt : nat) (shards : list shard) : res (list shard) :=
  match cnt with
  | O => Ok shards
  | S cnt' =>
      do s <- rd closest (p * k + p1);
      do sh <- rd shards s;
      do shards' <- wr shards s (mkSh (if with_data then sh_data sh ++ row else sh_data sh) (sh_ids sh ++ u32 id) (S (sh_count sh)));
      shard_copies with_data k p id row closest (S p1) cnt' shards'
  end.

(** src/partition_and_pq.cpp:661 and 758: the points [p] on of the block at [start]. *)
Fixpoint shard_points (with_data : bool) (rowlen k start : nat) (blk : list N) (closest : list nat) (p cnt : nat) (shards : list shard) : res (list shard) :=
  match cnt with
  | O => Ok shards
  | S cnt' =>
      do shards' <- shard_copies with_data k p (N.of_nat (start + p)) (row_bytes rowlen p blk) closest 0 k shards;
      shard_points with_data rowlen k start blk closest (S p) cnt' shards'
  end.

(** src/partition_and_pq.cpp:647-673 and 745-767: the blocks [b] on. *)
Fixpoint shard_blocks (g : nat -> N) (popf : list (nat * f32) -> list (nat * f32)) (mbs : nat) (with_data : bool) (dmat : nat -> nat -> f32)
    (n rowlen nc k bs : nat) (orders : nat -> nat -> list (nat * nat)) (c : cin) (b cnt : nat) (closest : list nat) (shards : list shard) : res (list shard) :=
  match cnt with
  | O => Ok shards
  | S cnt' =>
      let start := b * bs in
      let size := min (S b * bs) n - start in
      do r <- take g (N.of_nat (size * rowlen)) c;
      do cl <- compute_closest popf mbs (fun j => dmat (start + j)) size nc k (orders b) (firstn (size * k) closest) None;
      let closest' := fst cl ++ skipn (size * k) closest in
      do shards' <- shard_points with_data rowlen k start (fst r) closest' 0 size shards;
      shard_blocks g popf mbs with_data dmat n rowlen nc k bs orders (snd r) (S b) cnt' closest' shards'
  end.

(** src/partition_and_pq.cpp:600-694 shard_data_into_clusters and 699-783
    shard_data_into_clusters_only_ids: the contents of the data file (none in the
    second) and of the id file of each shard; [None] for the return value -1.  [maxb] is
    BLOCK_SIZE.  Copying the header over the dummy one is the last step.  The array of
    closest centres starts with zeros (make_unique). *)
Definition shard_data (g : nat -> N) (popf : list (nat * f32) -> list (nat * f32)) (mbs maxb : nat) (with_data : bool) (dmat : nat -> nat -> f32)
    (w nc dim k : nat) (orders : nat -> nat -> list (nat * nat)) (f : file) : res (option (list (option (list N) * list N))) :=
  let c := copen f blk in
  do r1 <- take g 4 c;
  do r2 <- take g 4 (snd r1);
  let n := N.to_nat (dec (fst r1)) in
  if negb (dec (fst r2) =? N.of_nat dim)%N then Ok None
  else
    let bs := if n <=? maxb then n else maxb in
    if bs =? 0 then UB
    else
      do shards <- shard_blocks g popf mbs with_data dmat n (dim * w) nc k bs orders (snd r2) 0 (div_round_up n bs) (repeat 0 (bs * k)) (repeat (mkSh [] [] 0) nc);
      Ok (Some (map (fun sh => (if with_data then Some (u32 (N.of_nat (sh_count sh)) ++ u32 (N.of_nat dim) ++ sh_data sh) else None,
                                u32 (N.of_nat (sh_count sh)) ++ u32 1 ++ sh_ids sh)) shards)).

(** src/partition_and_pq.cpp:827-837: the points [p] on of one block; [pos] is cur_pos.
    The result is the new cur_pos and the bytes written. *)
Fixpoint retrieve_points (rowlen start : nat) (blk : list N) (ids : list N) (size : N) (p cnt pos : nat) : res (nat * list N) :=
  match cnt with
  | O => Ok (pos, [])
  | S cnt' =>
      if (N.of_nat pos =? size)%N then Ok (pos, [])
      else
        do x <- rd ids pos;
        if (N.of_nat (start + p) =? x)%N then
          do t <- retrieve_points rowlen start blk ids size (S p) cnt' (S pos);
          Ok (fst t, row_bytes rowlen p blk ++ snd t)
        else retrieve_points rowlen start blk ids size (S p) cnt' pos
  end.

(** src/partition_and_pq.cpp:819-840 *)
Fixpoint retrieve_blocks (g : nat -> N) (n rowlen bs : nat) (ids : list N) (size : N) (c : cin) (b cnt pos : nat) : res (nat * list N) :=
  match cnt with
  | O => Ok (pos, [])
  | S cnt' =>
      let start := b * bs in
      let m := min (S b * bs) n - start in
      do r <- take g (N.of_nat (m * rowlen)) c;
      do t <- retrieve_points rowlen start (fst r) ids size 0 m pos;
      if (N.of_nat (fst t) =? size)%N then Ok t
      else
        do u <- retrieve_blocks g n rowlen bs ids size (snd r) (S b) cnt' (fst t);
        Ok (fst u, snd t ++ snd u)
  end.

(** src/partition_and_pq.cpp:786-849 retrieve_shard_data_from_ids: the data file.
    num_written is always cur_pos. *)
Definition retrieve (g : nat -> N) (g1 g2 : list N) (maxb w : nat) (f idf : file) : res (list N) :=
  let c := copen f blk in
  do r1 <- take g 4 c;
  do r2 <- take g 4 (snd r1);
  let n := N.to_nat (dec (fst r1)) in
  let dim := N.to_nat (dec (fst r2)) in
  do l <- load_bin 4 g1 g2 idf;
  let size := fst (fst l) in
  let ids := snd l in
  let bs := if n <=? maxb then n else maxb in
  if bs =? 0 then UB
  else
    do t <- retrieve_blocks g n (dim * w) bs ids size (snd r2) 0 (div_round_up n bs) 0;
    Ok (u32 (N.of_nat (fst t)) ++ u32 (N.of_nat dim) ++ snd t).

(** src/partition_and_pq.cpp:582-587: counting the copies, flat indices [x] on. *)
Fixpoint count_copies (closest : list nat) (x cnt : nat) (counts : list nat) : res (list nat) :=
  match cnt with
  | O => Ok counts
  | S cnt' =>
      do s <- rd closest x;
      do v <- rd counts s;
      do counts' <- wr counts s (S v);
      count_copies closest (S x) cnt' counts'
  end.

Fixpoint estimate_blocks (popf : list (nat * f32) -> list (nat * f32)) (mbs : nat) (dmat : nat -> nat -> f32)
    (n nc k bs : nat) (orders : nat -> nat -> list (nat * nat)) (b cnt : nat) (closest : list nat) (counts : list nat) : res (list nat) :=
  match cnt with
  | O => Ok counts
  | S cnt' =>
      let start := b * bs in
      let size := min (S b * bs) n - start in
      do cl <- compute_closest popf mbs (fun j => dmat (start + j)) size nc k (orders b) (firstn (size * k) closest) None;
      let closest' := fst cl ++ skipn (size * k) closest in
      do counts' <- count_copies closest' 0 (size * k) counts;
      estimate_blocks popf mbs dmat n nc k bs orders (S b) cnt' closest' counts'
  end.

(** src/partition_and_pq.cpp:550-597 estimate_cluster_sizes, counts truncated to 32 bits.
    The array of closest centres is not initialised and, with k_base above the number of
    centres, not written: [garbage] is what it holds. *)
Definition estimate_sizes (popf : list (nat * f32) -> list (nat * f32)) (mbs maxb : nat) (dmat : nat -> nat -> f32)
    (n nc k : nat) (orders : nat -> nat -> list (nat * nat)) (garbage : list nat) : res (list N) :=
  let bs := if n <=? maxb then n else maxb in
  if bs =? 0 then UB
  else if (nc <? k) then UB
  else
    do counts <- estimate_blocks popf mbs dmat n nc k bs orders 0 (div_round_up n bs) garbage (repeat 0 nc);
    Ok (map (fun x => (N.of_nat x mod 4294967296)%N) counts).

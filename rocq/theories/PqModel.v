(** * Product quantisation (src/partition_and_pq.cpp:167-548). *)
From Coq Require Import List Arith NArith Bool.
From Verif Require Import Base Bytes Float32 ClosestModel.
Import ListNotations.

(** src/partition_and_pq.cpp:238-244: the bin chosen for a dimension, from bin [b] on.
    [best] is cur_best ([None] for the value num_pq_chunks + 1 it starts with). *)
Fixpoint best_bin (thr : nat) (bins : list (list nat)) (loads : list f32) (b : nat) (best : option nat) (load : f32) : option nat :=
  match bins, loads with
  | x :: bins', l :: loads' =>
      if flt l load && (length x <? thr) then best_bin thr bins' loads' (S b) (Some b) l
      else best_bin thr bins' loads' (S b) best load
  | _, _ => best
  end.

(** src/partition_and_pq.cpp:233-252: dimensions [d] on, [cnt] to go.  dim_to_bin is
    never written, so the test at lines 234-235 is always false; bin_loads is never
    updated.  Indexing bin_to_dims with the initial cur_best is undefined. *)
Fixpoint fill_bins (high low max_high : nat) (loads : list f32) (d cnt : nat) (bins : list (list nat)) (num_high thr : nat) : res (list (list nat)) :=
  match cnt with
  | O => Ok bins
  | S cnt' =>
      match best_bin thr bins loads 0 None FLT_MAX with
      | None => UB
      | Some b =>
          do x <- rd bins b;
          do bins' <- wr bins b (x ++ [d]);
          if length (x ++ [d]) =? high then
            fill_bins high low max_high loads (S d) cnt' bins' (S num_high) (if S num_high =? max_high then low else thr)
          else fill_bins high low max_high loads (S d) cnt' bins' num_high thr
      end
  end.

(** src/partition_and_pq.cpp:258-270: the offsets after the first, [prev] the last one
    pushed, for the bins after the first. *)
Fixpoint offsets_from (prev : nat) (bins : list (list nat)) : list nat :=
  match bins with
  | [] => []
  | x :: t => match t with [] => [] | _ => (prev + length x) :: offsets_from (prev + length x) t end
  end.

(** src/partition_and_pq.cpp:171-174, 218-270: [None] is the return value -1; otherwise
    the rearrangement and the chunk offsets.  floor and ceil of the quotient of two
    32-bit numbers are exact in double arithmetic.  Without chunks the quotient is
    infinite (or NaN) and its conversion undefined. *)
Definition pq_chunks (dim chunks : nat) : res (option (list nat * list nat)) :=
  if dim <? chunks then Ok None
  else if chunks =? 0 then UB
  else
    let low := dim / chunks in
    let high := if dim mod chunks =? 0 then low else S low in
    let max_high := dim - low * chunks in
    do bins <- fill_bins high low max_high (repeat f32_zero chunks) 0 dim (repeat [] chunks) 0 high;
    Ok (Some (concat bins, 0 :: offsets_from 0 bins ++ [dim])).

Fixpoint collect {A B : Type} (f : A -> res B) (l : list A) : res (list B) :=
  match l with
  | [] => Ok []
  | x :: t => do y <- f x; do ys <- collect f t; Ok (y :: ys)
  end.

(** src/partition_and_pq.cpp:460-464: one point minus the centroid. *)
Definition center_row (dim : nat) (centroid x : list f32) : res (list f32) :=
  collect (fun d => do a <- rd x d; do c <- rd centroid d; Ok (fsub a c)) (seq 0 dim).

(** src/partition_and_pq.cpp:466-471: one point with its coordinates rearranged.  An
    entry of rearrangement outside the dimensions would read another point; it is
    treated as undefined. *)
Definition rearrange_row (dim : nat) (rearr : list nat) (x : list f32) : res (list f32) :=
  collect (fun d => do r <- rd rearr d; rd x r) (seq 0 dim).

(** src/partition_and_pq.cpp:486-498: the coordinates of one chunk, of a point or a
    pivot. *)
Definition slice_row (a size : nat) (x : list f32) : res (list f32) := collect (fun k => rd x (a + k)) (seq 0 size).

(** src/partition_and_pq.cpp:504-506: storing the codes of chunk [i] for the points [j] on. *)
Fixpoint store_codes (chunks i : nat) (j : nat) (codes : list nat) (base : list nat) : res (list nat) :=
  match codes with
  | [] => Ok base
  | c :: t => do base' <- wr base (j * chunks + i) c; store_codes chunks i (S j) t base'
  end.

(** The entries of the distance matrix of one chunk of one block that starts at point
    [start]: the value computed for a point may depend on the point and the two
    sub-vectors.  The other entries do not exist. *)
Definition chunk_dist (cdist : nat -> list f32 -> list f32 -> f32) (start : nat) (subs pivs : list (list f32)) (j c : nat) : f32 :=
  match nth_error subs j, nth_error pivs c with
  | Some x, Some y => cdist (start + j) x y
  | _, _ => f32_zero
  end.

(** src/partition_and_pq.cpp:473-513: one chunk of one block with the given rows.  Decreasing
    offsets would be a chunk of almost 2^32 coordinates, read outside the rows. *)
Definition pq_chunk (popf : list (nat * f32) -> list (nat * f32)) (mbs : nat) (cdist : nat -> list f32 -> list f32 -> f32)
    (nc chunks : nat) (offs : list nat) (pivots : list (list f32)) (orders : nat -> list (nat * nat)) (start : nat) (rows : list (list f32)) (i : nat)
    (base : list nat) : res (list nat) :=
  do a <- rd offs i;
  do b <- rd offs (S i);
  if b <? a then UB
  else if b =? a then Ok base
  else
    do subs <- collect (slice_row a (b - a)) rows;
    do pivs <- collect (slice_row a (b - a)) pivots;
    do r <- compute_closest popf mbs (chunk_dist cdist start subs pivs) (length rows) nc 1 orders (repeat 0 (length rows)) None;
    store_codes chunks i 0 (fst r) base.

(** src/partition_and_pq.cpp:473: the chunks from [i] on, [cnt] to go. *)
Fixpoint pq_block_chunks (popf : list (nat * f32) -> list (nat * f32)) (mbs : nat) (cdist : nat -> list f32 -> list f32 -> f32)
    (nc chunks : nat) (offs : list nat) (pivots : list (list f32)) (orders : nat -> nat -> list (nat * nat)) (start : nat) (rows : list (list f32)) (i cnt : nat)
    (base : list nat) : res (list nat) :=
  match cnt with
  | O => Ok base
  | S cnt' =>
      do base' <- pq_chunk popf mbs cdist nc chunks offs pivots (orders i) start rows i base;
      pq_block_chunks popf mbs cdist nc chunks offs pivots orders start rows (S i) cnt' base'
  end.

(** src/partition_and_pq.cpp:515-527: 4-byte codes for more than 256 pivots, else the low
    byte of each. *)
Definition code_width (nc : nat) : nat := if 256 <? nc then 4 else 1.
Definition code_bytes (nc cnt : nat) (base : list nat) : list N := enc_all (code_width nc) (map N.of_nat (firstn cnt base)).

(** src/partition_and_pq.cpp:448-532: the blocks from [b] on, [cnt] to go; the bytes
    written.  Rows are what the file holds, converted to float; [bs] is the block size. *)
Fixpoint pq_blocks (popf : list (nat * f32) -> list (nat * f32)) (mbs : nat) (cdist : nat -> list f32 -> list f32 -> f32)
    (n dim nc chunks bs : nat) (centroid : list f32) (rearr offs : list nat) (pivots rows : list (list f32))
    (orders : nat -> nat -> nat -> list (nat * nat)) (b cnt : nat) (base : list nat) : res (list N) :=
  match cnt with
  | O => Ok []
  | S cnt' =>
      let start := b * bs in
      let size := min (S b * bs) n - start in
      do centred <- collect (center_row dim centroid) (firstn size (skipn start rows));
      do blk <- collect (rearrange_row dim rearr) centred;
      do base' <- pq_block_chunks popf mbs cdist nc chunks offs pivots (orders b) start blk 0 chunks base;
      do t <- pq_blocks popf mbs cdist n dim nc chunks bs centroid rearr offs pivots rows orders (S b) cnt' base';
      Ok (code_bytes nc (size * chunks) base' ++ t)
  end.

(** include/essentials.h:45 *)
Definition div_round_up (x y : nat) : nat := x / y + (if x mod y =? 0 then 0 else 1).

(** src/partition_and_pq.cpp:418-548, from loaded files on; [maxb] is BLOCK_SIZE.  Without
    points DIV_ROUND_UP divides by zero. *)
Definition pq_encode (popf : list (nat * f32) -> list (nat * f32)) (mbs maxb : nat) (cdist : nat -> list f32 -> list f32 -> f32)
    (n dim nc chunks : nat) (centroid : list f32) (rearr offs : list nat) (pivots rows : list (list f32))
    (orders : nat -> nat -> nat -> list (nat * nat)) : res (list N) :=
  let bs := if n <=? maxb then n else maxb in
  if bs =? 0 then UB
  else
    do t <- pq_blocks popf mbs cdist n dim nc chunks bs centroid rearr offs pivots rows orders 0 (div_round_up n bs) (repeat 0 (bs * chunks));
    Ok (u32 (N.of_nat n) ++ u32 (N.of_nat chunks) ++ t).

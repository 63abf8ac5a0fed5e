(** * Random slices (src/partition_and_pq.cpp:18-160).

    Point [i] is taken iff the i-th random number drawn is below the sampling rate:
    [pick i].  The random numbers are arbitrary, so [pick] is any function. *)
From Coq Require Import List Arith NArith Bool.
From Verif Require Import Base Bytes Float32 StreamModel CacheModel TruthModel PqModel.
Import ListNotations.

(** src/partition_and_pq.cpp:51-61 and 104-113: the points [i] on, [cnt] to go; every
    row is read, the picked ones are kept with their index. *)
Fixpoint slice_points (g : nat -> N) (rowlen : nat) (pick : nat -> bool) (c : cin) (i cnt : nat) : res (list (nat * list N)) :=
  match cnt with
  | O => Ok []
  | S cnt' =>
      do r <- take g (N.of_nat rowlen) c;
      do t <- slice_points g rowlen pick (snd r) (S i) cnt';
      Ok (if pick i then (i, fst r) :: t else t)
  end.

(** src/partition_and_pq.cpp:18-71 gen_random_slice(base_file, output_prefix,
    sampling_rate): the files _data.bin and _ids.bin.  The counts in their headers are
    written first as 0 and overwritten at the end; ids and count are 32-bit numbers. *)
Definition slice_file (g : nat -> N) (w : nat) (pick : nat -> bool) (f : file) : res (list N * list N) :=
  let c := copen f blk in
  do r1 <- take g 4 c;
  do r2 <- take g 4 (snd r1);
  let n := N.to_nat (dec (fst r1)) in
  let dim := N.to_nat (dec (fst r2)) in
  do l <- slice_points g (dim * w) pick (snd r2) 0 n;
  Ok (u32 (N.of_nat (length l)) ++ u32 (N.of_nat dim) ++ concat (map snd l),
      u32 (N.of_nat (length l)) ++ u32 1 ++ concat (map (fun x => u32 (N.of_nat (fst x))) l)).

(** src/partition_and_pq.cpp:82-124: the sampled vectors converted to float ([conv] on
    elements of [w] bytes), their number and the dimension. *)
Definition slice_floats (g : nat -> N) (w : nat) (conv : N -> f32) (pick : nat -> bool) (f : file) : res (list f32 * nat * nat) :=
  let c := copen f blk in
  do r1 <- take g 4 c;
  do r2 <- take g 4 (snd r1);
  let n := N.to_nat (dec (fst r1)) in
  let dim := N.to_nat (dec (fst r2)) in
  do l <- slice_points g (dim * w) pick (snd r2) 0 n;
  Ok (concat (map (fun x => map conv (dec_all w dim (snd x))) l), length l, dim).

(** src/partition_and_pq.cpp:129-160: the same from a matrix in memory, given as a flat
    list. *)
Fixpoint slice_memory (conv : N -> f32) (dim : nat) (pick : nat -> bool) (data : list N) (i cnt : nat) : res (list (list f32)) :=
  match cnt with
  | O => Ok []
  | S cnt' =>
      if pick i then
        do x <- collect (fun d => rd data (dim * i + d)) (seq 0 dim);
        do t <- slice_memory conv dim pick data (S i) cnt';
        Ok (map conv x :: t)
      else slice_memory conv dim pick data (S i) cnt'
  end.

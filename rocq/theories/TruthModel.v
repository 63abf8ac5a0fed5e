(** * Model of the ground truth files (include/recall_utils.h:45-219 and
    src/aux_compute_groundtruth.cpp:256-274). *)
From Coq Require Import NArith List Bool.
From Verif Require Import Base Bytes Float32 StreamModel BinModel CacheModel.
Import ListNotations.
Local Open Scope N_scope.

(** src/aux_compute_groundtruth.cpp:256-274: ids and distances are 4-byte patterns. *)
Definition save_truthset (ids dists : list N) (npts ndims : N) : res (list N) :=
  if N.of_nat (length ids) <? npts * ndims then UB
  else if N.of_nat (length dists) <? npts * ndims then UB
  else Ok (u32 npts ++ u32 ndims ++ enc_all 4 (firstn (N.to_nat (npts * ndims)) ids) ++ enc_all 4 (firstn (N.to_nat (npts * ndims)) dists)).

(** Bytes of which some were never initialised: those hold arbitrary values [g]. *)
Fixpoint settle (g : nat -> N) (i : nat) (b : list (option N)) : list N :=
  match b with
  | [] => []
  | Some x :: t => x :: settle g (S i) t
  | None :: t => g i :: settle g (S i) t
  end.

(** reader.read(&buffer, n) *)
Definition take (g : nat -> N) (n : N) (c : cin) : res (list N * cin) :=
  match cread n c with
  | (Got b, c') => Ok (settle g 0 b, c')
  | (Threw, _) => Throw
  | (Undef, _) => UB
  end.

(** read_blk_size *)
Definition blk : N := 67108864.

(** include/recall_utils.h:45-96: points, dimension, ids and, if the file has them,
    distances.  new uint32_t[c] throws from 2^61 elements on. *)
Definition load_truthset (g : nat -> N) (f : file) : res (N * N * list N * option (list N)) :=
  let c := copen f blk in
  do r1 <- take g 4 c;
  do r2 <- take g 4 (snd r1);
  let npts := dec (fst r1) in
  let dim := dec (fst r2) in
  let size := c_fsize c in
  let type := if size =? wrap64 (npts * dim * 4 + 8) then 2
              else if size =? wrap64 (2 * npts * dim * 4 + 8) then 1 else 0 in
  if type =? 0 then Throw
  else if 2305843009213693952 <=? npts * dim then Throw
  else
    do r3 <- take g (npts * dim * 4) (snd r2);
    let ids := dec_all 4 (N.to_nat (npts * dim)) (fst r3) in
    if type =? 1 then
      do r4 <- take g (npts * dim * 4) (snd r3);
      Ok (npts, dim, ids, Some (dec_all 4 (N.to_nat (npts * dim)) (fst r4)))
    else Ok (npts, dim, ids, None).

(** include/recall_utils.h:140-151: one query; [cnt] entries from index [k] on. *)
Fixpoint prune_row (ids dists : list N) (range : f32) (k cnt : nat) : res (list N) :=
  match cnt with
  | O => Ok []
  | S cnt' =>
      do d <- rd dists k;
      do x <- rd ids k;
      do t <- prune_row ids dists range (S k) cnt';
      Ok (if fle (f32_of_bits d) range then x :: t else t)
  end.
Fixpoint prune_rows (ids dists : list N) (range : f32) (dim i cnt : nat) : res (list (list N)) :=
  match cnt with
  | O => Ok []
  | S cnt' =>
      do r <- prune_row ids dists range (i * dim) dim;
      do t <- prune_rows ids dists range dim (S i) cnt';
      Ok (r :: t)
  end.

(** include/recall_utils.h:98-165.  The minimum and maximum printed are left out. *)
Definition prune_truthset (g : nat -> N) (f : file) (range : f32) : res (list (list N)) :=
  let c := copen f blk in
  do r1 <- take g 4 c;
  do r2 <- take g 4 (snd r1);
  let npts := dec (fst r1) in
  let dim := dec (fst r2) in
  if c_fsize c =? wrap64 (2 * npts * dim * 4 + 8) then
    if 2305843009213693952 <=? npts * dim then Throw
    else
      do r3 <- take g (npts * dim * 4) (snd r2);
      do r4 <- take g (npts * dim * 4) (snd r3);
      prune_rows (dec_all 4 (N.to_nat (npts * dim)) (fst r3)) (dec_all 4 (N.to_nat (npts * dim)) (fst r4)) range
        (N.to_nat dim) 0 (N.to_nat npts)
  else Throw.

(** (_u64) of an int read from 4 bytes. *)
Definition sext (x : N) : N := if x <? 2147483648 then x else 18446744073709551616 - 4294967296 + x.

(** include/recall_utils.h:213-218 *)
Fixpoint range_lists (g : nat -> N) (counts : list N) (c : cin) : res (list (list N)) :=
  match counts with
  | [] => Ok []
  | k :: t =>
      do r <- (if k =? 0 then Ok ([], c) else take g (4 * k) c);
      do rest <- range_lists g t (snd r);
      Ok (dec_all 4 (N.to_nat k) (fst r) :: rest)
  end.

(** include/recall_utils.h:167-219.  A vector of 2^31 lists or more (a negative count)
    is not allocated: std::vector throws.  The percentiles printed read gt_stats[gt_num - 1],
    undefined without queries; their other indices are below gt_num. *)
Definition load_range_truthset (g : nat -> N) (f : file) : res (list (list N)) :=
  let c := copen f blk in
  do r1 <- take g 4 c;
  do r2 <- take g 4 (snd r1);
  let gt_num := sext (dec (fst r1)) in
  let total := sext (dec (fst r2)) in
  if c_fsize c =? wrap64 (8 + gt_num * 4 + total * 4) then
    if 2147483648 <=? gt_num then Throw
    else
      do r3 <- take g (4 * gt_num) (snd r2);
      if gt_num =? 0 then UB
      else range_lists g (dec_all 4 (N.to_nat gt_num) (fst r3)) (snd r3)
  else Throw.

(** * Product quantisation with its files (src/partition_and_pq.cpp:167-548,
    tests/utils/generate_pq.cpp).

    A float in a file is its 32-bit word. *)
From Coq Require Import ZArith NArith String List Arith Bool Floats.SpecFloat.
From Verif Require Import Base Bytes Float32 FloatBits StreamModel BinModel IndexFileModel CacheModel ClosestModel TruthModel PqModel LloydModel SliceModel.
Import ListNotations.

(** ** k-means: src/math_utils.cpp:303-455, as called at partition_and_pq.cpp:311-317. *)

(** What one call depends on besides its arguments: the random numbers, the number of
    rounds k-means++ needs at most, the orders of the parallel loops, and the distances:
    [km_dist] is calc_distance, [km_cdist p x y] the entry of the distance matrix that
    BLAS computes for point p with coordinates x and a centre y. *)
Record kmenv : Type := mkKm {
  km_popf : list (nat * f32) -> list (nat * f32); km_mbs : nat; km_csz : nat;
  km_dist : list f32 -> list f32 -> f32; km_cdist : nat -> list f32 -> list f32 -> f32;
  km_init : nat; km_darts : nat -> spec_float; km_draw : nat -> nat; km_rounds : nat;
  km_orders : nat -> nat -> list (nat * nat)
}.

(** src/math_utils.cpp:374-387: more than 2^23 points fall back to random_centers. *)
Definition first_centers (e : kmenv) (rows : list (list f32)) (nc : nat) : res (list (option (list f32))) :=
  if (8388608 <? N.of_nat (length rows))%N then random_centers rows (km_draw e) 0 nc [] (repeat None nc)
  else
    do r <- kmeans_pp (km_rounds e) rows (fun i j => km_dist e (nth i rows []) (nth j rows [])) (km_init e) (km_darts e) nc;
    match r with None => Fuel | Some (_, _, centers) => Ok centers end.

(** The centres start as zeros (make_unique), as do the assignments; closest_docs is
    allocated by run_lloyds (src/math_utils.cpp:309-312). *)
Definition kmeans (e : kmenv) (dim nc reps : nat) (rows : list (list f32)) : res (list (list f32)) :=
  do first <- first_centers e rows nc;
  let centers := map (fun c => match c with Some y => y | None => repeat f32_zero dim end) first in
  do st <- run_lloyds (km_popf e) (km_mbs e) (km_csz e) (fun p => km_cdist e p (nth p rows [])) (km_dist e)
             (length rows) dim nc reps rows (km_orders e) centers (repeat 0 (length rows)) (repeat [] nc);
  Ok (ll_centers st).

(** ** src/partition_and_pq.cpp:167-334 generate_pq_pivots *)

(** Lines 208-211: the sum of coordinate [d] in the order of the points, over num_train
    as a float. *)
Definition mean_coord (train : list (list f32)) (d : nat) : res f32 :=
  do xs <- collect (fun x => rd x d) train;
  Ok (fdiv (fold_left fadd xs f32_zero) (f32_of_Z (Z.of_nat (length train)))).

(** Lines 198-222: the centroid and the training vectors after centring. *)
Definition train_centroid (zero_mean : bool) (dim : nat) (train : list (list f32)) : res (list f32 * list (list f32)) :=
  if zero_mean then
    do c <- collect (mean_coord train) (seq 0 dim);
    do rows <- collect (center_row dim c) train;
    Ok (c, rows)
  else Ok (repeat f32_zero dim, train).

(** Lines 319-323: writing the pivots [p] of a chunk to one row of full_pivot_data; its
    elements are [None] while not written. *)
Definition paste (a : nat) (p : list f32) (row : list (option f32)) : res (list (option f32)) :=
  if a + length p <=? length row then Ok (firstn a row ++ map Some p ++ skipn (a + length p) row) else UB.

Fixpoint paste_rows (a : nat) (ps : list (list f32)) (rows : list (list (option f32))) : res (list (list (option f32))) :=
  match ps, rows with
  | p :: ps', r :: rows' => do r' <- paste a p r; do t <- paste_rows a ps' rows'; Ok (r' :: t)
  | _, _ => Ok rows
  end.

(** Lines 284-324: the chunks [i] on, [cnt] to go.  The training pieces are taken at the
    chunk's offset without rearranging the coordinates. *)
Fixpoint train_chunks (env : nat -> kmenv) (nc reps : nat) (offs : list nat) (rows : list (list f32)) (i cnt : nat) (full : list (list (option f32)))
    : res (list (list (option f32))) :=
  match cnt with
  | O => Ok full
  | S cnt' =>
      do a <- rd offs i;
      do b <- rd offs (S i);
      if b <? a then UB
      else if b =? a then train_chunks env nc reps offs rows (S i) cnt' full
      else
        do data <- collect (slice_row a (b - a)) rows;
        do pivots <- kmeans (env i) (b - a) nc reps data;
        do full' <- paste_rows a pivots full;
        train_chunks env nc reps offs rows (S i) cnt' full'
  end.

(** An array of floats as written to a file; one that is not initialised is undefined. *)
Definition float_words (l : list (option f32)) : res (list N) := collect (fun x => match x with Some v => Ok (bits_of_f32 v) | None => UB end) l.

(** [true] is the return value 0, [false] is -1.  [g] are the bytes of uninitialised
    variables of load_bin.  The allocation at line 282 is computed in 32 bits. *)
Definition gen_pivots (g : nat -> list N) (env : nat -> kmenv) (train : list (list f32)) (dim nc chunks reps : nat) (path : string) (zero_mean : bool) (d : fs)
    : res (bool * fs) :=
  if dim <? chunks then Ok (false, d)
  else
    do skip <- match d path with
               | None => Ok false
               | Some _ =>
                   do r <- load_bin 4 (g 0) (g 1) (d path);
                   Ok ((snd (fst r) =? N.of_nat dim)%N && (fst (fst r) =? N.of_nat nc)%N)
               end;
    if skip then Ok (false, d)
    else
      do cr <- train_centroid zero_mean dim train;
      do ch <- pq_chunks dim chunks;
      match ch with
      | None => Ok (false, d)
      | Some (rearr, offs) =>
          if (4294967296 <=? N.of_nat nc * N.of_nat dim)%N then UB
          else
            do full <- train_chunks env nc reps offs (snd cr) 0 chunks (repeat (repeat None dim) nc);
            do words <- float_words (concat full);
            do f1 <- save_bin 4 words (N.of_nat nc) (N.of_nat dim);
            do f2 <- save_bin 4 (map bits_of_f32 (fst cr)) (N.of_nat dim) 1;
            do f3 <- save_bin 4 (map N.of_nat rearr) (N.of_nat (length rearr)) 1;
            do f4 <- save_bin 4 (map N.of_nat offs) (N.of_nat (length offs)) 1;
            Ok (true, fs_set (fs_set (fs_set (fs_set d path (Some f1)) (path ++ "_centroid.bin")%string (Some f2))
                        (path ++ "_rearrangement_perm.bin")%string (Some f3)) (path ++ "_chunk_offsets.bin")%string (Some f4))
      end.

(** ** src/partition_and_pq.cpp:336-548 generate_pq_data_from_pivots *)

(** A matrix stored as a flat list, as [cnt] rows. *)
Fixpoint split_rows (dim cnt : nat) (l : list f32) : list (list f32) :=
  match cnt with O => [] | S cnt' => firstn dim l :: split_rows dim cnt' (skipn dim l) end.

(** Lines 446-456: the base vectors, read block by block; blocks [b] on.  In the code each
    block is encoded before the next one is read. *)
Fixpoint read_base (g : nat -> N) (w : nat) (conv : N -> f32) (n dim bs : nat) (c : cin) (b cnt : nat) : res (list (list f32)) :=
  match cnt with
  | O => Ok []
  | S cnt' =>
      let size := min (S b * bs) n - b * bs in
      do r <- take g (N.of_nat (w * (size * dim))) c;
      do t <- read_base g w conv n dim bs (snd r) (S b) cnt';
      Ok (split_rows dim size (map conv (dec_all w (size * dim) (fst r))) ++ t)
  end.

(** Lines 370-416: what the four pivot files give. *)
Definition load_pivots (g : nat -> list N) (dim nc chunks : nat) (path : string) (d : fs) : res (list f32 * list nat * list nat * list (list f32)) :=
  match d path with
  | None => Throw
  | Some _ =>
      do ce <- load_bin 4 (g 0) (g 1) (d (path ++ "_centroid.bin")%string);
      if negb (fst (fst ce) =? N.of_nat dim)%N || negb (snd (fst ce) =? 1)%N then Throw
      else
        do re <- load_bin 4 (g 2) (g 3) (d (path ++ "_rearrangement_perm.bin")%string);
        if negb (fst (fst re) =? N.of_nat dim)%N || negb (snd (fst re) =? 1)%N then Throw
        else
          do of <- load_bin 4 (g 4) (g 5) (d (path ++ "_chunk_offsets.bin")%string);
          if negb (fst (fst of) =? N.of_nat chunks + 1)%N || negb (snd (fst of) =? 1)%N then Throw
          else
            do pi <- load_bin 4 (g 6) (g 7) (d path);
            if negb (fst (fst pi) =? N.of_nat nc)%N then Throw
            else if negb (snd (fst pi) =? N.of_nat dim)%N then Throw
            else Ok (map f32_of_bits (snd ce), map N.to_nat (snd re), map N.to_nat (snd of), split_rows dim nc (map f32_of_bits (snd pi)))
  end.

(** The compressed file is written to [out]. *)
Definition pq_data (g : nat -> N) (gl : nat -> list N) (popf : list (nat * f32) -> list (nat * f32)) (mbs maxb : nat) (cdist : nat -> list f32 -> list f32 -> f32)
    (w : nat) (conv : N -> f32) (orders : nat -> nat -> nat -> list (nat * nat)) (data : string) (nc chunks : nat) (path out : string) (d : fs) : res fs :=
  let c := copen (d data) blk in
  do r1 <- take g 4 c;
  do r2 <- take g 4 (snd r1);
  let n := N.to_nat (dec (fst r1)) in
  let dim := N.to_nat (dec (fst r2)) in
  do p <- load_pivots gl dim nc chunks path d;
  let '(centroid, rearr, offs, pivots) := p in
  let bs := if n <=? maxb then n else maxb in
  if bs =? 0 then UB
  else
    do rows <- read_base g w conv n dim bs (snd r2) 0 (div_round_up n bs);
    do f <- pq_encode popf mbs maxb cdist n dim nc chunks centroid rearr offs pivots rows orders;
    Ok (fs_set d out (Some f)).

(** ** tests/utils/generate_pq.cpp:9-36: the result of generate_pq_pivots is not looked at. *)
Definition generate_pq (g g' : nat -> N) (gl gl' : nat -> list N) (env : nat -> kmenv) (popf : list (nat * f32) -> list (nat * f32)) (mbs maxb : nat)
    (cdist : nat -> list f32 -> list f32 -> f32) (w : nat) (conv : N -> f32) (pick : nat -> bool) (orders : nat -> nat -> nat -> list (nat * nat))
    (data prefix : string) (nc chunks : nat) (d : fs) : res fs :=
  do s <- slice_floats g w conv pick (d data);
  let '(floats, n, dim) := s in
  do r <- gen_pivots gl env (split_rows dim n floats) dim nc chunks 15 (prefix ++ "_pq_pivots.bin")%string false d;
  pq_data g' gl' popf mbs maxb cdist w conv orders data nc chunks (prefix ++ "_pq_pivots.bin")%string (prefix ++ "_compressed.bin")%string (snd r).

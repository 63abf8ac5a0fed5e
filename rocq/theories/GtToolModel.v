(** * The ground truth tool, from files to file: tests/utils/compute_groundtruth.cpp.

    The selection functions (lines 175-199) are line by line those of
    src/aux_compute_groundtruth.cpp modelled in GtModel.v, the L2 distance matrix (lines
    71-106) is that of BlasModel.v.  What differs: inner products, and k, which this tool does
    not reduce to the size of a part.  k is a non-negative number, the element type and the
    metric are already parsed (main, lines 368-380; atoi, line 308). *)
From Coq Require Import NArith ZArith List Arith Bool Floats.SpecFloat.
From Verif Require Import Base Bytes Float32 FloatBits StreamModel BinModel ClosestModel PqModel NormModel FusedModel TruthModel GtModel BlasModel.
Import ListNotations.

Definition f32_m1 : f32 := f32_of_Z (-1).

(** tests/utils/compute_groundtruth.cpp:108-129 inner_prod_to_points: column-major, one
    column per query, negated inner products. *)
Definition inner_prod_to_points (ws : nat -> way) (dim npoints : nat) (points : list f32) (nqueries : nat) (queries : list f32) : res (list f32) :=
  sgemm ws ColMajor true false npoints nqueries dim f32_m1 points dim queries dim false [].

(** tests/utils/compute_groundtruth.cpp:140-169, 177-183: the entry of query q and point j
    of a part; the batch of q starts at query [qb].  The norms are computed for inner products
    as well. *)
Definition part_entry (W : gt_ways) (mips : bool) (part bs dim npoints : nat) (points : list f32) (nq : nat) (queries : list f32) (q j : nat) : res f32 :=
  do pn <- compute_l2sq (w_points W part) points npoints dim;
  do qn <- compute_l2sq (w_queries W part) queries nq dim;
  let b := q / bs in
  let qb := b * bs in
  let qe := if nq <? (b + 1) * bs then nq else (b + 1) * bs in
  do m <- (if mips then inner_prod_to_points (w_dist W part b 0) dim npoints points (qe - qb) (skipn (qb * dim) queries)
           else distsq_to_points (w_dist W part b) dim npoints points pn (qe - qb) (skipn (qb * dim) queries) (skipn qb qn));
  rd m (j + (q - qb) * npoints).

(** All entries of a part; an undefined one makes the run undefined. *)
Definition part_matrix (W : gt_ways) (mips : bool) (part bs dim npoints : nat) (points : list f32) (nq : nat) (queries : list f32) : res (nat -> nat -> f32) :=
  do _ <- collect (fun qj => part_entry W mips part bs dim npoints points nq queries (fst qj) (snd qj)) (list_prod (seq 0 nq) (seq 0 npoints));
  Ok (fun q j => if (q <? nq) && (j <? npoints) then match part_entry W mips part bs dim npoints points nq queries q j with Ok d => d | _ => S754_nan end else f32_zero).

(** An int read from a header. *)
Definition int32_val (x : N) : Z := if (x <? 2147483648)%N then Z.of_N x else (Z.of_N x - 4294967296)%Z.

(** tests/utils/compute_groundtruth.cpp:210-226 get_num_parts; [ps] is PARTSIZE. *)
Definition num_parts (ps : nat) (np : N) : nat :=
  let z := int32_val np in
  Z.to_nat (if (Z.rem z (Z.of_nat ps) =? 0)%Z then Z.quot z (Z.of_nat ps) else (Z.quot z (Z.of_nat ps) + 1)%Z).

(** tests/utils/compute_groundtruth.cpp:228-261 load_bin_as_float: points, dimension and
    floats of a part.  Nothing is checked: bytes the file does not have stay uninitialised
    and are converted.  [g1], [g2] as in [load_bin].  part_num is below the number of parts,
    so the subtraction does not wrap; the sizes stay below 2^63. *)
Definition load_part (kt : ktype) (g1 g2 : list N) (fl : file) (ps part : nat) : res (nat * nat * list f32) :=
  let '(np, nd, s) := read_header g1 g2 (open_file fl) in
  let start := N.of_nat (part * ps) in
  let stop := N.min (start + N.of_nat ps) (sign_extend np) in
  let npts := (stop - start)%N in
  let w := N.of_nat (kwidth kt) in
  let got := match fl with
             | Some b => if s_good s then firstn (N.to_nat (npts * nd * w)) (skipn (N.to_nat (start * nd * w + 8)) b) else []
             | None => []
             end in
  if (N.of_nat (length got) <? npts * nd * w)%N then UB
  else Ok (N.to_nat npts, N.to_nat nd, map (kval kt) (dec_all (kwidth kt) (N.to_nat (npts * nd)) got)).

(** tests/utils/compute_groundtruth.cpp:325-345: the parts from [p] on.  [dim] is overwritten
    by the dimension of the base file, whatever the query file says. *)
Fixpoint tool_parts (W : gt_ways) (mips : bool) (pushf : push_op) (takef : take_op) (kt : ktype) (g1 g2 : list N) (base : file) (bs ps k nq : nat) (queries : list f32)
    (orders : nat -> nat -> list nat) (p cnt : nat) (results : list (list pair_if)) : res (list (list pair_if)) :=
  match cnt with
  | O => Ok results
  | S cnt' =>
      do pt <- load_part kt g1 g2 base ps p;
      let '(npoints, dim, points) := pt in
      do dm <- part_matrix W mips p bs dim npoints points nq queries;
      do part <- exact_knn pushf takef bs k npoints nq dm (orders p) (repeat (0, S754_nan) (nq * k));
      tool_parts W mips pushf takef kt g1 g2 base bs ps k nq queries orders (S p) cnt' (gather k (p * ps) part 0 results)
  end.

(** tests/utils/compute_groundtruth.cpp:347-358 *)
Definition written (mips : bool) (x : pair_if) : pair_if := (fst x, if mips then fneg (snd x) else snd x).
Fixpoint tool_copy (mips : bool) (k i j cnt : nat) (r out : list pair_if) : res (list pair_if) :=
  match cnt with
  | O => Ok out
  | S cnt' => do x <- rd r j; do out' <- wr out (i * k + j) (written mips x); tool_copy mips k i (S j) cnt' r out'
  end.
Fixpoint tool_merge (mips : bool) (sortf : list pair_if -> list pair_if) (k i : nat) (results : list (list pair_if)) (out : list pair_if) : res (list pair_if) :=
  match results with
  | [] => Ok out
  | r :: t => do out' <- tool_copy mips k i 0 k (sortf r) out; tool_merge mips sortf k (S i) t out'
  end.

(** tests/utils/compute_groundtruth.cpp:303-366 aux_main: the bytes of the ground truth
    file.  save_groundtruth_as_one_file (283-301) is that of TruthModel.v.  [gb1] to [gq2] are
    the bytes uninitialised header variables happen to hold. *)
Definition gt_tool (W : gt_ways) (mips : bool) (pushf : push_op) (takef : take_op) (sortf : list pair_if -> list pair_if) (bs ps : nat) (kt : ktype) (gb1 gb2 gq1 gq2 : list N)
    (base query : file) (k : nat) (orders : nat -> nat -> list nat) : res (list N) :=
  let '(np, _, _) := read_header gb1 gb2 (open_file base) in
  do qs <- load_part kt gq1 gq2 query ps 0;
  let '(nq, _, queries) := qs in
  do results <- tool_parts W mips pushf takef kt gb1 gb2 base bs ps k nq queries orders 0 (num_parts ps np) (repeat [] nq);
  do out <- tool_merge mips sortf k 0 results (repeat (0, S754_nan) (nq * k));
  save_truthset (map (fun x => N.of_nat (fst x)) out) (map (fun x => bits_of_f32 (snd x)) out) (N.of_nat nq) (N.of_nat k).

(** * Theorems: the codes of product quantisation are the best ones together (C130).

    [rebuilt], [codes_at], [names_pivots], [pieces_within], [code_err]: QuantSpec.v; [exact_l2]: RealSpec.v; [boundaries], [centred],
    [usable], [pq_orders]: PqSpec.v; [pivot_files], [float_rows]: PqFileSpec.v. *)
From Coq Require Import NArith ZArith Reals String List Arith Bool Floats.SpecFloat.
From Verif Require Import Base Bytes Float32 DivFacts StreamModel BinModel BinSpec IndexFileModel CacheModel ClosestModel ClosestSpec PopInst PqModel PqSpec DistSpec RealSpec
  ShardModel ShardSpec PqFileModel PqFileSpec FusedModel BlasModel BlasSpec BlasCases QuantSpec QuantProofs QuantCases.
Import ListNotations.
Open Scope nat_scope.

(** C130.  From pivot files and data file to code file: of all choices of pivots, one per chunk, the codes written stand for the vector nearest to the data vector, up to the errors of the distances computed (C99 bounds them). *)
Theorem C130_file : forall g gl popf mbs maxb cdist w conv orders data n dim nc chunks base path out d centroid offs pivots err,
  pops popf -> 1 <= mbs -> 1 <= maxb -> four_bytes gl -> (N.of_nat dim + 1 < 2 ^ 32)%N -> 1 <= chunks -> chunks <= dim -> (N.of_nat nc * N.of_nat dim < 2 ^ 32)%N ->
  boundaries dim chunks offs -> length centroid = dim -> (forall v, In v centroid -> f32_valid v = true) -> rows_of nc dim pivots -> floats_ok pivots ->
  pivot_files path nc dim centroid offs pivots d -> d data = Some (vector_file dim base) -> rows_ok n (dim * w) dim base -> 1 <= n ->
  pq_orders n (min n maxb) mbs orders ->
  (forall p i a, p < n -> i < chunks -> nth_error offs i = Some a -> usable (pivot_dist cdist centroid pivots (float_rows w conv dim base) a (chunk_size dim chunks i) p) nc) ->
  pieces_within cdist dim chunks nc offs pivots (map (centred centroid) (float_rows w conv dim base)) err ->
  exists codes body, pq_data g gl popf mbs maxb cdist w conv orders data nc chunks path out d = Ok (fs_set d out (Some (u32 (N.of_nat n) ++ u32 (N.of_nat chunks) ++ body))) /\
    dec_all (code_width nc) (n * chunks) body = map N.of_nat codes /\
    forall p, p < n -> names_pivots chunks nc (codes_at chunks p codes) /\ forall cs, names_pivots chunks nc cs ->
      let x := centred centroid (nth p (float_rows w conv dim base) []) in
      (exact_l2 x (rebuilt dim chunks offs pivots (codes_at chunks p codes)) <=
       exact_l2 x (rebuilt dim chunks offs pivots cs) + code_err chunks err p (codes_at chunks p codes) + code_err chunks err p cs)%R.
Proof. exact file_best. Qed.
Print Assumptions C130_file.

(** C130.  The same of the encoder. *)
Theorem C130_codes : forall popf mbs maxb cdist n dim nc chunks centroid offs pivots rows orders err,
  pops popf -> 1 <= mbs -> 1 <= maxb -> 1 <= n -> 1 <= chunks -> chunks <= dim -> boundaries dim chunks offs ->
  length centroid = dim -> rows_of nc dim pivots -> rows_of n dim rows -> pq_orders n (min n maxb) mbs orders -> (N.of_nat nc <= 2 ^ 32)%N ->
  (forall p i a, p < n -> i < chunks -> nth_error offs i = Some a -> usable (pivot_dist cdist centroid pivots rows a (chunk_size dim chunks i) p) nc) ->
  pieces_within cdist dim chunks nc offs pivots (map (centred centroid) rows) err ->
  exists codes body, pq_encode popf mbs maxb cdist n dim nc chunks centroid (seq 0 dim) offs pivots rows orders = Ok (u32 (N.of_nat n) ++ u32 (N.of_nat chunks) ++ body) /\
    dec_all (code_width nc) (n * chunks) body = map N.of_nat codes /\
    forall p, p < n -> names_pivots chunks nc (codes_at chunks p codes) /\ forall cs, names_pivots chunks nc cs ->
      (exact_l2 (centred centroid (nth p rows [])) (rebuilt dim chunks offs pivots (codes_at chunks p codes)) <=
       exact_l2 (centred centroid (nth p rows [])) (rebuilt dim chunks offs pivots cs) + code_err chunks err p (codes_at chunks p codes) + code_err chunks err p cs)%R.
Proof. exact encode_best. Qed.
Print Assumptions C130_codes.

(** C130.  With exact distances no other codes stand for a nearer vector, and a vector put together from pieces of pivots is restored exactly. *)
Theorem C130_exact : forall popf mbs maxb cdist n dim nc chunks centroid offs pivots rows orders,
  pops popf -> 1 <= mbs -> 1 <= maxb -> 1 <= n -> 1 <= chunks -> chunks <= dim -> boundaries dim chunks offs ->
  length centroid = dim -> rows_of nc dim pivots -> rows_of n dim rows -> pq_orders n (min n maxb) mbs orders -> (N.of_nat nc <= 2 ^ 32)%N ->
  (forall p i a, p < n -> i < chunks -> nth_error offs i = Some a -> usable (pivot_dist cdist centroid pivots rows a (chunk_size dim chunks i) p) nc) ->
  pieces_within cdist dim chunks nc offs pivots (map (centred centroid) rows) (fun _ _ _ => 0%R) ->
  exists codes body, pq_encode popf mbs maxb cdist n dim nc chunks centroid (seq 0 dim) offs pivots rows orders = Ok (u32 (N.of_nat n) ++ u32 (N.of_nat chunks) ++ body) /\
    dec_all (code_width nc) (n * chunks) body = map N.of_nat codes /\
    (forall p cs, p < n -> names_pivots chunks nc cs ->
      (exact_l2 (centred centroid (nth p rows [])) (rebuilt dim chunks offs pivots (codes_at chunks p codes)) <= exact_l2 (centred centroid (nth p rows [])) (rebuilt dim chunks offs pivots cs))%R) /\
    forall p cs, p < n -> names_pivots chunks nc cs -> centred centroid (nth p rows []) = rebuilt dim chunks offs pivots cs ->
      map real (rebuilt dim chunks offs pivots (codes_at chunks p codes)) = map real (centred centroid (nth p rows [])).
Proof. exact encode_lossless. Qed.
Print Assumptions C130_exact.

(** C130.  Pivots added to the others never make the vector restored worse, by more than the errors. *)
Theorem C130_more_pivots : forall popf mbs maxb cdist n dim nc chunks centroid offs pivots more rows orders popf' mbs' maxb' cdist' orders' err',
  pops popf -> 1 <= mbs -> 1 <= maxb -> pops popf' -> 1 <= mbs' -> 1 <= maxb' -> 1 <= n -> 1 <= chunks -> chunks <= dim -> boundaries dim chunks offs ->
  length centroid = dim -> rows_of nc dim pivots -> (forall x, In x more -> length x = dim) -> rows_of n dim rows ->
  pq_orders n (min n maxb) mbs orders -> pq_orders n (min n maxb') mbs' orders' -> (N.of_nat (nc + length more) <= 2 ^ 32)%N ->
  (forall p i a, p < n -> i < chunks -> nth_error offs i = Some a -> usable (pivot_dist cdist centroid pivots rows a (chunk_size dim chunks i) p) nc) ->
  (forall p i a, p < n -> i < chunks -> nth_error offs i = Some a -> usable (pivot_dist cdist' centroid (pivots ++ more) rows a (chunk_size dim chunks i) p) (nc + length more)) ->
  pieces_within cdist' dim chunks (nc + length more) offs (pivots ++ more) (map (centred centroid) rows) err' ->
  exists codes body codes' body',
    pq_encode popf mbs maxb cdist n dim nc chunks centroid (seq 0 dim) offs pivots rows orders = Ok (u32 (N.of_nat n) ++ u32 (N.of_nat chunks) ++ body) /\
    dec_all (code_width nc) (n * chunks) body = map N.of_nat codes /\
    pq_encode popf' mbs' maxb' cdist' n dim (nc + length more) chunks centroid (seq 0 dim) offs (pivots ++ more) rows orders' = Ok (u32 (N.of_nat n) ++ u32 (N.of_nat chunks) ++ body') /\
    dec_all (code_width (nc + length more)) (n * chunks) body' = map N.of_nat codes' /\
    forall p, p < n ->
      (exact_l2 (centred centroid (nth p rows [])) (rebuilt dim chunks offs (pivots ++ more) (codes_at chunks p codes')) <=
       exact_l2 (centred centroid (nth p rows [])) (rebuilt dim chunks offs pivots (codes_at chunks p codes)) + code_err chunks err' p (codes_at chunks p codes') + code_err chunks err' p (codes_at chunks p codes))%R.
Proof. exact encode_more. Qed.
Print Assumptions C130_more_pivots.

Example C130_case : pops pop_all /\ boundaries 3 2 [0; 2; 3] /\ rows_of 3 3 qt_pivots /\ rows_of 3 3 qt_rows /\ pq_orders 3 (min 3 2) 3 qt_orders /\
  (forall p i a, p < 3 -> i < 2 -> nth_error [0; 2; 3] i = Some a -> usable (pivot_dist qt_dist qt_centroid qt_pivots qt_rows a (chunk_size 3 2 i) p) 3) /\
  pieces_within qt_dist 3 2 3 [0; 2; 3] qt_pivots (map (centred qt_centroid) qt_rows) (fun _ _ _ => 0%R) /\
  (forall p i a, p < 3 -> i < 2 -> nth_error [0; 2; 3] i = Some a -> usable (pivot_dist qt_dist qt_centroid (qt_pivots ++ qt_more) qt_rows a (chunk_size 3 2 i) p) 4) /\
  pieces_within qt_dist 3 2 4 [0; 2; 3] (qt_pivots ++ qt_more) (map (centred qt_centroid) qt_rows) (fun _ _ _ => 0%R) /\
  pq_encode pop_all 3 2 qt_dist 3 3 3 2 qt_centroid (seq 0 3) [0; 2; 3] qt_pivots qt_rows qt_orders = Ok (u32 3 ++ u32 2 ++ [1; 2; 0; 0; 1; 2]%N) /\
  pq_encode pop_all 3 2 qt_dist 3 3 4 2 qt_centroid (seq 0 3) [0; 2; 3] (qt_pivots ++ qt_more) qt_rows qt_orders = Ok (u32 3 ++ u32 2 ++ [1; 2; 0; 0; 3; 2]%N) /\
  centred qt_centroid (nth 2 qt_rows []) = rebuilt 3 2 [0; 2; 3] (qt_pivots ++ qt_more) [3; 2].
Proof. exact qt_case. Qed.

(** With the distances of the matrix products the errors are real: the vector 5794 is a pivot, but is coded by the pivot 5793. *)
Theorem C130_exact_refuted : block_ways_ok 1 qt_ws /\
  pq_encode pop_all 1 1 qt_blas 1 1 2 1 [f32_zero] (seq 0 1) [0; 1] [ints [5794]; ints [5793]]%Z [ints [5794]]%Z (fun _ _ k => list_prod (seq k (1 - k)) [0]) = Ok (u32 1 ++ u32 1 ++ [1]%N) /\
  centred [f32_zero] (ints [5794]%Z) = rebuilt 1 1 [0; 1] [ints [5794]; ints [5793]]%Z [0] /\
  exact_l2 (centred [f32_zero] (ints [5794]%Z)) (rebuilt 1 1 [0; 1] [ints [5794]; ints [5793]]%Z [1]) = 1%R.
Proof. exact qt_loss. Qed.
Print Assumptions C130_exact_refuted.

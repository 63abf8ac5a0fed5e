(** * Theorems: vectors scaled to unit norm for inner product search (C94, C95).

    [elem_real], [elem_sq], [unit_scaled], [normalised], [query_dot] (NormSpec) speak about the
    exact real numbers the files hold.  [f] is any order and contraction of the sum of squares
    over all coordinates. *)
From Coq Require Import NArith ZArith Reals List Arith Bool Floats.SpecFloat Sorting.Permutation.
From Verif Require Import Base Bytes Float32 FloatBits DistSpec StreamModel BinModel BinSpec FusedModel RealSpec NormModel NormSpec NormProofs NormProofs2 NormProofs3 NormProofs4 NormProofs5 NormProofs6 NormCases NormCases2.
Import ListNotations.

(** C94.  prepare_base_for_inner_products, any block size: the file written has one more
    coordinate; the value returned is the largest norm; every vector is divided by it and
    has norm 1 with the coordinate added. *)
Theorem C94_prepared : forall k f bs g1 g2 n d vs, 1 <= bs -> length g1 = 4 -> length g2 = 4 -> length vs = n -> 1 <= n -> (N.of_nat n < 2 ^ 32)%N -> (Z.of_nat d <= 2 ^ 20)%Z ->
  Permutation (fred_items f) (seq 0 d) ->
  (forall v, In v vs -> length v = d /\ Forall (elem_ok k) v /\ (elem_sq k v <= powerRZ 2 125)%R) -> (exists v, In v vs /\ (powerRZ 2 (-99) <= elem_sq k v)%R) ->
  exists M out, prepare_base k f bs g1 g2 (Some (bin_file (kwidth k) (N.of_nat n) (N.of_nat d) (concat vs))) =
    Ok (bin_file 4 (N.of_nat n) (N.of_nat (d + 1)) (map bits_of_f32 (concat out)), M) /\
    finite M /\ (0 < real M)%R /\
    (exists m, In m vs /\ (forall v, In v vs -> elem_sq k v <= elem_sq k m)%R /\ (Rabs (real M ^ 2 - elem_sq k m) <= (INR d + 4) * powerRZ 2 (-22) * elem_sq k m)%R) /\
    Forall2 (unit_scaled k M) vs out.
Proof. exact prepare_ok. Qed.
Print Assumptions C94_prepared.

(** What it is for: a query with a zero appended is nearer to the vector with the larger
    inner product, unless the two are within the errors. *)
Theorem C94_order : forall k M q x y ox oy, (0 < real M)%R -> length q = length x -> length q = length y -> unit_scaled k M x ox -> unit_scaled k M y oy ->
  (query_dot k q y / real M + (INR (length q) + 20) * powerRZ 2 (-22) + powerRZ 2 (-24) * ((query_abs k q x + query_abs k q y) / real M) + powerRZ 2 (-149) * abs_sum q < query_dot k q x / real M)%R ->
  (exact_l2 (q ++ [S754_zero false]) ox < exact_l2 (q ++ [S754_zero false]) oy)%R.
Proof. exact unit_order. Qed.
Print Assumptions C94_order.

(** An empty file divides by zero. *)
Theorem C94_empty_refuted : forall k f bs g1 g2 d, length g1 = 4 -> length g2 = 4 -> u32_range d ->
  prepare_base k f bs g1 g2 (Some (bin_file (kwidth k) 0 d [])) = UB.
Proof. exact empty_ub. Qed.
Print Assumptions C94_empty_refuted.

(** Data that is all zero, very small or very large is turned into infinities or NaNs: the
    floats 0, 2^-80 and 2^64. *)
Theorem C94_every_file_refuted : forall g1 g2, length g1 = 4 -> length g2 = 4 -> forall e, In e [0; (47 * 2 ^ 23); (191 * 2 ^ 23)]%N ->
  elem_ok KFloat e /\ exists out M c, prepare_base KFloat (FItem 0) 100 g1 g2 (Some (bin_file 4 1 1 [e])) = Ok (bin_file 4 1 2 out, M) /\ In c out /\ ~ finite (f32_of_bits c).
Proof. exact not_unit. Qed.
Print Assumptions C94_every_file_refuted.

(** Three vectors in two blocks, of squared norms 25, 1 and 8. *)
Example C94_case : Permutation (fred_items case_f) (seq 0 2) /\
  (forall v, In v case_vs -> length v = 2 /\ Forall (elem_ok KFloat) v /\ (powerRZ 2 (-99) <= elem_sq KFloat v <= powerRZ 2 125)%R) /\
  map (elem_sq KFloat) case_vs = [25; 1; 8]%R.
Proof. exact case_hyps. Qed.
Example C94_case_runs : forall g1 g2, length g1 = 4 -> length g2 = 4 ->
  prepare_base KFloat case_f 2 g1 g2 (Some (bin_file 4 3 2 (concat case_vs))) = Ok (bin_file 4 3 3 (map bits_of_f32
    [fdiv (fz 3) (fz 5); fdiv (fz 4) (fz 5); fz 0; fdiv (fz 1) (fz 5); fz 0; fsqrt (fsub (fz 1) (fdiv (fz 1) (fz 25))); fdiv (fz 2) (fz 5); fdiv (fz 2) (fz 5); fsqrt (fsub (fz 1) (fdiv (fz 8) (fz 25)))]), fz 5).
Proof. exact case_runs. Qed.

(** The first of them against the second, for the query (1,0). *)
Example C94_order_case : exists ox oy, unit_scaled KFloat (fz 5) [bit 3; bit 4] ox /\ unit_scaled KFloat (fz 5) [bit 1; bit 0] oy /\ let q := [fz 1; fz 0] in (0 < real (fz 5))%R /\
  (query_dot KFloat q [bit 1; bit 0] / real (fz 5) + (INR (length q) + 20) * powerRZ 2 (-22) + powerRZ 2 (-24) * ((query_abs KFloat q [bit 3; bit 4] + query_abs KFloat q [bit 1; bit 0]) / real (fz 5)) + powerRZ 2 (-149) * abs_sum q
   < query_dot KFloat q [bit 3; bit 4] / real (fz 5))%R.
Proof. exact order_case. Qed.

(** C95.  The vector_analysis tool on float files.  Option 2, when the vectors are handled
    one by one in any order: as C94. *)
Theorem C95_prep_base : forall f sched g1 g2 n d vs, length g1 = 4 -> length g2 = 4 -> length vs = n -> 1 <= n -> (N.of_nat n < 2 ^ 32)%N -> (Z.of_nat d <= 2 ^ 20)%Z ->
  Permutation (fred_items f) (seq 0 d) ->
  (forall v, In v vs -> length v = d /\ Forall (elem_ok KFloat) v /\ (elem_sq KFloat v <= powerRZ 2 125)%R) -> (exists v, In v vs /\ (powerRZ 2 (-99) <= elem_sq KFloat v)%R) ->
  one_by_one n sched ->
  exists M out, augment_base KFloat f sched true g1 g2 (Some (bin_file 4 (N.of_nat n) (N.of_nat d) (concat vs))) = Ok (bin_file 4 (N.of_nat n) (N.of_nat (d + 1)) (map bits_of_f32 (concat out))) /\
    finite M /\ (0 < real M)%R /\
    (exists m, In m vs /\ (forall v, In v vs -> elem_sq KFloat v <= elem_sq KFloat m)%R /\ (Rabs (real M ^ 2 - elem_sq KFloat m) <= (INR d + 4) * powerRZ 2 (-22) * elem_sq KFloat m)%R) /\
    Forall2 (unit_scaled KFloat M) vs out.
Proof. exact augment_ok. Qed.
Print Assumptions C95_prep_base.

(** The loop is parallel and the maximum not protected: two threads can lose the larger norm,
    and a vector of squared norm 4 is written. *)
Theorem C95_prep_base_parallel_refuted : interleaving 2 race_sched /\ forall g1 g2, length g1 = 4 -> length g2 = 4 ->
  augment_base KFloat (FItem 0) race_sched true g1 g2 (Some (bin_file 4 2 1 [bit 2; bit 1])) = Ok (bin_file 4 2 2 (map bits_of_f32 [f32_of_Z 2; S754_zero false; f32_of_Z 1; S754_zero false])) /\
  float_sq [f32_of_Z 2; S754_zero false] = 4%R.
Proof. exact race_loses. Qed.
Print Assumptions C95_prep_base_parallel_refuted.

(** Option 3, for every interleaving: each query divided by its norm, with a zero appended. *)
Theorem C95_prep_query : forall f sched g1 g2 n d vs, length g1 = 4 -> length g2 = 4 -> length vs = n -> (N.of_nat n < 2 ^ 32)%N -> (Z.of_nat d <= 2 ^ 20)%Z ->
  Permutation (fred_items f) (seq 0 d) ->
  (forall v, In v vs -> length v = d /\ Forall (elem_ok KFloat) v /\ (powerRZ 2 (-99) <= elem_sq KFloat v <= powerRZ 2 125)%R) -> interleaving n sched ->
  exists out, augment_base KFloat f sched false g1 g2 (Some (bin_file 4 (N.of_nat n) (N.of_nat d) (concat vs))) =
    Ok (bin_file 4 (N.of_nat n) (N.of_nat (d + 1)) (map bits_of_f32 (concat (map (fun o => o ++ [S754_zero false]) out)))) /\ Forall2 (normalised KFloat) vs out.
Proof. exact query_ok. Qed.
Print Assumptions C95_prep_query.

(** Option 4: each vector divided by its norm. *)
Theorem C95_normalize : forall f g1 g2 n d vs, length g1 = 4 -> length g2 = 4 -> length vs = n -> (N.of_nat n < 2 ^ 32)%N -> (Z.of_nat d <= 2 ^ 20)%Z ->
  Permutation (fred_items f) (seq 0 d) ->
  (forall v, In v vs -> length v = d /\ Forall (elem_ok KFloat) v /\ (powerRZ 2 (-99) <= elem_sq KFloat v <= powerRZ 2 125)%R) ->
  exists out, normalize_base KFloat f g1 g2 (Some (bin_file 4 (N.of_nat n) (N.of_nat d) (concat vs))) = Ok (bin_file 4 (N.of_nat n) (N.of_nat d) (map bits_of_f32 (concat out))) /\
    Forall2 (normalised KFloat) vs out.
Proof. exact normalize_ok. Qed.
Print Assumptions C95_normalize.

(** A zero vector becomes NaN. *)
Theorem C95_normalize_zero_refuted : forall g1 g2, length g1 = 4 -> length g2 = 4 ->
  normalize_base KFloat (FItem 0) g1 g2 (Some (bin_file 4 1 1 [0%N])) = Ok (bin_file 4 1 1 [2143289344%N]) /\ f32_of_bits 2143289344 = S754_nan.
Proof. exact zero_nan. Qed.
Print Assumptions C95_normalize_zero_refuted.

(** On byte files the scaled coordinates are cut to integers, and vectors fall together:
    (1,0) and (0,1) beside (2,0). *)
Theorem C95_prep_bytes_refuted : forall g1 g2, length g1 = 4 -> length g2 = 4 -> forall k, k = KInt8 \/ k = KUint8 ->
  augment_base k (FAdd (FItem 0) (FItem 1)) [MLoad 0; MStore 0; MLoad 1; MStore 1; MLoad 2; MStore 2] true g1 g2 (Some (bin_file 1 3 2 [1; 0; 0; 1; 2; 0]%N)) = Ok (bin_file 1 3 3 [0; 0; 0; 0; 0; 0; 1; 0; 0]%N).
Proof. exact bytes_lost. Qed.
Print Assumptions C95_prep_bytes_refuted.

(** The vectors of C94_case, and two schedules for them. *)
Example C95_case : interleaving 3 [MLoad 1; MLoad 0; MStore 1; MLoad 2; MStore 2; MStore 0] /\ one_by_one 3 [MLoad 1; MStore 1; MLoad 0; MStore 0; MLoad 2; MStore 2].
Proof. exact case_sched. Qed.

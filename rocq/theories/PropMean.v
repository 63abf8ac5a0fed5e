(** * Theorems: computed means (C98).

    [mean], [mean_abs], [coord], [column], [distance], [norm], [rows_ok] and [in_order] are
    defined in MeanSpec; [real] is the real number a float stands for (RealSpec).  The
    additions may be regrouped ([ts]: only the set of points added matters), the division
    may be turned into a multiplication ([c]) and the distances may be computed in any order
    with any contractions ([fs]). *)
From Coq Require Import NArith ZArith Reals List Arith Bool Floats.SpecFloat Sorting.Permutation.
From Verif Require Import Base Float32 DivFacts DistSpec DistModel FusedModel RealSpec LloydModel NormModel NormSpec MeanModel MeanSpec MeanProofs2 MeanProofs4 MeanProofs5 MeanProofs6 MeanCases.
Import ListNotations.
Local Open Scope R_scope.

(** C98.  The centroid product quantisation subtracts is the mean of the training points,
    coordinate by coordinate, up to rounding. *)
Theorem C98_pq_centroid : forall c ts dim data, (1 <= length data)%nat -> (Z.of_nat (length data) < 2 ^ 22)%Z ->
  (forall row, In row data -> length row = dim /\ forall x, In x row -> finite x /\ f32_valid x = true) -> (forall j, (j < dim)%nat -> Permutation (red_items (ts j)) (seq 0 (length data))) ->
  (forall j, (j < dim)%nat -> real_sum (map (fun row => Rabs (real (nth j row f32_zero))) data) <= powerRZ 2 125) ->
  exists ctr, pq_centroid true c ts dim data = Ok ctr /\ length ctr = dim /\ forall j, (j < dim)%nat -> exists x, nth_error ctr j = Some x /\ finite x /\
    Rabs (real x - mean (map (fun row => real (nth j row f32_zero)) data)) <= (INR (length data) + 3) * powerRZ 2 (-23) * mean_abs (map (fun row => real (nth j row f32_zero)) data) + powerRZ 2 (-150).
Proof. exact centroid_floats. Qed.
Print Assumptions C98_pq_centroid.

(** Beside it: four points; the centroid is 41.25 twice. *)
Example C98_pq_centroid_case : (1 <= length case_data)%nat /\ (Z.of_nat (length case_data) < 2 ^ 22)%Z /\ (forall row, In row case_data -> length row = 2%nat /\ forall x, In x row -> finite x /\ f32_valid x = true) /\
  (forall j, (j < 2)%nat -> Permutation (red_items (in_order 4)) (seq 0 (length case_data))) /\
  (forall j, (j < 2)%nat -> real_sum (map (fun row => Rabs (real (nth j row f32_zero))) case_data) <= powerRZ 2 125) /\
  pq_centroid true Divides (fun _ => in_order 4) 2 case_data = Ok [S754_finite false 10813440 (-18); S754_finite false 10813440 (-18)].
Proof. exact case_floats. Qed.

(** C98.  The point a graph is entered at is, among all points, nearest to the mean of the
    data up to rounding: no point is nearer by more than the errors of the centroid and of
    the distances. *)
Theorem C98_entry : forall c ts fs k dim rows, (1 <= length rows)%nat -> (Z.of_nat (length rows) < 2 ^ 22)%Z -> (Z.of_nat dim <= 2 ^ 20)%Z -> rows_ok k dim (powerRZ 2 50) rows ->
  (forall j, (j < dim)%nat -> Permutation (red_items (ts j)) (seq 0 (length rows))) -> (forall i, (i < length rows)%nat -> Permutation (fred_items (fs i)) (seq 0 dim)) ->
  exists p, medoid_of_data c ts fs k dim rows = Ok p /\ (p < length rows)%nat /\ forall q, (q < length rows)%nat ->
    distance dim (coord k (nth p rows [])) (fun j => mean (column k rows j)) <=
    (1 + (INR dim + 2) * powerRZ 2 (-22)) * distance dim (coord k (nth q rows [])) (fun j => mean (column k rows j)) +
    3 * ((INR (length rows) + 3) * powerRZ 2 (-23)) * norm dim (fun j => mean_abs (column k rows j)) + powerRZ 2 (-60).
Proof. exact entry_floats. Qed.
Print Assumptions C98_entry.

(** C98.  For bytes whose columns add up to at most 2^24 the number of points does not
    matter. *)
Theorem C98_entry_bytes : forall c ts fs k dim rows, k <> KFloat -> (1 <= length rows)%nat -> (Z.of_nat (length rows) < 2 ^ 63)%Z -> (Z.of_nat dim <= 2 ^ 20)%Z ->
  (forall row, In row rows -> length row = dim /\ forall e, In e row -> elem_ok k e) -> (forall j, (j < dim)%nat -> real_sum (map Rabs (column k rows j)) <= powerRZ 2 24) ->
  (forall j, (j < dim)%nat -> Permutation (red_items (ts j)) (seq 0 (length rows))) -> (forall i, (i < length rows)%nat -> Permutation (fred_items (fs i)) (seq 0 dim)) ->
  exists p, medoid_of_data c ts fs k dim rows = Ok p /\ (p < length rows)%nat /\ forall q, (q < length rows)%nat ->
    distance dim (coord k (nth p rows [])) (fun j => mean (column k rows j)) <=
    (1 + (INR dim + 2) * powerRZ 2 (-22)) * distance dim (coord k (nth q rows [])) (fun j => mean (column k rows j)) +
    3 * powerRZ 2 (-21) * norm dim (fun j => mean (column k rows j)) + powerRZ 2 (-60).
Proof. exact entry_bytes. Qed.
Print Assumptions C98_entry_bytes.

(** Beside them: four points of two bytes; point 3 is nearest to their mean. *)
Example C98_entry_case : KUint8 <> KFloat /\ (1 <= length case_rows)%nat /\ (Z.of_nat (length case_rows) < 2 ^ 22)%Z /\
  rows_ok KUint8 2 (powerRZ 2 50) case_rows /\ (forall j, (j < 2)%nat -> real_sum (map Rabs (column KUint8 case_rows j)) <= powerRZ 2 24) /\
  (forall j, (j < 2)%nat -> Permutation (red_items (in_order 4)) (seq 0 (length case_rows))) /\ (forall i, (i < length case_rows)%nat -> Permutation (fred_items (case_fs i)) (seq 0 2)) /\
  medoid_of_data Divides (fun _ => in_order 4) case_fs KUint8 2 case_rows = Ok 3%nat /\ medoid_of_data Reciprocates (fun _ => in_order 4) case_fs KUint8 2 case_rows = Ok 3%nat /\
  mean (column KUint8 case_rows 0) = 41.25 /\ mean (column KUint8 case_rows 1) = 41.25.
Proof. exact case_bytes. Qed.

(** C98.  Refuted without a bound on the number of points: 2^25 points 2 and one point 1.
    The sum, taken point by point, stops growing at 2^25, the centroid is 1, and the graph
    is entered at the one point that is farthest from the mean, with every form of the
    division and of the distances. *)
Theorem C98_many_points_refuted : exists rows p q, rows_ok KUint8 1 2 rows /\ (p < length rows)%nat /\ (q < length rows)%nat /\ Z.of_nat (length rows) = (2 ^ 25 + 1)%Z /\
  (forall c fs, (forall i, Permutation (fred_items (fs i)) (seq 0 1)) -> medoid_of_data c (fun _ => in_order (length rows)) fs KUint8 1 rows = Ok p) /\
  distance 1 (coord KUint8 (nth q rows [])) (fun j => mean (column KUint8 rows j)) <= powerRZ 2 (-25) /\
  distance 1 (coord KUint8 (nth p rows [])) (fun j => mean (column KUint8 rows j)) >= 1 - powerRZ 2 (-25).
Proof. exact saturation. Qed.
Print Assumptions C98_many_points_refuted.

(** C98.  A centre after one of Lloyd's iterations is the mean of the points of its cluster,
    coordinate by coordinate: one rounding to float, and an error of the sum in double
    precision that is negligible for up to 2^28 points. *)
Theorem C98_lloyd : forall dim data docs, docs <> [] -> (Z.of_nat (length docs) <= 2 ^ 28)%Z ->
  (forall p, In p docs -> exists row, nth_error data p = Some row /\ length row = dim /\ forall x, In x row -> finite x /\ f32_valid x = true /\ Rabs (real x) <= powerRZ 2 126) ->
  exists ctr, new_center dim data docs = Ok ctr /\ length ctr = dim /\ forall j, (j < dim)%nat -> exists x, nth_error ctr j = Some x /\ finite x /\
    let col := map (fun p => real (nth j (nth p data []) f32_zero)) docs in
    Rabs (real x - mean col) <= powerRZ 2 (-24) * Rabs (mean col) + (INR (length docs) + 1) * powerRZ 2 (-51) * mean_abs col + powerRZ 2 (-149).
Proof. exact lloyd_centre. Qed.
Print Assumptions C98_lloyd.

(** Beside it: three of the four points; the centre is 45 and 41.6667. *)
Example C98_lloyd_case : [0; 2; 3]%nat <> [] /\ (Z.of_nat (length [0; 2; 3]%nat) <= 2 ^ 28)%Z /\
  (forall p, In p [0; 2; 3]%nat -> exists row, nth_error case_data p = Some row /\ length row = 2%nat /\ forall x, In x row -> finite x /\ f32_valid x = true /\ Rabs (real x) <= powerRZ 2 126) /\
  new_center 2 case_data [0; 2; 3]%nat = Ok [S754_finite false 11796480 (-18); S754_finite false 10922667 (-18)].
Proof. exact case_lloyd. Qed.

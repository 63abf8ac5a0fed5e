(** * Theorems: residuals, rotations and the memory budget (C111).

    Tables are flat, row after row; [ids] is the centre of each point; the orders are those in which
    the threads come to the points; [ws] any choice of the library of the order of additions and of fused operations. *)
From Coq Require Import ZArith Reals String List Arith Bool Permutation Floats.SpecFloat.
From Verif Require Import Base Float32 DivFacts DistSpec RealSpec BlasModel BlasSpec MathModel MathSpec MathProofs MathProofs3 MathCases.
Import ListNotations.
Local Open Scope nat_scope.

(** C111.  Each number becomes its difference from (or its sum with) that of the point's centre, whatever the order. *)
Theorem C111_residuals : forall dim centers ids sub n nc order data, length centers = nc * dim -> length ids = n -> (forall i id, nth_error ids i = Some id -> id < nc) -> Permutation order (seq 0 n) -> length data = n * dim ->
  exists data', process_residuals dim centers ids sub order data = Ok data' /\ length data' = n * dim /\
    forall i d id x c, d < dim -> nth_error ids i = Some id -> nth_error data (i * dim + d) = Some x -> nth_error centers (id * dim + d) = Some c -> nth_error data' (i * dim + d) = Some (if sub then fsub x c else fadd x c).
Proof. exact residuals. Qed.
Print Assumptions C111_residuals.

(** C111.  Subtracting the centres and adding them again comes back to within three half units of
    |x| + |c|, and exactly for integers of up to 2^24 together. *)
Theorem C111_back : forall dim centers ids n nc order1 order2 (data : list f32), length centers = nc * dim -> length ids = n -> (forall i id, nth_error ids i = Some id -> id < nc) -> Permutation order1 (seq 0 n) -> Permutation order2 (seq 0 n) -> length data = n * dim ->
  (forall x, In x data \/ In x centers -> finite x /\ f32_valid x = true) ->
  exists mid out, process_residuals dim centers ids true order1 data = Ok mid /\ process_residuals dim centers ids false order2 mid = Ok out /\ length out = length data /\
    forall i d id x c, d < dim -> nth_error ids i = Some id -> nth_error data (i * dim + d) = Some x -> nth_error centers (id * dim + d) = Some c -> exists r, nth_error out (i * dim + d) = Some r /\
      ((Rabs (real x) <= powerRZ 2 125 -> Rabs (real c) <= powerRZ 2 125 -> finite r /\ Rabs (real r - real x) <= 3 * ulp * (Rabs (real x) + Rabs (real c)))%R /\
      (forall zx zc, real x = IZR zx -> real c = IZR zc -> (Z.abs zx + Z.abs zc <= 2 ^ 24)%Z -> finite r /\ real r = real x)).
Proof. exact back_any. Qed.
Print Assumptions C111_back.

(** C111.  A centre number out of range is undefined behaviour. *)
Theorem C111_residuals_range : forall dim centers ids sub n nc order data i id, length centers = nc * dim -> 0 < dim -> length ids = n -> Permutation order (seq 0 n) -> length data = n * dim -> nth_error ids i = Some id -> nc <= id ->
  process_residuals dim centers ids sub order data = UB.
Proof. exact residuals_range. Qed.
Print Assumptions C111_residuals_range.

Example C111_residuals_case : process_residuals 2 m_centers [1; 0; 1] true [2; 0; 1] m_data = Ok (fl [-1; -1; 0; 1; 1; 0]%Z) /\
  (do mid <- process_residuals 2 m_centers [1; 0; 1] true [2; 0; 1] m_data; process_residuals 2 m_centers [1; 0; 1] false [0; 1; 2] mid) = Ok m_data /\
  process_residuals 2 m_centers [1; 0; 2] true [0; 1; 2] m_data = UB /\
  (forall x, In x m_data \/ In x m_centers -> finite x /\ f32_valid x = true).
Proof. exact m_residuals. Qed.

(** It does not come back exactly in general: 1 and a centre of 2^25 give 0. *)
Theorem C111_back_refuted : exists dim centers ids (data : list f32) mid out, process_residuals dim centers ids true [0] data = Ok mid /\ process_residuals dim centers ids false [0] mid = Ok out /\
  (map real data = [1] /\ map real out = [0])%R.
Proof. exact back_refuted. Qed.
Print Assumptions C111_back_refuted.

(** C111.  A rotation multiplies each row with the columns of the matrix (or its rows, transposed), up to
    the error of a sum of dim products. *)
Theorem C111_rotation : forall ws (transpose : bool) dim rows M, (Z.of_nat dim <= 2 ^ 20)%Z -> length M = dim -> (forall r, In r rows \/ In r M -> length r = dim /\ forall x, In x r -> finite x /\ f32_valid x = true) -> (forall x, way_ok dim false (ws x)) ->
  (forall r, In r rows -> (exact_ip r r <= powerRZ 2 100)%R) -> (forall j, j < dim -> (exact_ip (line_of transpose M j) (line_of transpose M j) <= powerRZ 2 100)%R) ->
  exists out, rotate_data ws (concat rows) (length rows) dim (concat M) transpose = Ok out /\ length out = length rows * dim /\
    forall i r j, nth_error rows i = Some r -> j < dim -> exists v, nth_error out (i * dim + j) = Some v /\ finite v /\
      (Rabs (real v - exact_ip r (line_of transpose M j)) <= ((1 + ulp) ^ (dim + 2) - 1) * exact_abs_ip r (line_of transpose M j) + INR (2 * dim + 3) * tiny * (1 + ulp) ^ (dim + 2))%R.
Proof. exact rotation. Qed.
Print Assumptions C111_rotation.

(** C111.  Exactly, for integers whose sums of products stay within 2^24. *)
Theorem C111_rotation_integers : forall ws (transpose : bool) dim rows M zr zm, length M = dim -> (forall r, In r rows \/ In r M -> length r = dim /\ forall x, In x r -> finite x /\ f32_valid x = true) -> (forall x, way_ok dim false (ws x)) ->
  (forall i r, nth_error rows i = Some r -> holds_ints r (zr i) /\ forall x, In x (zr i) -> (Z.abs x <= 2 ^ 24)%Z) -> (forall j, j < dim -> holds_ints (line_of transpose M j) (zm j)) ->
  (forall i j, i < length rows -> j < dim -> (int_abs_dot (zr i) (zm j) <= 2 ^ 24)%Z) ->
  exists out, rotate_data ws (concat rows) (length rows) dim (concat M) transpose = Ok out /\ length out = length rows * dim /\
    forall i j, i < length rows -> j < dim -> exists v, nth_error out (i * dim + j) = Some v /\ finite v /\ real v = IZR (int_dot (zr i) (zm j)).
Proof. exact rotation_ints. Qed.
Print Assumptions C111_rotation_integers.

Example C111_rotation_case : (match rotate_data m_way (concat m_rows) 3 2 (concat m_rot) false with Ok o => feqs o (fl [-8; 7; -2; 1; -9; 9]%Z) | _ => false end = true) /\
  (match rotate_data m_way (concat m_rows) 3 2 (concat m_rot) true with Ok o => feqs o (fl [8; -7; 2; -1; 9; -9]%Z) | _ => false end = true).
Proof. exact m_rotate. Qed.
Example C111_rotation_hypotheses : (forall x, way_ok 2 false (m_way x)) /\ (forall r, In r m_rows \/ In r m_rot -> length r = 2 /\ forall x, In x r -> finite x /\ f32_valid x = true) /\
  holds_ints (line_of false m_rot 1) [1; 0]%Z /\ holds_ints (line_of true m_rot 1) [-1; 0]%Z /\ int_dot [7; 8]%Z [1; 0]%Z = 7%Z /\ (exact_ip (fl [7; 8]%Z) (fl [7; 8]%Z) = 113)%R.
Proof. exact m_rotation_case. Qed.

(** C111.  The budget in bytes of a string of gigabytes: all of up to 1.25 GB, otherwise a quarter less. *)
Theorem C111_budget : forall (atof : string -> spec_float) s, (let x := atof s in valid_binary 53 1024 x = true -> finite x -> 0 <= real x <= powerRZ 2 800 ->
  let b := get_memory_budget atof s in finite b /\ (real x <= 5 / 4 -> real b = real x * powerRZ 2 30) /\
    (5 / 4 < real x -> Rabs (real b - (real x - / 4) * powerRZ 2 30) <= powerRZ 2 (-53) * ((real x - / 4) * powerRZ 2 30)))%R.
Proof. exact memory_budget. Qed.
Print Assumptions C111_budget.

(** More memory can give a smaller budget: 1.25 GB gives 1.25, 1.375 GB gives 1.125. *)
Theorem C111_budget_monotone_refuted : (exists (atof : string -> spec_float) s1 s2, valid_binary 53 1024 (atof s1) = true /\ valid_binary 53 1024 (atof s2) = true /\ real (atof s1) = 5 / 4 /\ real (atof s2) = 11 / 8 /\
  real (get_memory_budget atof s1) = 5 / 4 * powerRZ 2 30 /\ real (get_memory_budget atof s2) = 9 / 8 * powerRZ 2 30)%R.
Proof. exact budget_not_monotone. Qed.
Print Assumptions C111_budget_monotone_refuted.

Example C111_budget_case : get_memory_budget (fun _ => S754_finite false 4503599627370496 (-51)) "2" = S754_finite false 7881299347898368 (-22) /\
  get_memory_budget (fun _ => S754_finite false 4503599627370496 (-53)) "0.5" = S754_finite false 4503599627370496 (-23).
Proof. exact m_budget. Qed.

(** The statements in words of the specification. *)
From Coq Require Import ZArith Reals Lra Lia String List Arith Bool Permutation Floats.SpecFloat.
From Verif Require Import Base Float32 DivFacts DistSpec RealSpec RealDistProofs BlasModel BlasSpec MathModel MathSpec MathProofs MathProofs2.
Import ListNotations.
Local Open Scope nat_scope.

Lemma back_any : forall dim centers ids n nc order1 order2 (data : list f32), length centers = nc * dim -> length ids = n -> (forall i id, nth_error ids i = Some id -> id < nc) -> Permutation order1 (seq 0 n) -> Permutation order2 (seq 0 n) -> length data = n * dim ->
  (forall x, In x data \/ In x centers -> finite x /\ f32_valid x = true) ->
  exists mid out, process_residuals dim centers ids true order1 data = Ok mid /\ process_residuals dim centers ids false order2 mid = Ok out /\ length out = length data /\
    forall i d id x c, d < dim -> nth_error ids i = Some id -> nth_error data (i * dim + d) = Some x -> nth_error centers (id * dim + d) = Some c -> exists r, nth_error out (i * dim + d) = Some r /\
      ((Rabs (real x) <= powerRZ 2 125 -> Rabs (real c) <= powerRZ 2 125 -> finite r /\ Rabs (real r - real x) <= 3 * ulp * (Rabs (real x) + Rabs (real c)))%R /\
      (forall zx zc, real x = IZR zx -> real c = IZR zc -> (Z.abs zx + Z.abs zc <= 2 ^ 24)%Z -> finite r /\ real r = real x)).
Proof. exact there_and_back. Qed.

Lemma back_refuted : exists dim centers ids (data : list f32) mid out, process_residuals dim centers ids true [0] data = Ok mid /\ process_residuals dim centers ids false [0] mid = Ok out /\
  (map real data = [1] /\ map real out = [0])%R.
Proof.
  exists 1, [two_25], [0], [f32_one], [fsub f32_one two_25], [fadd (fsub f32_one two_25) two_25]. split; [reflexivity|]. split; [reflexivity|]. destruct back_lost as [A B]. cbn [map]. now rewrite A, B.
Qed.

Lemma rotation : forall ws (transpose : bool) dim rows M, (Z.of_nat dim <= 2 ^ 20)%Z -> length M = dim -> (forall r, In r rows \/ In r M -> length r = dim /\ forall x, In x r -> finite x /\ f32_valid x = true) -> (forall x, way_ok dim false (ws x)) ->
  (forall r, In r rows -> (exact_ip r r <= powerRZ 2 100)%R) -> (forall j, j < dim -> (exact_ip (line_of transpose M j) (line_of transpose M j) <= powerRZ 2 100)%R) ->
  exists out, rotate_data ws (concat rows) (length rows) dim (concat M) transpose = Ok out /\ length out = length rows * dim /\
    forall i r j, nth_error rows i = Some r -> j < dim -> exists v, nth_error out (i * dim + j) = Some v /\ finite v /\
      (Rabs (real v - exact_ip r (line_of transpose M j)) <= ((1 + ulp) ^ (dim + 2) - 1) * exact_abs_ip r (line_of transpose M j) + INR (2 * dim + 3) * tiny * (1 + ulp) ^ (dim + 2))%R.
Proof. exact rotated. Qed.

Lemma rotation_ints : forall ws (transpose : bool) dim rows M zr zm, length M = dim -> (forall r, In r rows \/ In r M -> length r = dim /\ forall x, In x r -> finite x /\ f32_valid x = true) -> (forall x, way_ok dim false (ws x)) ->
  (forall i r, nth_error rows i = Some r -> holds_ints r (zr i) /\ forall x, In x (zr i) -> (Z.abs x <= 2 ^ 24)%Z) -> (forall j, j < dim -> holds_ints (line_of transpose M j) (zm j)) ->
  (forall i j, i < length rows -> j < dim -> (int_abs_dot (zr i) (zm j) <= 2 ^ 24)%Z) ->
  exists out, rotate_data ws (concat rows) (length rows) dim (concat M) transpose = Ok out /\ length out = length rows * dim /\
    forall i j, i < length rows -> j < dim -> exists v, nth_error out (i * dim + j) = Some v /\ finite v /\ real v = IZR (int_dot (zr i) (zm j)).
Proof. exact rotated_ints. Qed.

Lemma memory_budget : forall (atof : string -> spec_float) s, (let x := atof s in valid_binary 53 1024 x = true -> finite x -> 0 <= real x <= powerRZ 2 800 ->
  let b := get_memory_budget atof s in finite b /\ (real x <= 5 / 4 -> real b = real x * powerRZ 2 30) /\
    (5 / 4 < real x -> Rabs (real b - (real x - / 4) * powerRZ 2 30) <= powerRZ 2 (-53) * ((real x - / 4) * powerRZ 2 30)))%R.
Proof. exact budget. Qed.

Lemma budget_not_monotone : (exists (atof : string -> spec_float) s1 s2, valid_binary 53 1024 (atof s1) = true /\ valid_binary 53 1024 (atof s2) = true /\ real (atof s1) = 5 / 4 /\ real (atof s2) = 11 / 8 /\
  real (get_memory_budget atof s1) = 5 / 4 * powerRZ 2 30 /\ real (get_memory_budget atof s2) = 9 / 8 * powerRZ 2 30)%R.
Proof. exact budget_shrinks. Qed.

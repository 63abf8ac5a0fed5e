(** * Theorems: the random data tools (C110).

    [regen], [x0]: the words of the generator, 624 at a time; [sched] any interleaving of the threads;
    [logf] the logarithm of the library; [way] the choice of fused operations; [T] threads. *)
From Coq Require Import NArith ZArith Reals Ascii String List Arith Bool Lia Floats.SpecFloat.
From Verif Require Import Base Bytes Float32 DivFacts FloatBits DistSpec RealSpec StreamModel BinSpec TsvModel IndexFileModel CmdModel CmdSpec RandModel RandSpec RandDistModel RandDistSpec RandDistProofs3 RandDistProofs4 RandDistProofs5 RandDistCases.
Import ListNotations.
Local Open Scope nat_scope.

(** C110.  One thread doing the work: whatever the schedule of the others, the file has n rows of dim
    numbers, made of the words of the generator in order, from -1 to 1 - 2^-23, and no other file
    changes. *)
Theorem C110_cube : forall regen x0 logf way words fuel T prog ty ns ds n dim name d, renews mt_size regen x0 -> alone T n -> (n * dim < 2 ^ 32)%N -> number_arg ns n -> number_arg ds dim -> ty <> "gaussian"%string ->
  exists data, length data = N.to_nat n * N.to_nat dim /\
    (forall k v, nth_error data k = Some v -> finite v /\ (-1 <= real v <= 1 - powerRZ 2 (-23))%R /\ (Rabs (real v - (2 * fraction (kth_word 624 regen x0 k) - 1)) <= powerRZ 2 (-22))%R) /\
    (forall sched, let r := build_random_dist_main regen x0 sched logf way words fuel T [prog; ty; ns; ds; name] d in r = Fuel \/ r = Ok (0%Z, fs_set d name (Some (float_file n dim data)))) /\
    (exists sched, build_random_dist_main regen x0 sched logf way words fuel T [prog; ty; ns; ds; name] d = Ok (0%Z, fs_set d name (Some (float_file n dim data)))).
Proof. exact cube_command. Qed.
Print Assumptions C110_cube.

(** C110.  Gaussian numbers: those of the pairs of words in order, all finite.  [M] pairs are enough for
    the table. *)
Theorem C110_gaussian : forall regen x0 sched logf way words fuel M T prog ns ds n dim name d, log_ok logf -> (forall k, (words k < 2 ^ 32)%N) -> alone T n -> (n * dim < 2 ^ 32)%N -> number_arg ns n -> number_arg ds dim -> M <= fuel ->
  let numbers := flat_map (pair_numbers logf way words) (seq 0 M) in N.to_nat n * N.to_nat dim <= length numbers ->
  build_random_dist_main regen x0 sched logf way words fuel T [prog; "gaussian"%string; ns; ds; name] d = Ok (0%Z, fs_set d name (Some (float_file n dim (firstn (N.to_nat n * N.to_nat dim) numbers)))) /\
  (forall v, In v numbers -> finite v /\ (Rabs (real v) <= 64)%R).
Proof. exact gaussian_command. Qed.
Print Assumptions C110_gaussian.

(** C110.  What a pair of words gives: a point (x, y) of the square; s is x^2 + y^2; outside the disc or
    in its centre nothing, otherwise y and x times sqrt (-2 ln s / s). *)
Theorem C110_polar : forall logf way words i, log_near logf -> (forall k, (words k < 2 ^ 32)%N) -> exists x y s,
  (Rabs (x - (2 * fraction (words (2 * i)%nat) - 1)) <= powerRZ 2 (-22) /\ Rabs (y - (2 * fraction (words (2 * i + 1)%nat) - 1)) <= powerRZ 2 (-22) /\ near (powerRZ 2 (-22)) s (x ^ 2 + y ^ 2) /\
  ((s = 0 \/ 1 < s) /\ pair_numbers logf way words i = [] \/
   (0 < s <= 1 /\ exists a b, pair_numbers logf way words i = [a; b] /\ near (powerRZ 2 (-20)) (real a) (y * sqrt (-2 * ln s / s)) /\ near (powerRZ 2 (-20)) (real b) (x * sqrt (-2 * ln s / s)))))%R.
Proof. exact pair_meaning. Qed.
Print Assumptions C110_polar.

(** C110.  A file of n rows of dim numbers is printed row by row. *)
Theorem C110_print : forall g prog ty name d dim rows, (forall i, length (g i) = 4) -> (N.of_nat (length rows) < 2 ^ 31)%N -> (N.of_nat dim < 2 ^ 31)%N -> (N.of_nat (length rows) * N.of_nat dim < 2 ^ 60)%N -> (forall r, In r rows -> length r = dim /\ forall x, In x r -> f32_valid x = true) ->
  d name = Some (float_file (N.of_nat (length rows)) (N.of_nat dim) (concat rows)) -> load_random_dist_main g [prog; ty; name] d = Ok (0%Z, printed rows).
Proof. exact load_command. Qed.
Print Assumptions C110_print.

(** C110.  What is written is what is printed. *)
Theorem C110_cube_chain : forall regen x0 logf way words fuel T prog ty ns ds n dim name d g prog2 ty2, renews mt_size regen x0 -> alone T n -> (n * dim < 2 ^ 32)%N -> number_arg ns n -> number_arg ds dim -> ty <> "gaussian"%string -> (forall i, length (g i) = 4) ->
  exists rows, length rows = N.to_nat n /\ (forall r, In r rows -> length r = N.to_nat dim) /\
    (forall i r j v, nth_error rows i = Some r -> nth_error r j = Some v -> (Rabs (real v - (2 * fraction (kth_word 624 regen x0 (i * N.to_nat dim + j)) - 1)) <= powerRZ 2 (-22))%R) /\
    forall sched st d', build_random_dist_main regen x0 sched logf way words fuel T [prog; ty; ns; ds; name] d = Ok (st, d') -> load_random_dist_main g [prog2; ty2; name] d' = Ok (0%Z, printed rows).
Proof. exact cube_chain. Qed.
Print Assumptions C110_cube_chain.

(** C110.  The same for gaussian numbers. *)
Theorem C110_gaussian_chain : forall regen x0 sched logf way words fuel M T prog ns ds n dim name d g prog2 ty2, log_ok logf -> (forall k, (words k < 2 ^ 32)%N) -> alone T n -> (n * dim < 2 ^ 32)%N -> number_arg ns n -> number_arg ds dim -> M <= fuel -> (forall i, length (g i) = 4) ->
  let numbers := flat_map (pair_numbers logf way words) (seq 0 M) in N.to_nat n * N.to_nat dim <= length numbers ->
  exists d' rows, build_random_dist_main regen x0 sched logf way words fuel T [prog; "gaussian"%string; ns; ds; name] d = Ok (0%Z, d') /\
    length rows = N.to_nat n /\ (forall r, In r rows -> length r = N.to_nat dim) /\ concat rows = firstn (N.to_nat n * N.to_nat dim) numbers /\ load_random_dist_main g [prog2; ty2; name] d' = Ok (0%Z, printed rows).
Proof. exact gaussian_chain. Qed.
Print Assumptions C110_gaussian_chain.

Example C110_generator_case : renews 624 c_regen c_seed /\ log_ok c_log /\ log_near round_log /\ (forall k, (c_words k < 2 ^ 32)%N) /\ (forall i, length (c_g i) = 4).
Proof. exact (conj c_renews (conj c_log_ok (conj round_log_near (conj c_words_ok (fun i => eq_refl))))). Qed.
Local Open Scope string_scope.
Example C110_cube_case : c_text (c_build 1 (repeat 0 24) "cube" "2" "3") = Ok ("-0.999994 -0.228168 0.543658 " ++ nl ++ "-0.684516 0.0873097 0.859136 " ++ nl, Some [7%N]) /\
  c_text (c_build 4 (repeat 2 9 ++ repeat 0 24)%list "anything" "02" "3") = Ok ("-0.999994 -0.228168 0.543658 " ++ nl ++ "-0.684516 0.0873097 0.859136 " ++ nl, Some [7%N]) /\
  c_text (c_build 1 (repeat 0 23) "cube" "2" "3") = Fuel.
Proof. exact c_cube. Qed.
Example C110_gaussian_case : c_text (c_build 4 [] "gaussian" "2" "3") = Ok ("-0.537844 0.427167 0.709456 " ++ nl ++ "0.0720985 0.87339 -0.800209 " ++ nl, Some [7%N]) /\
  (6 <= length (flat_map (pair_numbers c_log Plain c_words) (seq 0 20)) < 40)%nat.
Proof. exact c_gaussian. Qed.
Local Close Scope string_scope.

(** C110.  A wrong number of words: usage, status 0, no file touched. *)
Theorem C110_build_count : forall regen x0 sched logf way words fuel T argv d, length argv <> 5 -> build_random_dist_main regen x0 sched logf way words fuel T argv d = Ok (0%Z, d).
Proof. exact build_count. Qed.
Print Assumptions C110_build_count.

(** C110.  The same for the printing tool. *)
Theorem C110_load_count : forall g argv d, length argv <> 3 -> load_random_dist_main g argv d = Ok (0%Z, []).
Proof. exact load_count. Qed.
Print Assumptions C110_load_count.

(** An unknown distribution is not refused: it is the cube. *)
Theorem C110_unknown_word_refuted : forall regen x0 sched logf way words fuel T prog ty ns ds name d, ty <> "gaussian"%string ->
  build_random_dist_main regen x0 sched logf way words fuel T [prog; ty; ns; ds; name] d = build_random_dist_main regen x0 sched logf way words fuel T [prog; "cube"%string; ns; ds; name] d.
Proof. exact any_word. Qed.
Print Assumptions C110_unknown_word_refuted.

(** Two threads and more than 64 rows: the generator is shared without a lock, and for every
    generator there is an interleaving that makes row 64 a copy of row 0. *)
Theorem C110_rows_differ_refuted : forall regen x0 logf way words fuel T prog ty ns ds n dim name d, renews mt_size regen x0 -> shared_loop T n dim -> number_arg ns n -> number_arg ds dim -> ty <> "gaussian"%string ->
  exists sched data, build_random_dist_main regen x0 sched logf way words fuel T [prog; ty; ns; ds; name] d = Ok (0%Z, fs_set d name (Some (float_file n dim data))) /\ length data = N.to_nat n * N.to_nat dim /\
    forall j, j < N.to_nat dim -> nth_error data (64 * N.to_nat dim + j) = nth_error data j.
Proof. exact shared_repeats. Qed.
Print Assumptions C110_rows_differ_refuted.

(** From 10 dimensions on there is one that reads past the words of the generator. *)
Theorem C110_in_bounds_refuted : forall regen x0 logf way words fuel T prog ty ns ds n dim name d, renews mt_size regen x0 -> shared_loop T n dim -> (10 <= dim)%N -> number_arg ns n -> number_arg ds dim -> ty <> "gaussian"%string ->
  exists sched, build_random_dist_main regen x0 sched logf way words fuel T [prog; ty; ns; ds; name] d = UB.
Proof. exact shared_outside. Qed.
Print Assumptions C110_in_bounds_refuted.

(** Gaussian numbers with two threads and more than 64 rows: undefined. *)
Theorem C110_gaussian_threads_refuted : forall logf way words fuel T n dim, shared_loop T n dim -> random_gaussian logf way words fuel T n dim = UB.
Proof. exact gaussian_race. Qed.
Print Assumptions C110_gaussian_threads_refuted.

(** n * dim of 2^32 or more never gives a file. *)
Theorem C110_product_refuted : forall regen x0 sched logf way words fuel T prog ty ns ds n dim name d, (2 ^ 32 <= n * dim)%N -> number_arg ns n -> number_arg ds dim ->
  let r := build_random_dist_main regen x0 sched logf way words fuel T [prog; ty; ns; ds; name] d in r = UB \/ r = Fuel.
Proof. exact product_overflow. Qed.
Print Assumptions C110_product_refuted.

Local Open Scope string_scope.
Example C110_repeat_case : match c_build 2 ([0; 1; 0; 1; 0; 1; 0; 1] ++ repeat 0 252)%list "cube" "65" "1" with
  | Ok (_, d) => exists b, d "out.bin" = Some b /\ firstn 4 (skipn (8 + 4 * 64) b) = firstn 4 (skipn 8 b) /\ firstn 4 (skipn (8 + 4 * 63) b) <> firstn 4 (skipn 8 b)
  | _ => False end.
Proof. exact c_repeat. Qed.
Example C110_shared_case : shared_loop 2 65 10 /\ alone 4 64 /\ number_arg "065" 65.
Proof. exact c_shared. Qed.
Example C110_rest_case : c_build 1 (repeat 0%nat 24) "gaussian" "65536" "65536" = UB /\ c_build 2 [] "gaussian" "65" "1" = UB /\
  build_random_dist_main c_regen c_seed [] c_log Plain c_words 20 1 ["build_random_dist"; "cube"; "2"; "3"] c_fs = Ok (0%Z, c_fs).
Proof. exact c_rest. Qed.

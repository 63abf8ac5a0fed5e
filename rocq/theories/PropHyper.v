(** * Theorems: the random hyperplanes (C113).

    [generate_hps] draws the hyperplanes of a table from one number of random_device; [fuel] bounds the
    pairs rejected in one call of the distribution.  [engine], [start] and [polar] are in HyperSpec.v. *)
From Coq Require Import NArith ZArith Reals List Arith Bool.
From Verif Require Import Base Bytes Float32 DivFacts FloatBits DistSpec RealSpec NormModel NormSpec RandModel RandSpec RandDistModel RandDistSpec RandDistProofs5 RandDistCases LshModel LshSpec LshProofs CmdModel RealSearchSpec HyperModel HyperSpec HyperProofs2 HyperProofs3 HyperCases.
Import ListNotations.

(** C113.  The engine: powers of 16807 times the seed, from 1 to 2^31 - 2; it repeats after 2^31 - 2 numbers
    and not before, and every number comes again and again. *)
Theorem C113_engine : forall s, (forall k, lcg_out s k = engine s k /\ (1 <= engine s k < modulus)%N) /\
  (forall i k, engine s i = engine s k <-> (Z.of_nat i mod (2 ^ 31 - 2) = Z.of_nat k mod (2 ^ 31 - 2))%Z) /\
  (forall x p, (1 <= x < modulus)%N -> exists i, p <= i /\ engine s i = x).
Proof. exact engine_sequence. Qed.
Print Assumptions C113_engine.

(** C113.  Two seeds give the same number at a place only if they are the same modulo 2^31 - 1 (0 counting as 1). *)
Theorem C113_seeds : forall s t i, engine s i = engine t i <-> start s = start t.
Proof. exact engine_seeds. Qed.
Print Assumptions C113_seeds.

Example C113_engine_case : lcg_out 1 (N.to_nat 9999) = 1043618065%N /\ start 12345 = 12345%N /\ start 2147483647 = 1%N /\ start 4294967295 = 1%N /\ start 0 = 1%N /\ start 7 <> start 8.
Proof. split; [exact h_standard|]. repeat split; discriminate. Qed.

(** C113.  For every seed the drawing ends; the hyperplanes are, row after row, the numbers of the polar method. *)
Theorem C113_planes : forall logf way s table_size dim, exists M planes,
  (forall fuel, M <= fuel -> generate_hps logf way fuel s table_size dim = Ok planes) /\
  length planes = table_size /\ (forall hp, In hp planes -> length hp = dim) /\
  table_size * dim <= length (polar logf way s M) /\ concat planes = firstn (table_size * dim) (polar logf way s M) /\
  (log_ok logf -> forall hp v, In hp planes -> In v hp -> finite v /\ f32_valid v = true /\ (Rabs (real v) <= 64)%R).
Proof. exact hyperplanes. Qed.
Print Assumptions C113_planes.

(** C113.  These numbers: with x, y the next two numbers of the engine scaled to [-1, 1] and q = x^2 + y^2, none
    if q is 0 or above 1, otherwise y and x times sqrt (-2 ln q / q). *)
Theorem C113_polar : forall logf way s i, log_near logf -> exists x y q,
  (Rabs (x - (IZR (Z.of_N (engine s (2 * i)) - 1) / powerRZ 2 30 - 1)) <= powerRZ 2 (-22) /\ Rabs (y - (IZR (Z.of_N (engine s (2 * i + 1)) - 1) / powerRZ 2 30 - 1)) <= powerRZ 2 (-22) /\ near (powerRZ 2 (-22)) q (x ^ 2 + y ^ 2) /\
  ((q = 0 \/ 1 < q) /\ pair_numbers logf way (engine_words s) i = [] \/
   (0 < q <= 1 /\ exists a b, pair_numbers logf way (engine_words s) i = [a; b] /\ near (powerRZ 2 (-20)) (real a) (y * sqrt (-2 * ln q / q)) /\ near (powerRZ 2 (-20)) (real b) (x * sqrt (-2 * ln q / q)))))%R.
Proof. exact engine_polar. Qed.
Print Assumptions C113_polar.

Example C113_planes_case : log_ok c_log /\ log_near round_log /\ generate_all c_log Plain 9 [12345; 7]%N 2 3 = Ok h_planes /\ generate_all c_log Plain 9 [2147495992; 2147483654]%N 2 3 = Ok h_planes /\
  generate_all c_log Plain 1 [12345]%N 2 3 = Fuel /\ map (engine 12345) (seq 0 4) = [207482415; 1790989824; 2035175616; 77048696]%N /\ length (polar c_log Plain 12345 4) = 2 /\ length (polar c_log Plain 7 4) = 6.
Proof. split; [exact c_log_ok|]. split; [exact round_log_near | exact h_drawn]. Qed.

(** C113.  A build draws one table for each seed, ends, and is [lsh_build] with these hyperplanes; they meet what
    C34 and C103 ask of hyperplanes. *)
Theorem C113_build : forall logf way seeds dim dotf data ts ix, (ts <= 64)%N -> log_ok logf -> exists M tables planes draw, planes = map (map (map bits_of_f32)) tables /\
  (forall fuel, M <= fuel -> build_seeded logf way fuel seeds dim dotf data ts ix = lsh_build dotf data ts planes ix) /\
  Forall2 (fun s t => exists k, N.to_nat ts * dim <= length (polar logf way s k) /\ concat t = firstn (N.to_nat ts * dim) (polar logf way s k)) seeds tables /\
  length planes = length seeds /\ planes = planes_of draw (length seeds) (N.to_nat ts) dim /\
  (forall hps, In hps planes -> N.of_nat (length hps) = ts /\ forall hp, In hp hps -> length hp = dim /\ forall x, In x hp -> (x < 2 ^ 32)%N) /\ ((Z.of_nat dim <= 2 ^ 20)%Z -> planes_ok planes).
Proof. exact seeded_build. Qed.
Print Assumptions C113_build.

(** C113.  More than 64 hyperplanes in a table end the program. *)
Theorem C113_too_large : forall logf way fuel s seeds dim dotf data ts ix, (64 < ts)%N -> build_seeded logf way fuel (s :: seeds) dim dotf data ts ix = Exit.
Proof. exact too_large. Qed.
Print Assumptions C113_too_large.

(** C113.  Seeds, build, searches, save, load: the tables come back. *)
Theorem C113_round_trip : forall logf way seeds dim dotf data ts ix, (ts <= 64)%N -> log_ok logf -> lsh_new ix -> (N.of_nat (length seeds) < 2 ^ 32)%N -> (N.of_nat (l_n ix) < 2 ^ 32)%N -> (forall t, In t (l_tags ix) -> (N.of_nat t < 2 ^ 32)%N) ->
  exists M, forall fuel ix1 qs outs ix2 fresh, M <= fuel -> build_seeded logf way fuel seeds dim dotf data ts ix = Ok ix1 -> lsh_answers dotf ix1 qs = Ok (outs, ix2) ->
  (forall t, In t (l_tables ix2) -> (N.of_nat (length (t_map t)) < 2 ^ 32)%N) -> exists ix3, lsh_load dim (lsh_bytes ix2) fresh = Ok ix3 /\ l_tables ix3 = l_tables ix1.
Proof. exact seeded_life. Qed.
Print Assumptions C113_round_trip.

Example C113_build_case : lsh_new h_index /\ match build_seeded c_log Plain 9 [12345; 7]%N 3 seq_dot h_data 2 h_index with Ok ix => map t_map (l_tables ix) = [[(0%N, [0; 2]); (3%N, [1])]; [(0%N, [0; 2]); (2%N, [1])]] | _ => False end.
Proof. split; [reflexivity | exact h_built]. Qed.

(** Different numbers of random_device may give the same table: s and s + 2^31 - 1, and 0 and 1. *)
Theorem C113_again_refuted : forall logf way fuel s table_size dim, generate_hps logf way fuel (s + modulus) table_size dim = generate_hps logf way fuel s table_size dim.
Proof. exact seed_again. Qed.
Print Assumptions C113_again_refuted.

(** The seeds 0 and 1 give the same table. *)
Theorem C113_zero_refuted : forall logf way fuel table_size dim, generate_hps logf way fuel 0 table_size dim = generate_hps logf way fuel 1 table_size dim.
Proof. exact seed_zero. Qed.
Print Assumptions C113_zero_refuted.

(** * Random numbers: from the words of a generator to samples and darts.

    std::mt19937 gives words below 2^32; which ones is left open (the seed comes from
    std::random_device).  What libstdc++ makes of a word (bits/random.tcc, generate_canonical and
    uniform_real_distribution::operator()) is modelled operation by operation; the operations are
    exact except where a word does not fit the significand, so the freedom of -Ofast does not
    matter. *)
From Coq Require Import NArith ZArith String List Arith Bool Floats.SpecFloat.
From Verif Require Import Base Bytes Float32 StreamModel CacheModel PqModel SliceModel LloydModel NormModel HnswModel IndexFileModel SystemModel CmdModel.
Import ListNotations.
Local Open Scope string_scope.

(** generate_canonical<float, 24, mt19937>: one word over 2^32; a quotient that is rounded to 1 is
    replaced by the float below 1. *)
Definition f32_below_one : f32 := S754_finite false 16777215 (-24).
Definition canonical32 (x : N) : f32 :=
  let r := fdiv (f32_of_Z (Z.of_N x)) (f32_of_Z 4294967296) in
  if fle f32_one r then f32_below_one else r.

(** generate_canonical<double, 53, mt19937>: two words, the second one counts 2^32. *)
Definition f64_of_Z (z : Z) : spec_float := binary_normalize 53 1024 z 0 false.
Definition f64_one : spec_float := f64_of_Z 1.
Definition f64_below_one : spec_float := S754_finite false 9007199254740991 (-53).
Definition canonical64 (x y : N) : spec_float :=
  let sum := f64_add (f64_of_Z (Z.of_N x)) (f64_mul (f64_of_Z (Z.of_N y)) (f64_of_Z 4294967296)) in
  let r := f64_div sum (f64_of_Z 18446744073709551616) in
  if SFleb f64_one r then f64_below_one else r.

(** uniform_real_distribution<float>(a, b) *)
Definition uniform32 (a b : f32) (x : N) : f32 := fadd (fmul (canonical32 x) (fsub b a)) a.

(** ** Samples *)

(** src/partition_and_pq.cpp:54-55: the point belongs to the sample.  The rate is a float that was
    converted to double (tests/utils/gen_random_slice.cpp:27): comparing as doubles is comparing
    the floats. *)
Definition picked_file (rate : f32) (word : N) : bool := flt (uniform32 f32_zero f32_one word) rate.

(** src/partition_and_pq.cpp:100, 109-110 and 134, 145-146: p_val is a double; a rate that is not
    below 1 counts as 1. *)
Definition picked_train (p : spec_float) (word : N) : bool :=
  SFltb (f64_of_f32 (uniform32 f32_zero f32_one word)) (if SFltb p f64_one then p else f64_one).

(** src/hnsw.cpp:129-135: the points of the inner level, from the results of rand(), which are not
    negative.  The division is in double, its result is stored as float. *)
Definition picked_level (rate : f32) (r : N) : bool :=
  flt (f32_of_f64 (f64_div (f64_of_f32 (f32_of_Z (Z.of_N (r mod 1000000)))) (f64_of_Z 1000000))) rate.
Definition level_points (rate : f32) (draws : nat -> N) (n : nat) : list nat := filter (fun i => picked_level rate (draws i)) (seq 0 n).

(** tests/utils/gen_random_slice.cpp:23-51 with src/partition_and_pq.cpp:18-71: exit status and
    files.  The base file is read in full before a file of the sample is written; in the code the
    files are opened at once, which makes a difference only if one is the base file. *)
Definition gen_random_slice_main (atof : string -> spec_float) (g : nat -> N) (words : nat -> N) (argv : list string) (d : fs) : res (Z * fs) :=
  if negb (length argv =? 5)%nat then Exit
  else
    do ty <- arg argv 1;
    match kind_of ty with
    | None => Ok (0%Z, d)
    | Some kt =>
        do base <- arg argv 2;
        do prefix <- arg argv 3;
        do ra <- arg argv 4;
        do r <- slice_file g (kwidth kt) (fun i => picked_file (f32_of_f64 (atof ra)) (words i)) (d base);
        Ok (0%Z, fs_set (fs_set d (prefix ++ "_data.bin") (Some (fst r))) (prefix ++ "_ids.bin") (Some (snd r)))
    end.

(** ** Darts *)

(** src/math_utils.cpp:413: the r-th dart of k-means++ takes two words, counted from the first word
    after the ones that gave the first centre; uniform_real_distribution<double>(0, 1) multiplies
    by 1 and adds 0. *)
Definition dart (words : nat -> N) (r : nat) : spec_float := canonical64 (words (2 * r)%nat) (words (2 * r + 1)%nat).

(** src/math_utils.cpp:12-18 calc_distance, summed in the order of the source. *)
Definition calc_distance (a b : list f32) : f32 :=
  fold_left (fun s p => fadd s (fmul (fsub (fst p) (snd p)) (fsub (fst p) (snd p)))) (combine a b) f32_zero.

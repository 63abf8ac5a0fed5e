(** * What random data is. *)
From Coq Require Import NArith ZArith Reals List Arith Floats.SpecFloat.
From Verif Require Import Base Bytes Float32 DivFacts FloatBits DistSpec RealSpec TsvModel RandDistModel.
Import ListNotations.

(** The k-th word of a generator that renews its [size] words when they are used up, from the words
    [x0] that it has after seeding and does not use. *)
Definition kth_word (size : nat) (regen : list N -> list N) (x0 : list N) (k : nat) : N := nth (k mod size) (Nat.iter (S (k / size)) regen x0) 0%N.

(** Every renewal gives as many words, below 2^32. *)
Definition renews (size : nat) (regen : list N -> list N) (x0 : list N) : Prop :=
  length x0 = size /\ forall x : list N, length x = size -> length (regen x) = size /\ Forall (fun w => (w < 2 ^ 32)%N) (regen x).

(** A vector file of floats, given as one list, row after row. *)
Definition float_file (n dim : N) (data : list f32) : list N := u32 n ++ u32 dim ++ enc_all 4 (map bits_of_f32 data).

(** A table printed: numbers with a space after each, lines with a line feed. *)
Definition printed (rows : list (list f32)) : list N := concat (map (fun r => concat (map (fun x => show_float x ++ [32%N]) r) ++ [10%N]) rows).

(** Two rows start a block of 64 rows each, of at least 65 rows shared by at least two threads. *)
Definition shared_loop (T : nat) (n dim : N) : Prop := 2 <= T /\ (65 <= n)%N /\ (1 <= dim)%N /\ (n * dim < 2 ^ 32)%N.
(** One thread does all the work. *)
Definition alone (T : nat) (n : N) : Prop := T = 1 \/ (1 <= T /\ (n <= 64)%N).

(** A logarithm of floats between 2^-48 and 1 that is a number from -34 to 0. *)
Definition log_ok (logf : f32 -> f32) : Prop :=
  forall r, finite r -> f32_valid r = true -> (powerRZ 2 (-48) <= real r <= 1)%R -> finite (logf r) /\ f32_valid (logf r) = true /\ (-34 <= real (logf r) <= 0)%R.

(** The numbers that the i-th pair of words gives by the polar method: none, or two. *)
Definition pair_numbers (logf : f32 -> f32) (way : sum_way) (words : nat -> N) (i : nat) : list f32 :=
  let x := polar_coord (words (2 * i)) in
  let y := polar_coord (words (2 * i + 1)) in
  let r2 := polar_r2 way x y in
  if rejected r2 then [] else [normal_param (fmul y (polar_mult logf r2)); normal_param (fmul x (polar_mult logf r2))].

(** [a] is [b] up to the relative error [e]. *)
Definition near (e a b : R) : Prop := (Rabs (a - b) <= e * Rabs b)%R.
(** A logarithm of floats between 2^-48 and 1 with a relative error of 2^-22 at most. *)
Definition log_near (logf : f32 -> f32) : Prop :=
  forall r, finite r -> f32_valid r = true -> (powerRZ 2 (-48) <= real r <= 1)%R -> finite (logf r) /\ f32_valid (logf r) = true /\ near (powerRZ 2 (-22)) (real (logf r)) (ln (real r)).

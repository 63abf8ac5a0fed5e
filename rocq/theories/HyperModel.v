(** * Random hyperplanes: HashTable::generate_hps of src/lsh.cpp and the engine behind it.

    std::default_random_engine is minstd_rand0 in libstdc++ (bits/random.h): x' = 16807 x mod 2^31 - 1. *)
From Coq Require Import NArith ZArith List Arith Bool Floats.SpecFloat.
From Verif Require Import Base Float32 FloatBits RandModel RandDistModel LshModel.
Import ListNotations.

(** linear_congruential_engine::seed (bits/random.tcc): a multiple of the modulus becomes 1. *)
Definition lcg_seed (s : N) : N := let r := (s mod 2147483647)%N in if (r =? 0)%N then 1%N else r.
Definition lcg_next (x : N) : N := ((16807 * x) mod 2147483647)%N.
(** The k-th number of the engine. *)
Definition lcg_out (s : N) (k : nat) : N := Nat.iter (S k) lcg_next (lcg_seed s).

(** generate_canonical<float, 24, minstd_rand0>: the numbers are from 1 to 2^31 - 2; the divisor, their
    count, is rounded to a float. *)
Definition canonical_lcg (x : N) : f32 :=
  let r := fdiv (f32_of_Z (Z.of_N x - 1)) (f32_of_Z 2147483646) in
  if fle f32_one r then f32_below_one else r.
Definition hp_coord (x : N) : f32 := fsub (fmul (f32_of_Z 2) (canonical_lcg x)) f32_one.

(** normal_distribution<float>::operator() on this engine, as in [RandDistModel.normal_call]: the number,
    the numbers of the engine used, the number kept for the next call. *)
Fixpoint gauss (logf : f32 -> f32) (way : sum_way) (s : N) (fuel pos : nat) (saved : option f32) : res (f32 * nat * option f32) :=
  match saved with
  | Some v => Ok (normal_param v, pos, None)
  | None =>
      match fuel with
      | O => Fuel
      | S fuel' =>
          let x := hp_coord (lcg_out s pos) in
          let y := hp_coord (lcg_out s (S pos)) in
          let r2 := polar_r2 way x y in
          if rejected r2 then gauss logf way s fuel' (S (S pos)) None
          else Ok (normal_param (fmul y (polar_mult logf r2)), S (S pos), Some (fmul x (polar_mult logf r2)))
      end
  end.

(** src/lsh.cpp:32-37: one hyperplane; engine and distribution go on. *)
Fixpoint make_plane (logf : f32 -> f32) (way : sum_way) (s : N) (fuel dim pos : nat) (saved : option f32) : res (list f32 * nat * option f32) :=
  match dim with
  | O => Ok ([], pos, saved)
  | S dim' =>
      do r <- gauss logf way s fuel pos saved;
      let '(v, pos1, saved1) := r in
      do r2 <- make_plane logf way s fuel dim' pos1 saved1;
      let '(rest, pos2, saved2) := r2 in
      Ok (v :: rest, pos2, saved2)
  end.
(** src/lsh.cpp:27-40 generate_hps, from the number of random_device on. *)
Fixpoint make_planes (logf : f32 -> f32) (way : sum_way) (s : N) (fuel cnt dim pos : nat) (saved : option f32) : res (list (list f32)) :=
  match cnt with
  | O => Ok []
  | S cnt' =>
      do r <- make_plane logf way s fuel dim pos saved;
      let '(hp, pos1, saved1) := r in
      do rest <- make_planes logf way s fuel cnt' dim pos1 saved1;
      Ok (hp :: rest)
  end.
Definition generate_hps (logf : f32 -> f32) (way : sum_way) (fuel : nat) (s : N) (table_size dim : nat) : res (list (list f32)) :=
  make_planes logf way s fuel table_size dim 0 None.

(** src/lsh.cpp:134-139: one number of random_device for each table. *)
Fixpoint generate_all (logf : f32 -> f32) (way : sum_way) (fuel : nat) (seeds : list N) (table_size dim : nat) : res (list (list (list N))) :=
  match seeds with
  | [] => Ok []
  | s :: rest =>
      do hps <- generate_hps logf way fuel s table_size dim;
      do more <- generate_all logf way fuel rest table_size dim;
      Ok (map (map bits_of_f32) hps :: more)
  end.
(** src/lsh.cpp:128-148 build, with [lsh_build] for what follows. *)
Definition build_seeded (logf : f32 -> f32) (way : sum_way) (fuel : nat) (seeds : list N) (dim : nat)
    (dotf : list N -> list f32 -> f32) (data : nat -> list f32) (table_size : N) (ix : lsh_index) : res lsh_index :=
  if (64 <? table_size)%N && negb (length seeds =? 0) then Exit
  else
    do planes <- generate_all logf way fuel seeds (N.to_nat table_size) dim;
    lsh_build dotf data table_size planes ix.

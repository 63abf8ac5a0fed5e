(** * What the random hyperplanes are stated with. *)
From Coq Require Import NArith List.
From Verif Require Import Float32 RandDistModel RandDistSpec.
Import ListNotations.

(** The numbers of the engine: the i-th is 16807^(i+1) times the seed modulo 2^31 - 1, where a seed that is a multiple of
    the modulus counts as 1. *)
Definition modulus : N := (2 ^ 31 - 1)%N.
Definition start (s : N) : N := if (s mod modulus =? 0)%N then 1%N else (s mod modulus)%N.
Definition engine (s : N) (i : nat) : N := ((16807 ^ N.of_nat (S i) * start s) mod modulus)%N.

(** A number x of the engine stands for the fraction (x - 1) / 2^31: the word 2 (x - 1) over 2^32. *)
Definition engine_words (s : N) (i : nat) : N := (2 * (engine s i - 1))%N.

(** The numbers of the polar method on the first M pairs. *)
Definition polar (logf : f32 -> f32) (way : sum_way) (s : N) (M : nat) : list f32 := flat_map (pair_numbers logf way (engine_words s)) (seq 0 M).

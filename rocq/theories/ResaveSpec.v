(** * Specification: centres in memory and the rows a load reads. *)
From Coq Require Import NArith List Arith.
From Verif Require Import BinSpec.
Import ListNotations.

(** [c] is the row-major array of the 32-bit numbers in [rows]: how the object holds the rows it read. *)
Definition holds_rows (adim : nat) (rows : list (list (option N))) (c : list N) : Prop :=
  length c = length rows * adim /\ forall i row j, nth_error rows i = Some row -> j < adim -> nth_error c (i * adim + j) = mem_elem 4 row j.

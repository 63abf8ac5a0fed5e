(** * Specification of ground truth files. *)
From Coq Require Import NArith List.
From Verif Require Import Bytes Float32 BinSpec.
Import ListNotations.
Local Open Scope N_scope.

(** A ground truth file: ids, and distances if there are any. *)
Definition truth_file (n d : N) (ids : list N) (dists : option (list N)) : list N :=
  u32 n ++ u32 d ++ enc_all 4 ids ++ match dists with Some l => enc_all 4 l | None => [] end.

Definition all_u32 (l : list N) : Prop := forall x, In x l -> u32_range x.

(** The ids at distance at most [range]. *)
Definition in_range (range : f32) (ids dists : list N) : list N :=
  map fst (filter (fun p => fle (f32_of_bits (snd p)) range) (combine ids dists)).

(** Row [i] of a matrix with [dim] columns. *)
Definition matrix_row (dim i : nat) (m : list N) : list N := firstn dim (skipn (i * dim) m).

(** A range ground truth file. *)
Definition range_file (lists : list (list N)) : list N :=
  u32 (N.of_nat (length lists)) ++ u32 (N.of_nat (length (concat lists))) ++
  enc_all 4 (map (fun l => N.of_nat (length l)) lists) ++ enc_all 4 (concat lists).

(** A stored ground truth can be read: less than 2^60 entries; a file with distances
    is not empty. *)
Definition truth_ok (n d : N) (ids : list N) (dists : option (list N)) : Prop :=
  u32_range n /\ u32_range d /\ n * d < 1152921504606846976 /\ N.of_nat (length ids) = n * d /\ all_u32 ids /\
  match dists with Some l => N.of_nat (length l) = n * d /\ all_u32 l /\ n * d <> 0 | None => True end.

(** * Specification of the product quantisation files. *)
From Coq Require Import ZArith NArith String List Arith.
From Verif Require Import Base Bytes Float32 FloatBits DivFacts BinSpec IndexFileModel PqSpec PqFileModel.
Import ListNotations.

(** A matrix of floats in a file. *)
Definition float_file (n dim : nat) (rows : list (list f32)) : list N := bin_file 4 (N.of_nat n) (N.of_nat dim) (map bits_of_f32 (concat rows)).
(** A column of numbers in a file. *)
Definition number_file (l : list nat) : list N := bin_file 4 (N.of_nat (length l)) 1 (map N.of_nat l).

(** The four files of a set of pivots. *)
Definition pivot_files (path : string) (nc dim : nat) (centroid : list f32) (offs : list nat) (pivots : list (list f32)) (d : fs) : Prop :=
  d path = Some (float_file nc dim pivots) /\
  d (path ++ "_centroid.bin")%string = Some (float_file dim 1 [centroid]) /\
  d (path ++ "_rearrangement_perm.bin")%string = Some (number_file (seq 0 dim)) /\
  d (path ++ "_chunk_offsets.bin")%string = Some (number_file offs).

Definition pivot_names (path : string) : list string :=
  [path; (path ++ "_centroid.bin")%string; (path ++ "_rearrangement_perm.bin")%string; (path ++ "_chunk_offsets.bin")%string].

(** Only the named files may differ. *)
Definition same_but (names : list string) (d d' : fs) : Prop := forall name, ~ In name names -> d' name = d name.

(** The mean of the training vectors, coordinate by coordinate, in float arithmetic. *)
Definition mean_vector (dim : nat) (train : list (list f32)) : list f32 :=
  map (fun k => fdiv (fold_left fadd (map (fun x => nth k x f32_zero) train) f32_zero) (f32_of_Z (Z.of_nat (length train)))) (seq 0 dim).

Definition centroid_used (zero_mean : bool) (dim : nat) (train : list (list f32)) : list f32 :=
  if zero_mean then mean_vector dim train else repeat f32_zero dim.
Definition training_set (zero_mean : bool) (dim : nat) (train : list (list f32)) : list (list f32) :=
  if zero_mean then map (centred (mean_vector dim train)) train else train.

(** The coordinates of every chunk of the pivots are what k-means gives for those
    coordinates of the training vectors. *)
Definition trained (env : nat -> kmenv) (dim nc chunks reps : nat) (offs : list nat) (rows pivots : list (list f32)) : Prop :=
  forall i a, i < chunks -> nth_error offs i = Some a ->
    let size := chunk_size dim chunks i in
    kmeans (env i) size nc reps (map (coords a size) rows) = Ok (map (coords a size) pivots).

(** Floats as the machine has them. *)
Definition floats_ok (rows : list (list f32)) : Prop := forall x v, In x rows -> In v x -> f32_valid v = true.

(** Uninitialised 4-byte variables. *)
Definition four_bytes (gl : nat -> list N) : Prop := forall i, length (gl i) = 4 /\ is_bytes (gl i).

(** Vectors of a file as floats. *)
Definition float_rows (w : nat) (conv : N -> f32) (dim : nat) (base : list (list N)) : list (list f32) := map (fun r => map conv (dec_all w dim r)) base.

(** The sampled vectors: those of the data file whose index is picked, in order. *)
Definition picked (w : nat) (conv : N -> f32) (dim : nat) (base : list (list N)) (pick : nat -> bool) : list (list f32) :=
  map (fun p => nth p (float_rows w conv dim base) []) (filter pick (seq 0 (length base))).

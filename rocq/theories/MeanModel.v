(** * Centroids in single precision: src/index.cpp:298-338 calculate_medoid_of_data,
    src/relative_ng.cpp:93-133 calculate_entry_point (the same code) and
    src/partition_and_pq.cpp:200-216.

    The additions of a coordinate may be regrouped ([t]), and a division may become a
    multiplication by the reciprocal (-Ofast). *)
From Coq Require Import NArith ZArith List Arith Floats.SpecFloat.
From Verif Require Import Base Float32 DistModel FusedModel PqModel NormModel EntryModel.
Import ListNotations.

Inductive div_form : Set := Divides | Reciprocates.
Definition fdiv_by (c : div_form) (s n : f32) : f32 :=
  match c with Divides => fdiv s n | Reciprocates => fmul s (fdiv f32_one n) end.

(** src/index.cpp:304-309, src/partition_and_pq.cpp:210-215: coordinate [j] of the
    centroid.  _num_points and num_train are converted to float. *)
Definition centre_coord (c : div_form) (t : red) (data : list (list f32)) (j : nat) : res f32 :=
  do s <- red_eval f32_zero (fun x y => Ok (fadd x y)) (fun i => do row <- rd data i; rd row j) t;
  Ok (fdiv_by c s (f32_of_Z (Z.of_nat (length data)))).
Definition centre (c : div_form) (ts : nat -> red) (dim : nat) (data : list (list f32)) : res (list f32) :=
  collect (fun j => centre_coord c (ts j) data j) (seq 0 dim).

(** src/index.cpp:298-338: the centroid, the distances to it ([fs i]: the compiler's order
    and contractions for point i), the first smallest.  The elements are of type T, [dim] is
    _aligned_dim. *)
Definition medoid_of_data (c : div_form) (ts : nat -> red) (fs : nat -> fred) (k : ktype) (dim : nat) (rows : list (list N)) : res nat :=
  let data := map (map (kval k)) rows in
  do ctr <- centre c ts dim data;
  do ds <- collect (fun i => do row <- rd data i; l2_fused (fs i) ctr row) (seq 0 (length data));
  calculate_medoid (length data) ds.

(** src/partition_and_pq.cpp:200-216: the centroid product quantisation subtracts. *)
Definition pq_centroid (make_zero_mean : bool) (c : div_form) (ts : nat -> red) (dim : nat) (train : list (list f32)) : res (list f32) :=
  if make_zero_mean then centre c ts dim train else Ok (repeat f32_zero dim).

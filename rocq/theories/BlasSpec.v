(** * What BLAS promises, and what a list of nearest points within given errors is. *)
From Coq Require Import ZArith Reals List Arith Bool Sorting.Sorted Sorting.Permutation Floats.SpecFloat.
From Verif Require Import Float32 DistSpec FusedModel RealSpec BlasModel.
Import ListNotations.

(** An entry of a product with inner dimension k adds every summand once, in any order; [c]
    tells whether an old entry is added as well. *)
Definition way_ok (k : nat) (c : bool) (w : way) : Prop :=
  match w with
  | Inside t => Permutation (fred_items t) (seq 0 (if c then k + 1 else k))
  | Outside t _ => Permutation (fred_items t) (seq 0 k)
  end.

(** The ways of a run of the ground truth. *)
Definition ways_ok (dim : nat) (W : gt_ways) : Prop :=
  (forall a i, Permutation (fred_items (w_points W a i)) (seq 0 dim)) /\ (forall a i, Permutation (fred_items (w_queries W a i)) (seq 0 dim)) /\
  forall a b x, way_ok dim false (w_dist W a b 0 x) /\ way_ok 1 true (w_dist W a b 1 x) /\ way_ok 1 true (w_dist W a b 2 x).

(** The ways of a distance matrix to centres, of every block. *)
Definition block_ways_ok (dim : nat) (ws : nat -> nat -> nat -> way) : Prop :=
  forall b x, way_ok 1 false (ws b 0 x) /\ way_ok 1 true (ws b 1 x) /\ way_ok dim true (ws b 2 x).

(** The sum of the squares. *)
Definition sum_sq (v : list spec_float) : R := real_sum (map (fun x => (real x ^ 2)%R) v).
Definition int_sq (v : list Z) : Z := fold_right Z.add 0%Z (map (fun x => (x * x)%Z) v).

(** The norm [x] computed of the vector [v] is within a relative (dim + 4) * 2^-23 of the
    norm (and 2^-149). *)
Definition norm_near (v : list spec_float) (x : spec_float) : Prop :=
  valid_binary 24 128 x = true /\ (match x with S754_infinity _ | S754_nan => False | _ => True end) /\
  (Rabs (real x - sqrt (sum_sq v)) <= (INR (length v) + 4) * powerRZ 2 (-23) * sqrt (sum_sq v) + powerRZ 2 (-149))%R.

(** [row] lists k of the points 0 ... n-1 with their distances, nearest first; each distance
    is a number and right up to [err], and no point left out is nearer than a listed one by more than the
    errors of the two.  With err = 0: the k nearest points and their distances. *)
Definition nearest_within (n k : nat) (dist err : nat -> R) (row : list (nat * f32)) : Prop :=
  length row = k /\ NoDup (map fst row) /\ StronglySorted (fun x y => (real (snd x) <= real (snd y))%R) row /\
  (forall x, In x row -> (fst x < n)%nat /\ finite (snd x) /\ (Rabs (real (snd x) - dist (fst x)) <= err (fst x))%R) /\
  (forall x j, In x row -> (j < n)%nat -> ~ In j (map fst row) -> (dist (fst x) <= dist j + err (fst x) + err j)%R).

(** * What a list of the largest inner products is, and what the vectors of a file are. *)
From Coq Require Import NArith Reals List Arith Sorting.Sorted Floats.SpecFloat.
From Verif Require Import Bytes Float32 DistSpec RealSpec StreamModel BinSpec NormModel NormSpec.
Import ListNotations.

(** [row] lists k of the points 0 ... n-1 with their scores, largest first; each score is
    a number and right up to [err], and no point left out scores higher than a listed one by more than the
    errors of the two. *)
Definition largest_within (n k : nat) (score err : nat -> R) (row : list (nat * f32)) : Prop :=
  length row = k /\ NoDup (map fst row) /\ StronglySorted (fun x y => (real (snd y) <= real (snd x))%R) row /\
  (forall x, In x row -> (fst x < n)%nat /\ finite (snd x) /\ (Rabs (real (snd x) - score (fst x)) <= err (fst x))%R) /\
  (forall x j, In x row -> (j < n)%nat -> ~ In j (map fst row) -> (score j <= score (fst x) + err (fst x) + err j)%R).

(** A vector file of elements of the given type. *)
Definition vector_file (kt : ktype) (dim : nat) (rows : list (list N)) : file :=
  Some (bin_file (kwidth kt) (N.of_nat (length rows)) (N.of_nat dim) (concat rows)).

(** The squared distance and the inner product of two vectors of a file. *)
Definition elem_l2 (kt : ktype) (v w : list N) : R := real_sum (map (fun p => ((elem_real kt (fst p) - elem_real kt (snd p)) ^ 2)%R) (combine v w)).
Definition elem_dot (kt : ktype) (v w : list N) : R := real_sum (map (fun p => (elem_real kt (fst p) * elem_real kt (snd p))%R) (combine v w)).

(** The results of query i in a loaded ground truth with k columns. *)
Definition truth_row (k i : nat) (ids dists : list N) : list (nat * f32) :=
  combine (map N.to_nat (firstn k (skipn (i * k) ids))) (map f32_of_bits (firstn k (skipn (i * k) dists))).

(** Base vectors and query vectors the tool is made for: of one dimension, of numbers, and at
    most ten million queries, the most the loader of truth files accepts, all in one part. *)
Definition tool_input (kt : ktype) (dim ps : nat) (rows qrows : list (list N)) : Prop :=
  rows <> [] /\ (N.of_nat (length rows) < 2147483648)%N /\ qrows <> [] /\ (N.of_nat (length qrows) <= 10000000)%N /\ (length qrows <= ps)%nat /\ (N.of_nat dim < 4294967296)%N /\
  forall r, In r rows \/ In r qrows -> length r = dim /\ Forall (elem_ok kt) r.

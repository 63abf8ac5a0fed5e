(** * What k-means minimises, in the reals; nothing here is from the model of k-means. *)
From Coq Require Import ZArith Reals List Arith Floats.SpecFloat Sorting.Permutation.
From Verif Require Import Base Float32 DistModel FusedModel RealSpec.
Import ListNotations.
Local Open Scope R_scope.

(** The sum of the squared distances of the points to the centres given to them. *)
Definition cost (data centers : list (list spec_float)) (assign : list nat) : R :=
  real_sum (map (fun xc => exact_l2 (fst xc) (nth (snd xc) centers [])) (combine data assign)).

(** The squared distance of a point to the closest centre, and the sum over the points: what k-means
    minimises. *)
Definition to_closest (centers : list (list spec_float)) (x : list spec_float) : R :=
  fold_right Rmin (exact_l2 x (hd [] centers)) (map (exact_l2 x) centers).
Definition objective (data centers : list (list spec_float)) : R := real_sum (map (to_closest centers) data).

(** Vectors of [dim] finite floats whose sums of squares are at most [B]. *)
Definition vectors (dim : nat) (B : R) (rows : list (list spec_float)) : Prop :=
  forall r, In r rows -> length r = dim /\ (forall x, In x r -> (match x with S754_infinity _ | S754_nan => False | _ => True end) /\ valid_binary 24 128 x = true) /\ real_sum (map (fun x => real x ^ 2) r) <= B.

(** [rdist] adds the squares of the differences in some order, with some contractions. *)
Definition adds_squares (dim : nat) (rdist : list f32 -> list f32 -> f32) : Prop :=
  forall a b, length a = dim -> length b = dim -> exists t f, Permutation (red_items t) (seq 0 dim) /\ contracts t f /\ l2_fused f a b = Ok (rdist a b).

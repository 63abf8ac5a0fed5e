(** * Specification: answers within a factor of the best. *)
From Coq Require Import ZArith Reals List Arith Floats.SpecFloat.
From Verif Require Import Base Float32 PoolModel GraphSpec RealSpec DistSpec FusedModel PruneModel.
Import ListNotations.

(** Distances: [apart x y] of two points, [away x] of a point and the query. *)
Definition metric (n : nat) (apart : nat -> nat -> R) (away : nat -> R) : Prop :=
  forall x y, x < n -> y < n ->
    (0 <= apart x y)%R /\ (0 <= away x)%R /\ (away x <= apart x y + away y)%R /\ (apart x y <= away x + away y)%R.

(** From every accepted point the graph has a shortcut to every other one: an accepted neighbour that is the
    other one, or is nearer to it and [alpha] times as near. *)
Definition shortcuts (acc : nat -> bool) (n : nat) (apart : nat -> nat -> R) (alpha : R) (g : list (list nat)) : Prop :=
  forall x y, x < n -> y < n -> acc x = true -> acc y = true -> x <> y ->
    exists w, edge acc g x w /\ (w = y \/ ((alpha * apart w y <= apart x y)%R /\ (apart w y < apart x y)%R)).

(** The computed distances put a point before another only if it is nearer up to the factor [c]. *)
Definition ordered_within (c : R) (n : nat) (away : nat -> R) (dist : nat -> f32) : Prop :=
  forall x y, x < n -> y < n -> fle (dist x) (dist y) = true -> (away x <= c * away y)%R.

(** [ids] are k of the accepted points, or all of them if there are fewer; none is more than [factor] times as far
    from the query as an accepted point left out; and the i-th is no more than [factor] times as far as the
    farthest of any i accepted points, so also of the i nearest. *)
Definition near_best (acc : nat -> bool) (n : nat) (away : nat -> R) (factor : R) (k : nat) (ids : list nat) : Prop :=
  (forall y, y < n -> acc y = true -> In y ids \/ (length ids = k /\ forall z, In z ids -> (away z <= factor * away y)%R)) /\
  (forall i z some, nth_error ids i = Some z -> length some = S i -> NoDup some -> (forall y, In y some -> y < n /\ acc y = true) ->
     exists y, In y some /\ (away z <= factor * away y)%R).

(** The factor for shortcuts [alpha] and an order right up to [c]. *)
Definition guarantee (c alpha : R) : R := (c * (alpha + 1) / (alpha - c))%R.

(** The Euclidean distance of two vectors of floats. *)
Definition l2_dist (a b : list f32) : R := sqrt (exact_l2 a b).

(** Vectors of [dim] numbers; the computed distance of the query [q] to each is a number; and the exact squared distance
    is zero or far from underflow. *)
Definition clear_vectors (dim : nat) (f : fred) (data : list (list f32)) (q : list f32) : Prop :=
  (Z.of_nat dim <= 2 ^ 18)%Z /\
  (forall v, v = q \/ In v data -> length v = dim /\ forall x, In x v -> finite x /\ valid_binary 24 128 x = true) /\
  (forall v, In v data -> (exists r, l2_fused f v q = Ok r /\ finite r) /\ (exact_l2 v q = 0 \/ powerRZ 2 (-100) <= exact_l2 v q)%R).

(** The factor up to which computed distances of [dim] coordinates are ordered right. *)
Definition rounding (dim : nat) : R := (1 + 2 * ((INR dim + 3) * powerRZ 2 (-23)))%R.

(** The distances of a data set are the squares of the exact ones, without rounding. *)
Definition exact_squares (sp : space) (apart : nat -> nat -> R) : Prop :=
  forall a b, a < sp_n sp -> b < sp_n sp ->
    finite (sp_pd sp a b) /\ valid_binary 24 128 (sp_pd sp a b) = true /\ (0 <= apart a b)%R /\ apart a b = apart b a /\ real (sp_pd sp a b) = (apart a b * apart a b)%R.

(** [cands] are all the points other than [x], with their distances to it. *)
Definition all_others (sp : space) (x : nat) (cands : list neighbor) : Prop :=
  (forall z, In z cands -> nid z < sp_n sp /\ ndist z = sp_pd sp (nid z) x) /\
  (forall y, y < sp_n sp -> y <> x -> In y (map nid cands)) /\ length cands <= sp_n sp.

(** * Specification of one step of Lloyd's algorithm. *)
From Coq Require Import ZArith List Arith Floats.SpecFloat.
From Verif Require Import Float32 LloydModel.
Import ListNotations.

(** The mean of numbers: their sum in double precision, in the given order, divided by
    their number and rounded to float. *)
Definition mean_of (xs : list f32) : f32 := f32_of_f64 (f64_div (fold_left f64_add (map f64_of_f32 xs) f64_zero) (f64_of_nat (length xs))).

(** The centre of points [docs]: coordinate by coordinate the mean; zero without points. *)
Definition centroid_of (dim : nat) (data : list (list f32)) (docs : list nat) : list f32 :=
  match docs with
  | [] => repeat f32_zero dim
  | _ => map (fun i => mean_of (map (fun p => nth i (nth p data []) f32_zero) docs)) (seq 0 dim)
  end.

(** The distances of the points to the centres are usable. *)
Definition usable_centers (cdist : nat -> list f32 -> f32) (n : nat) (centers : list (list f32)) : Prop :=
  (forall p y, In y centers -> is_nan (cdist p y) = false) /\ forall p, p < n -> exists y, In y centers /\ flt (cdist p y) FLT_MAX = true.

(** [s 0], ..., [s r] are the states of [r] iterations from [s 0]; iteration i turns
    [s i] into [s (S i)]. *)
Definition lloyd_run (iter : nat -> lloyd -> lloyd -> Prop) (r : nat) (s : nat -> lloyd) : Prop := forall i, i < r -> iter i (s i) (s (S i)).

(** The stopping rule after iteration [i], which changed the residual from [old] to [new]:
    not the first iteration and a relative gain below 0.00001 (compared as a double), or a
    residual below 2^-23. *)
Definition settled (i : nat) (old new : f32) : Prop :=
  (1 <= i /\ SFltb (f64_of_f32 (fdiv (fsub old new) new)) (f64_div (f64_of_nat 1) (f64_mul (f64_of_nat 1000) (f64_of_nat 100))) = true) \/
  flt new (fdiv (f32_of_Z 1) (f32_of_Z 8388608))%Z = true.

(** The sum of the distances of the points to their centres: block by block of [csz]
    points, then over the blocks. *)
Definition total_dist (dist : nat -> f32) (csz n : nat) : f32 :=
  fold_left fadd (map (fun c => fold_left fadd (map dist (filter (fun p => p / csz =? c) (seq 0 n))) f32_zero) (seq 0 ((n + csz - 1) / csz))) f32_zero.

(** What k-means++ needs of its random numbers: the dart lies in the range of the sum of
    the distances whenever that sum is not zero.  The lists of distances are made of
    values of [pdist]. *)
Definition darts_ok (n : nat) (pdist : nat -> nat -> f32) (darts : nat -> spec_float) : Prop :=
  forall r l, length l = n -> (forall d, In d l -> exists i j, i < n /\ j < n /\ d = pdist i j) ->
    SFeqb (sum64 l) f64_zero = true \/
    SFleb f64_zero (f64_mul (darts r) (sum64 l)) = true /\ SFltb (f64_mul (darts r) (sum64 l)) (sum64 l) = true.

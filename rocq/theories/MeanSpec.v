(** * Specification: the mean of points and distances in the reals; nothing here is from the
    model of the code except the names of the element types. *)
From Coq Require Import NArith ZArith Reals List Floats.SpecFloat.
From Verif Require Import DistSpec DistModel RealSpec NormModel NormSpec.
Import ListNotations.
Local Open Scope R_scope.

(** The mean of some numbers, and of their magnitudes. *)
Definition mean (l : list R) : R := real_sum l / INR (length l).
Definition mean_abs (l : list R) : R := mean (map Rabs l).

(** Coordinate [j] of a vector of the data, of the mean of all vectors. *)
Definition coord (k : ktype) (row : list N) (j : nat) : R := elem_real k (nth j row 0%N).
Definition column (k : ktype) (rows : list (list N)) (j : nat) : list R := map (fun row => coord k row j) rows.

(** The Euclidean distance and norm in [d] coordinates. *)
Definition distance (d : nat) (x y : nat -> R) : R := sqrt (real_sum (map (fun j => (x j - y j) ^ 2) (seq 0 d))).
Definition norm (d : nat) (x : nat -> R) : R := distance d x (fun _ => 0).

(** Data of [dim] coordinates, all of them numbers of magnitude at most [b]. *)
Definition rows_ok (k : ktype) (dim : nat) (b : R) (rows : list (list N)) : Prop :=
  forall row, In row rows -> length row = dim /\ forall e, In e row -> elem_ok k e /\ Rabs (elem_real k e) <= b.

(** Adding up the points one after the other, as the code is written. *)
Fixpoint in_order (n : nat) : red := match n with O => RZero | S m => RAdd (in_order m) (RItem m) end.

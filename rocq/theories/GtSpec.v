(** * Specification of the ground truth computation. *)
From Coq Require Import List Arith Sorting.Permutation.
From Verif Require Import Float32 TopKSpec.
Import ListNotations.

(** Row [i] of a row-major matrix with [k] columns. *)
Definition row_of (k i : nat) (out : list (nat * f32)) : list (nat * f32) := firstn k (skipn (i * k) out).

(** The queries of each batch, in any order. *)
Definition batch_orders (nq bs : nat) (orders : nat -> list nat) : Prop :=
  forall b, Permutation (orders b) (seq (b * bs) (min bs (nq - b * bs))).

(** The size of the last of the parts of at most [ps] points that n points are cut into. *)
Definition last_part (n ps : nat) : nat := if n mod ps =? 0 then ps else n mod ps.

(** * Specification: the vector that a row of codes stands for. *)
From Coq Require Import Reals List Arith Floats.SpecFloat.
From Verif Require Import Float32 DivFacts FloatBits DistSpec RealSpec PqSpec.
Import ListNotations.

(** The coordinates of chunk [i]. *)
Definition piece (dim chunks : nat) (offs : list nat) (i : nat) (v : list f32) : list f32 := coords (nth i offs 0) (chunk_size dim chunks i) v.

(** The vector put together from the pieces of the pivots that the codes name. *)
Definition rebuilt (dim chunks : nat) (offs : list nat) (pivots : list (list f32)) (cs : list nat) : list f32 :=
  flat_map (fun i => piece dim chunks offs i (nth (nth i cs 0) pivots [])) (seq 0 chunks).

(** The codes of point [p] in a table of codes; codes that name pivots. *)
Definition codes_at (chunks p : nat) (codes : list nat) : list nat := firstn chunks (skipn (p * chunks) codes).
Definition names_pivots (chunks nc : nat) (cs : list nat) : Prop := length cs = chunks /\ forall c, In c cs -> c < nc.

(** The computed distances of the pieces of the points [xs] to those of the pivots are
    numbers and right up to [err point chunk pivot]. *)
Definition pieces_within (cdist : nat -> list f32 -> list f32 -> f32) (dim chunks nc : nat) (offs : list nat) (pivots xs : list (list f32)) (err : nat -> nat -> nat -> R) : Prop :=
  forall p i c, p < length xs -> i < chunks -> c < nc ->
    let x := piece dim chunks offs i (nth p xs []) in let y := piece dim chunks offs i (nth c pivots []) in
    finite (cdist p x y) /\ f32_valid (cdist p x y) = true /\ (Rabs (real (cdist p x y) - exact_l2 x y) <= err p i c)%R.

(** The sum of the errors of the codes of point [p]. *)
Definition code_err (chunks : nat) (err : nat -> nat -> nat -> R) (p : nat) (cs : list nat) : R := real_sum (map (fun i => err p i (nth i cs 0)) (seq 0 chunks)).

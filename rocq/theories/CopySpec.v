(** * Specification: copies of a vector (C129). *)
From Coq Require Import List Arith.
From Verif Require Import Float32.
Import ListNotations.

(** The computed distance of the two points is zero. *)
Definition same_place (pd : nat -> nat -> f32) (a b : nat) : Prop := pd a b = f32_zero.

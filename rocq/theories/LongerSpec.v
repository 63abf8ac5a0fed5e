(** * Specification: comparing the answers of two searches. *)
From Coq Require Import List Arith.
From Verif Require Import Float32.
Import ListNotations.

(** No two of the [n] points are equally far from the query. *)
Definition no_ties (n : nat) (dist : nat -> f32) : Prop :=
  forall a b, a < n -> b < n -> feq (dist a) (dist b) = true -> a = b.

(** Wherever [ids] has a point, [ids'] has one that is no farther from the query. *)
Definition no_worse (dist : nat -> f32) (ids ids' : list nat) : Prop :=
  forall i x, nth_error ids i = Some x -> exists y, nth_error ids' i = Some y /\ fle (dist y) (dist x) = true.

(** How many of [ids] are in [truth]: recall, before the division. *)
Definition hits (truth ids : list nat) : nat := length (filter (fun x => existsb (Nat.eqb x) truth) ids).

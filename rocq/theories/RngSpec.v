(** * Specification: distances and descending walks. *)
From Coq Require Import List.
From Verif Require Import Float32 DivFacts.
Import ListNotations.

(** A dissimilarity in float32: symmetric, non-negative (so not NaN), a float
    (canonical mantissa), zero from a point to itself. *)
Record dissimilarity (pd : nat -> nat -> f32) : Prop := {
  ds_sym : forall a b, pd a b = pd b a;
  ds_nonneg : forall a b, fle f32_zero (pd a b) = true;
  ds_valid : forall a b, f32_valid (pd a b) = true;
  ds_self : forall a, feq (pd a a) f32_zero = true
}.

(** A walk along edges of [g], every step strictly closer to the target. *)
Inductive descends (g : list (list nat)) (dist : nat -> f32) : nat -> nat -> Prop :=
| desc_here : forall x, descends g dist x x
| desc_step : forall x l y z, nth_error g x = Some l -> In y l -> flt (dist y) (dist x) = true ->
    descends g dist y z -> descends g dist x z.

(** The relative neighbourhood condition: y is listed unless a listed node is
    nearer to y than x is. *)
Definition rng_covers (n : nat) (pd : nat -> nat -> f32) (g : list (list nat)) : Prop :=
  forall x y, x < n -> y < n -> x <> y ->
    exists l, nth_error g x = Some l /\
      (In y l \/ exists k, In k l /\ flt (pd y k) (pd y x) = true).

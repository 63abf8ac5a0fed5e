(** Vectors and sums for the theorems about flushed subnormals. *)
From Coq Require Import ZArith Reals List Floats.SpecFloat.
From Verif Require Import Float32 DistSpec FusedModel RealSpec.

(** Every coordinate is a float, and zero or at least 2^-39 in magnitude. *)
Definition coarse (l : list f32) : Prop :=
  forall x, In x l -> finite x /\ valid_binary 24 128 x = true /\ (real x = 0 \/ powerRZ 2 (-39) <= Rabs (real x))%R.

(** The number of float operations of a sum (a fused multiply-add counts once). *)
Fixpoint fred_ops (t : fred) : nat :=
  match t with FZero => 0 | FItem _ => 1 | FAdd l r => S (fred_ops l + fred_ops r) | FFma _ r => S (fred_ops r) end.

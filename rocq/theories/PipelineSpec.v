(** * When every point that can be among the nearest is in the ground truth. *)
From Coq Require Import Reals List.
Import ListNotations.

(** Fewer than [r] of the points 0 ... n-1 are strictly nearer than [x]. *)
Definition can_be_nearest (n r : nat) (dist : nat -> R) (x : nat) : Prop :=
  x < n /\ forall l, NoDup l -> (forall y, In y l -> y < n /\ (dist y < dist x)%R) -> length l < r.

(** At most [depth] points can be among the [r] nearest: with depth = r, the nearest [r] are
    told from the others by their distances; otherwise ties are allowed as far as [depth]
    reaches. *)
Definition ties_fit (n r depth : nat) (dist : nat -> R) : Prop :=
  forall l, NoDup l -> (forall x, In x l -> can_be_nearest n r dist x) -> length l <= depth.

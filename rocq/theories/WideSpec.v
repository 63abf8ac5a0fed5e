(** * Specification: answers that are exact over a set of points. *)
From Coq Require Import List Sorting.Sorted.
From Verif Require Import Float32 TopKSpec PoolModel GreedyModel SearchModel PruneModel BuildModel EntrySpec VamanaModel.
Import ListNotations.

(** No more than [k] points have property [P]. *)
Definition at_most (k : nat) (P : nat -> Prop) : Prop :=
  forall l, NoDup l -> (forall x, In x l -> P x) -> length l <= k.

(** [ids] lists the [k] points nearest to the query among those with property [P], nearest
    first, all of them if there are fewer. *)
Definition nearest_among (k : nat) (P : nat -> Prop) (dist : nat -> f32) (ids : list nat) : Prop :=
  exists all, NoDup all /\ (forall x, In x all <-> P x) /\ is_top_k k (score dist all) (score dist ids).

(** From every point a walk along the edges leads to every other. *)
Definition strongly_connected (n : nat) (g : list (list nat)) : Prop :=
  forall x y, x < n -> y < n ->
    exists walk, last (x :: walk) x = y /\
      forall i a b, nth_error (x :: walk) i = Some a -> nth_error (x :: walk) (S i) = Some b ->
        exists l, nth_error g a = Some l /\ In b l.

(** Parameters with which no list of the build is ever cut. *)
Definition uncut (v : vinput) : Prop :=
  2 * (sp_n (vi_sp v) - 1) <= bp_R (vi_prm v) /\ 1 <= bp_C (vi_prm v) /\ fgt f32_zero (bp_alpha (vi_prm v)) = false.

(** Parameters with which, moreover, no search and no pruning of the build overlooks a point. *)
Definition unhurried (v : vinput) : Prop :=
  sp_n (vi_sp v) <= bp_L (vi_prm v) /\ sp_n (vi_sp v) <= bp_C (vi_prm v) /\ 2 * (sp_n (vi_sp v) - 1) <= bp_R (vi_prm v) /\
  fle f32_one (bp_alpha (vi_prm v)) = true.

(** No point carries the universal label. *)
Definition no_universal (lc : label_ctx) : Prop := forall u id, universal_of lc = Some u -> ~ carries (pts_to_labels lc) id u.

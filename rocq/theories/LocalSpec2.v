(** * Specification: a point with the same labels in two collections. *)
From Coq Require Import String List.
From Verif Require Import Float32 PoolModel.
Import ListNotations.

Definition same_labels (lc lc' : label_ctx) (x : nat) : Prop :=
  nth_error (pts_to_labels lc') x = nth_error (pts_to_labels lc) x /\ use_universal_label lc' = use_universal_label lc /\ universal_label lc' = universal_label lc.

(** * Specification: HNSW builds that overlook nothing. *)
From Coq Require Import List Arith.
From Verif Require Import Float32 PruneModel.
Import ListNotations.

(** Parameters with which no search and no pruning of an HNSW build over [n] points overlooks a point and no list is
    ever cut; with the alpha rule (0), alpha at least 1. *)
Definition patient (n : nat) (prm : bparams) : Prop :=
  n <= bp_L prm /\ bp_L prm + n <= bp_R prm /\ (bp_rule prm = 0 -> bp_L prm < bp_C prm /\ fle f32_one (bp_alpha prm) = true).

(** * Specification of what the limits of pruning do (C126).

    Small words for the statements of PropLimit.v; nothing here mentions how the
    pruning works. *)
From Coq Require Import List.
From Verif Require Import Float32 PoolModel PruneModel.
Import ListNotations.

(** The candidates [ids] at distances [d] from the point whose list is pruned. *)
Definition tagged (d : nat -> f32) (ids : list nat) : list neighbor := map (fun i => mkN i (d i) true) ids.

(** No two of [ids] are equally far. *)
Definition no_two_equal (d : nat -> f32) (ids : list nat) : Prop :=
  forall i j, In i ids -> In j ids -> i <> j -> feq (d i) (d j) = false.

(** [short] is the beginning of [long]. *)
Definition begins (short long : list nat) : Prop := exists more, long = short ++ more.

(** The parameters with another degree, another number of scanned candidates,
    another alpha. *)
Definition with_R (prm : bparams) (R : nat) : bparams := mkB (bp_L prm) R (bp_C prm) (bp_alpha prm) (bp_rule prm).
Definition with_C (prm : bparams) (C : nat) : bparams := mkB (bp_L prm) (bp_R prm) C (bp_alpha prm) (bp_rule prm).
Definition with_alpha (prm : bparams) (a : f32) : bparams := mkB (bp_L prm) (bp_R prm) (bp_C prm) a (bp_rule prm).

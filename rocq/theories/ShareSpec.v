(** * Specification: labels that all points share. *)
From Coq Require Import String List Arith.
From Verif Require Import Float32 PoolModel FilterSpec PruneModel.
Import ListNotations.

(** Each of the [n] points has a sorted label list that matches the sorted filter list. *)
Definition all_match (n : nat) (lc : label_ctx) (filters : list label) : Prop :=
  length (pts_to_labels lc) = n /\ sorted_labels filters /\ forall labels, In labels (pts_to_labels lc) -> sorted_labels labels /\ matches (universal_of lc) filters labels.

(** Each of the [n] points has the label [x] and no other. *)
Definition all_have (n : nat) (lc : label_ctx) (x : label) : Prop := pts_to_labels lc = repeat [x] n.

(** The same data, built without labels. *)
Definition unlabelled (sp : space) (lc : label_ctx) : space := mkSp (sp_n sp) (sp_pd sp) false lc.

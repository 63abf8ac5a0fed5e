(** * Specification of filtered ground truth. *)
From Coq Require Import NArith String List Bool Sorting.Sorted.
From Verif Require Import Base Bytes Float32.
Import ListNotations.

(** A point with labels [toks] matches if one of them is a filter or the universal label. *)
Definition has_label (filters : list string) (univ : option string) (toks : list string) : Prop :=
  exists t, In t toks /\ (In t filters \/ univ = Some t).

(** [ids] lists, in increasing order, the points below [n] that satisfy [P]. *)
Definition lists_all (n : nat) (P : nat -> Prop) (ids : list nat) : Prop :=
  StronglySorted lt ids /\ (forall i, In i ids <-> i < n /\ P i).

(** A vector file with the given rows of bytes. *)
Definition rows_file (n d : N) (rows : list (list N)) : list N := u32 n ++ u32 d ++ concat rows.

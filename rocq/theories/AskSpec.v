(** * Specification: the same distances, position by position; sharper hash tables (C128). *)
From Coq Require Import NArith List.
From Verif Require Import Float32.
Import ListNotations.

(** As many points, and at every position one that is as far from the query. *)
Definition as_near (dist : nat -> f32) (ids ids' : list nat) : Prop :=
  Forall2 (fun x y => feq (dist x) (dist y) = true) ids ids'.

(** The same for rows of ids with their distances. *)
Definition as_near_rows (row row' : list (nat * f32)) : Prop :=
  Forall2 (fun x y => feq (snd x) (snd y) = true) row row'.

(** Table by table, the hyperplanes of [planes'] are those of [planes] and maybe some more. *)
Definition more_planes (planes planes' : list (list (list N))) : Prop :=
  Forall2 (fun a b => exists c, b = a ++ c) planes planes'.

(** * Specification: a filter list that asks for more (C127). *)
From Coq Require Import String List.
Import ListNotations.

(** [fs'] lets through what [fs] does: it has every label of [fs], or is no filter at all. *)
Definition asks_more (fs fs' : list string) : Prop :=
  fs' = [] \/ (fs <> [] /\ forall x, In x fs -> In x fs').

(** * Specification: what IVF and LSH search leave in the caller's buffers. *)
From Coq Require Import List Arith.
From Verif Require Import Float32 TopKSpec SearchSpec.
Import ListNotations.

(** The buffers hold [ids] and their distances in their first slots; all other slots
    are as before.  A null distance pointer stays null. *)
Definition holds (dist : nat -> f32) (ids : list nat)
    (indices indices' : list nat) (distances distances' : option (list f32)) : Prop :=
  same_from (length ids) indices' indices /\ firstn (length ids) indices' = ids /\
  match distances, distances' with
  | None, None => True
  | Some d, Some d' => same_from (length ids) d' d /\ firstn (length ids) d' = map dist ids
  | _, _ => False
  end.

(** Room for m results. *)
Definition room (m : nat) (indices : list nat) (distances : option (list f32)) : Prop :=
  m <= length indices /\ forall d, distances = Some d -> m <= length d.

(** Every distance is an ordinary number below FLT_MAX. *)
Definition finite_distances (n : nat) (dist : nat -> f32) : Prop :=
  (forall id, is_nan (dist id) = false) /\ (forall id, id < n -> flt (dist id) FLT_MAX = true).

(** * Specification: what a search call leaves in the caller's buffers. *)
From Coq Require Import List Sorting.Sorted.
From Verif Require Import Float32 GraphSpec.
Import ListNotations.

(** [ids] is the list of internal points reported: distinct, in non-decreasing
    distance order, and slot i of the two buffers holds the tag and the distance of
    the i-th of them. *)
Definition reports (n : nat) (tags : list nat) (dist : nat -> f32)
    (indices : list nat) (distances : list f32) (ids : list nat) : Prop :=
  NoDup ids /\ (forall id, In id ids -> id < n) /\
  StronglySorted (fun x y => fle (dist x) (dist y) = true) ids /\
  (forall i id, nth_error ids i = Some id ->
     nth_error indices i = nth_error tags id /\ nth_error distances i = Some (dist id)).

(** The slots from [from] on are the same in both buffers. *)
Definition same_from {A : Type} (from : nat) (a b : list A) : Prop :=
  length a = length b /\ forall i, from <= i -> nth_error a i = nth_error b i.

(** [ids] is a fixed point of greedy search with a list of L candidates from [starts]:
    distinct, sorted by distance, reachable along accepted edges; every accepted
    out-neighbour of one of them, and every start point if there are at most L, is one
    of them or is no nearer than any of L of them. *)
Definition greedy_answer (acc : nat -> bool) (dist : nat -> f32) (g : list (list nat)) (starts : list nat) (L : nat)
    (ids : list nat) : Prop :=
  NoDup ids /\ length ids <= L /\ StronglySorted (fun x y => fle (dist x) (dist y) = true) ids /\
  (forall id, In id ids -> reach acc g (fun x => In x starts) id) /\
  (forall y, (exists x, In x ids /\ edge acc g x y) \/ (In y starts /\ length starts <= L) ->
     In y ids \/ (length ids = L /\ forall z, In z ids -> fle (dist z) (dist y) = true)).

(** * Specification: nearest centres, priority queues, orders of a parallel loop. *)
From Coq Require Import List Arith Sorting.Sorted Sorting.Permutation.
From Verif Require Import Float32.
Import ListNotations.

(** What std::priority_queue<SimpleNeighbor> promises (operator< compares
    distances, include/index.h:32): everything pushed comes back, largest first; the
    order among equals is open. *)
Definition pops (popf : list (nat * f32) -> list (nat * f32)) : Prop :=
  forall l, (forall z, In z l -> is_nan (snd z) = false) ->
    Permutation l (popf l) /\ StronglySorted (fun x y => fle (snd y) (snd x) = true) (popf l).

(** [c] is the first of the centres 0 ... nc-1 at minimal distance. *)
Definition first_nearest (row : nat -> f32) (nc c : nat) : Prop :=
  c < nc /\ (forall j, j < nc -> fle (row c) (row j) = true) /\ (forall j, j < c -> flt (row c) (row j) = true).

(** The iterations (j, l) of the copy loop over block b of size bs, in any order. *)
Definition block_orders (n k bs : nat) (orders : nat -> list (nat * nat)) : Prop :=
  forall b, Permutation (orders b) (list_prod (seq (b * bs) (min bs (n - b * bs))) (seq 0 k)).

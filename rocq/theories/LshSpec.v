(** * Specification: sign patterns, colliding points, equivalent tables. *)
From Coq Require Import NArith List Arith Bool Sorting.Sorted.
From Verif Require Import Float32.
Import ListNotations.

(** The sign pattern of a vector with respect to a list of hyperplanes: which dot
    products are positive. *)
Definition sign_pattern (dotf : list N -> list f32 -> f32) (planes : list (list N)) (v : list f32) : list bool :=
  map (fun hp => fgt (dotf hp v) f32_zero) planes.

(** Two vectors have the same sign pattern for at least one of the tables. *)
Definition collide (dotf : list N -> list f32 -> f32) (tables : list (list (list N))) (v w : list f32) : Prop :=
  exists planes, In planes tables /\ sign_pattern dotf planes v = sign_pattern dotf planes w.

(** Keys in strictly increasing order. *)
Definition keys_sorted (m : list (N * list nat)) : Prop :=
  StronglySorted (fun a b => (fst a < fst b)%N) m.

(** * What distances should be (no reference to the model). *)
From Coq Require Import ZArith List Bool.
From Verif Require Import Float32.
Import ListNotations.

Definition zsum (l : list Z) : Z := fold_right Z.add 0%Z l.

(** The true squared Euclidean distance and inner product of integer vectors. *)
Definition sq_dist (a b : list Z) : Z := zsum (map (fun p => ((fst p - snd p) * (fst p - snd p))%Z) (combine a b)).
Definition dot (a b : list Z) : Z := zsum (map (fun p => (fst p * snd p)%Z) (combine a b)).

Definition int8s (a : list Z) : Prop := forall x, In x a -> (-128 <= x <= 127)%Z.
Definition uint8s (a : list Z) : Prop := forall x, In x a -> (0 <= x <= 255)%Z.

(** Finite: neither infinite nor NaN. *)
Definition finite (x : f32) : Prop :=
  match x with SpecFloat.S754_zero _ | SpecFloat.S754_finite _ _ _ => True | _ => False end.

(** * Specification: two measures of distance that order the points alike, and a change of the unit. *)
From Coq Require Import ZArith List Arith Floats.SpecFloat.
From Verif Require Import Float32 PoolModel.
Import ListNotations.

(** The two measures agree on which of two points is nearer. *)
Definition same_order (n : nat) (dist dist' : nat -> f32) : Prop :=
  forall a b, a < n -> b < n -> flt (dist a) (dist b) = flt (dist' a) (dist' b).

(** [R] relates values that compare alike. *)
Definition alike (R : f32 -> f32 -> Prop) : Prop :=
  forall a a' b b', R a a' -> R b b' -> flt a b = flt a' b' /\ fle a b = fle a' b'.

(** The same entry, with distances related by [R]. *)
Definition nb_rel (R : f32 -> f32 -> Prop) (x y : neighbor) : Prop :=
  nid x = nid y /\ nflag x = nflag y /\ R (ndist x) (ndist y).

(** A sorting routine that looks at the distances only by comparing them (as std::sort does: it gets operator<, and
    include/index.h:59 compares distances): on entries that compare alike it does the same. *)
Definition by_comparisons (sortf : list neighbor -> list neighbor) : Prop :=
  forall R l l', alike R -> Forall2 (nb_rel R) l l' -> Forall2 (nb_rel R) (sortf l) (sortf l').

(** The same for a priority queue of (id, key) pairs. *)
Definition pops_by_comparisons (popf : list (nat * f32) -> list (nat * f32)) : Prop :=
  forall R l l', alike R -> Forall2 (fun x y => fst x = fst y /\ R (snd x) (snd y)) l l' ->
    Forall2 (fun x y => fst x = fst y /\ R (snd x) (snd y)) (popf l) (popf l').

(** The float multiplied by 2^j, if that neither overflows nor underflows. *)
Definition fscale (j : Z) (x : f32) : f32 :=
  match x with S754_finite s m e => S754_finite s m (e + j) | _ => x end.

(** A coordinate that is zero, or of size at least 2^-40 and a float, and stays so when multiplied by 2^k
    (a normal float m * 2^e has 2^23 <= m < 2^24). *)
Definition ordinary (k : Z) (x : f32) : Prop :=
  match x with
  | S754_zero _ => True
  | S754_finite _ m e => (2 ^ 23 <= Zpos m < 2 ^ 24 /\ -63 <= e <= 104 /\ -63 <= e + k <= 104)%Z
  | _ => False
  end.

(** A result below 2^127 that stays below it when multiplied by 2^j. *)
Definition fits (j : Z) (x : f32) : Prop :=
  match x with
  | S754_zero _ => True
  | S754_finite _ _ e => (e <= 103 /\ e + j <= 103)%Z
  | _ => False
  end.

(** * Specification of recall. *)
From Coq Require Import NArith List.
From Verif Require Import Float32.
Import ListNotations.
Local Open Scope N_scope.

(** The number of distinct elements two lists have in common. *)
Definition common (a b : list N) (c : nat) : Prop :=
  exists l, NoDup l /\ (forall x, In x l <-> In x a /\ In x b) /\ c = length l.

(** The first [cnt] entries of row [i] of a matrix with [dim] columns. *)
Definition prefix {A : Type} (m : list A) (dim i cnt : N) : list A := firstn (N.to_nat cnt) (skipn (N.to_nat (dim * i)) m).

Definition entry (m : list f32) (dim i j : N) : f32 := nth (N.to_nat (dim * i + j)) m f32_zero.

(** The ground truth taken for query [i] with distances at hand: the first [tb]
    entries, the first recall_at and those after them at the same distance as the last. *)
Definition tie_end (dists : list f32) (dim i recall_at tb : N) : Prop :=
  recall_at <= tb <= dim /\
  (forall j, recall_at <= j < tb -> feq (entry dists dim i j) (entry dists dim i (recall_at - 1)) = true) /\
  (tb < dim -> feq (entry dists dim i tb) (entry dists dim i (recall_at - 1)) = false).

(** Enough rows for the queries, a usable recall_at. *)
Definition matrices_ok (gold : list N) (dists : option (list f32)) (dim_gs : N) (results : list N) (dim_or recall_at nq : N) : Prop :=
  1 <= recall_at /\ recall_at <= dim_gs /\ recall_at <= dim_or /\ recall_at < 4294967296 /\
  N.of_nat (length gold) = dim_gs * nq /\ N.of_nat (length results) = dim_or * nq /\
  match dists with
  | Some d => N.of_nat (length d) = dim_gs * nq /\ forall x, In x d -> is_nan x = false
  | None => True
  end.

(** The ground truth taken for a query. *)
Definition truth_taken (dists : option (list f32)) (dim_gs recall_at i tb : N) : Prop :=
  match dists with Some d => tie_end d dim_gs i recall_at tb | None => tb = recall_at end.

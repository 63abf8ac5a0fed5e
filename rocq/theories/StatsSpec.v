(** * Specification: percentiles and sorting; nothing here is from the model. *)
From Coq Require Import List Arith Bool ZArith Reals Sorting.Sorted Sorting.Permutation Floats.SpecFloat.
From Verif Require Import DistSpec RealSpec NormModel NormSpec.
Import ListNotations.

(** What std::sort with the comparison [lt] promises for the vector [l]. *)
Definition sorts_as {A : Type} (lt : A -> A -> bool) (sortf : list A -> list A) (l : list A) : Prop :=
  Permutation l (sortf l) /\ StronglySorted (fun x y => lt y x = false) (sortf l).

(** [v] is the element of rank [k] of [l]: at most [k] elements are below it, more than [k]
    are not above it. *)
Definition ranked {A : Type} (lt : A -> A -> bool) (l : list A) (v : A) (k : nat) : Prop :=
  In v l /\ length (filter (fun x => lt x v) l) <= k < length (filter (fun x => negb (lt v x)) l).

(** The rank printed as percentile [p] of [n] elements: p * n / 100 rounded down, or one less
    if that is a whole number. *)
Definition percentile_rank (p n k : nat) : Prop := 100 * k <= p * n <= 100 * k + 100.

(** The table of the percentiles 0, [step], ... below 100 and of the largest element. *)
Definition percentile_table {A : Type} (lt : A -> A -> bool) (step : nat) (l : list A) (table : list A) : Prop :=
  exists rows top, table = rows ++ [top] /\
    Forall2 (fun p v => exists k, percentile_rank p (length l) k /\ ranked lt l v k) (map (fun i => i * step) (seq 0 (100 / step))) rows /\
    In top l /\ (forall x, In x l -> lt top x = false).

(** The doubles [vals] hold the counts [ks]. *)
Definition holds_counts (vals : list spec_float) (ks : list nat) : Prop :=
  Forall2 (fun x k => finite x /\ valid_binary 53 1024 x = true /\ real x = INR k) vals ks.

(** [x] is the norm of the vector [v] of [d] elements, up to rounding. *)
Definition norm_of (k : ktype) (d : nat) (v : list N) (x : spec_float) : Prop :=
  finite x /\ (0 <= real x)%R /\ (Rabs (real x ^ 2 - elem_sq k v) <= (INR d + 4) * powerRZ 2 (-22) * elem_sq k v + INR d * powerRZ 2 (-148))%R.

(** * Specification: the columns of the table of work per list size; nothing here is from the model. *)
From Coq Require Import ZArith List Arith Reals Sorting.Permutation Floats.SpecFloat.
From Verif Require Import DistSpec RealSpec NormSpec StatsSpec.
Import ListNotations.

(** [x] shows the mean of the counts [ks], to the accuracy of a float. *)
Definition shows_mean (x : spec_float) (ks : list nat) : Prop :=
  finite x /\ (Rabs (real x - INR (list_sum ks) / INR (length ks)) <= powerRZ 2 (-23) * (INR (list_sum ks) / INR (length ks)))%R.

(** [x] shows a count of rank 99.9 percent: that of one of the queries, exactly if the count is not above 2^24. *)
Definition shows_999 (x : spec_float) (ks : list nat) : Prop :=
  finite x /\ exists v r, ranked Nat.ltb ks v r /\
    (Rabs (INR r - 0.999 * INR (length ks)) <= 1 + powerRZ 2 (-21) * INR (length ks))%R /\
    (Rabs (real x - INR v) <= powerRZ 2 (-24) * INR v)%R /\ ((Z.of_nat v <= 2 ^ 24)%Z -> real x = INR v).

(** std::sort on doubles. *)
Definition sorts_doubles (sortd : list spec_float -> list spec_float) : Prop :=
  forall l, (forall x, In x l -> finite x /\ valid_binary 53 1024 x = true) -> sorts_as SFltb sortd l.

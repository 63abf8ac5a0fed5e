(** * The nearest vectors of a file, in real numbers. *)
From Coq Require Import NArith ZArith Reals List Arith Sorting.Sorted Sorting.Permutation Floats.SpecFloat.
From Verif Require Import Bytes RealSpec DistModel FusedModel NormModel NormSpec GtToolSpec.
Import ListNotations.

(** The loops add every element once, in any order, with any contractions. *)
Definition loops_ok (T : nat -> red) (F : nat -> fred) : Prop :=
  forall n, (Z.of_nat n < 2 ^ 31)%Z -> Permutation (red_items (T n)) (seq 0 n) /\ contracts (T n) (F n).

(** [found] lists up to k of the candidates, nearest first, all of them if there are fewer
    than k; what is left out is not nearer than what is listed, and what comes later is not
    nearer than what comes earlier, by more than the errors of the two.  With err = 0: the k
    nearest candidates, nearest first. *)
Definition nearest_among (cand : nat -> Prop) (k : nat) (dist err : nat -> R) (found : list nat) : Prop :=
  NoDup found /\ (forall x, In x found -> cand x) /\ length found <= k /\ (length found < k -> forall x, cand x -> In x found) /\
  StronglySorted (fun x y => dist x <= dist y + err x + err y)%R found /\
  (forall x y, In x found -> cand y -> ~ In y found -> (dist x <= dist y + err x + err y)%R).

(** Vectors within reach of the distance functions: at least one and fewer than 2^32 of them,
    of up to 33024 bytes or 2^20 floats each, for floats with a squared norm up to 2^100. *)
Definition vectors_ok (kt : ktype) (dim : nat) (rows : list (list N)) : Prop :=
  rows <> [] /\ (N.of_nat (length rows) < 2 ^ 32)%N /\ (forall r, In r rows -> length r = dim /\ Forall (elem_ok kt) r) /\
  match kt with KFloat => (Z.of_nat dim <= 2 ^ 20)%Z /\ forall r, In r rows -> (elem_sq kt r <= powerRZ 2 100)%R | _ => (Z.of_nat dim <= 33024)%Z end.

(** The error of a squared distance [x]: none for up to 258 bytes, one rounding for more. *)
Definition dist_err (kt : ktype) (dim : nat) (x : R) : R :=
  match kt with KFloat => ((INR dim + 9) * powerRZ 2 (-23) * x + (INR dim + 7) * powerRZ 2 (-149))%R | _ => if dim <=? 258 then 0%R else (powerRZ 2 (-24) * x)%R end.

(** The hyperplane with the float bits [hp] has the vector with elements [v] on its positive
    side, or not, by more than the error of a computed inner product. *)
Definition plane_dot (kt : ktype) (hp v : list N) : R := real_sum (map (fun p => (real (f32_of_bits (fst p)) * elem_real kt (snd p))%R) (combine hp v)).
Definition plane_err (kt : ktype) (hp v : list N) : R :=
  (INR (length hp) * powerRZ 2 (-23) * real_sum (map (fun p => Rabs (real (f32_of_bits (fst p)) * elem_real kt (snd p))) (combine hp v)) + INR (length hp) * powerRZ 2 (-149))%R.
Definition clearly_above (kt : ktype) (hp v : list N) : Prop := (plane_err kt hp v < plane_dot kt hp v)%R.
Definition clearly_below (kt : ktype) (hp v : list N) : Prop := (plane_dot kt hp v <= - plane_err kt hp v)%R.

(** Hyperplanes of finite numbers that cannot overflow. *)
Definition planes_ok (planes : list (list (list N))) : Prop :=
  forall hps hp, In hps planes -> In hp hps -> Forall (elem_ok KFloat) hp /\ (elem_sq KFloat hp <= powerRZ 2 100)%R.

(** Two vectors on the same side of every hyperplane of a table; on different sides of one. *)
Definition clearly_together (kt : ktype) (hps : list (list N)) (q r : list N) : Prop :=
  forall hp, In hp hps -> (clearly_above kt hp q /\ clearly_above kt hp r) \/ (clearly_below kt hp q /\ clearly_below kt hp r).
Definition clearly_apart (kt : ktype) (hps : list (list N)) (q r : list N) : Prop :=
  exists hp, In hp hps /\ ((clearly_above kt hp q /\ clearly_below kt hp r) \/ (clearly_below kt hp q /\ clearly_above kt hp r)).

(** The points a search with hyperplanes considers: only allowed ones, all that are together
    with the query in a table, none that is apart from it in every table. *)
Definition lsh_candidates (kt : ktype) (planes : list (list (list N))) (rows : list (list N)) (q : list N) (allowed cand : nat -> Prop) : Prop :=
  (forall id, cand id -> allowed id) /\
  (forall id hps, allowed id -> In hps planes -> clearly_together kt hps q (nth id rows []) -> cand id) /\
  (forall id, (forall hps, In hps planes -> clearly_apart kt hps q (nth id rows [])) -> ~ cand id).

(** A row of results lists the tags of the points [found], distinct, nearest first up to the
    errors of the two. *)
Definition nearest_first (n : nat) (tags : list nat) (dist err : nat -> R) (row found : list nat) : Prop :=
  NoDup found /\ (forall id, In id found -> id < n) /\
  StronglySorted (fun x y => dist x <= dist y + err x + err y)%R found /\
  forall j id, nth_error found j = Some id -> nth_error row j = nth_error tags id.

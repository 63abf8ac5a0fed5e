(** Vectors scaled to norm one with an extra coordinate; nothing here is from the model of
    the code except the names of the element types. *)
From Coq Require Import NArith ZArith Reals List Arith Permutation Floats.SpecFloat.
From Verif Require Import Bytes DistSpec RealSpec NormModel.
Import ListNotations.
Local Open Scope R_scope.

(** The number an element of a file stands for: a float, a signed or an unsigned byte. *)
Definition elem_real (k : ktype) (e : N) : R :=
  match k with
  | KFloat => real (f32_of_bits e)
  | KInt8 => IZR (if (e <? 128)%N then Z.of_N e else Z.of_N e - 256)
  | KUint8 => IZR (Z.of_N e)
  end.
(** It fits the width of its type and is neither infinite nor a NaN. *)
Definition elem_ok (k : ktype) (e : N) : Prop :=
  match k with KFloat => (e < 2 ^ 32)%N /\ finite (f32_of_bits e) | _ => (e < 256)%N end.

(** The squared norm of a vector of the file, and of a vector of floats. *)
Definition elem_sq (k : ktype) (v : list N) : R := real_sum (map (fun e => elem_real k e ^ 2) v).
Definition float_sq (v : list spec_float) : R := real_sum (map (fun c => real c ^ 2) v).

(** [o] is [v] divided by [M], up to rounding, with one more coordinate in [0,1] that makes
    the norm 1. *)
Definition unit_scaled (k : ktype) (M : spec_float) (v : list N) (o : list spec_float) : Prop :=
  length o = S (length v) /\
  (forall c, In c o -> finite c) /\
  (forall j e, nth_error v j = Some e -> exists c, nth_error o j = Some c /\
     Rabs (real c - elem_real k e / real M) <= powerRZ 2 (-24) * Rabs (elem_real k e / real M) + powerRZ 2 (-150)) /\
  (exists l, nth_error o (length v) = Some l /\ 0 <= real l <= 1) /\
  Rabs (float_sq o - 1) <= (INR (length v) + 20) * powerRZ 2 (-22).

(** [o] is [v] divided by its own norm, up to rounding. *)
Definition normalised (k : ktype) (v : list N) (o : list spec_float) : Prop :=
  length o = length v /\ (forall c, In c o -> finite c) /\
  (forall j e, nth_error v j = Some e -> exists c, nth_error o j = Some c /\
     Rabs (real c - elem_real k e / sqrt (elem_sq k v)) <= (INR (length v) + 20) * powerRZ 2 (-22)) /\
  Rabs (float_sq o - 1) <= (INR (length v) + 20) * powerRZ 2 (-22).

(** The inner product of a query with a vector of the file, and the sums of magnitudes. *)
Definition query_dot (k : ktype) (q : list spec_float) (v : list N) : R := real_sum (map (fun p => real (fst p) * elem_real k (snd p)) (combine q v)).
Definition query_abs (k : ktype) (q : list spec_float) (v : list N) : R := real_sum (map (fun p => Rabs (real (fst p) * elem_real k (snd p))) (combine q v)).
Definition abs_sum (q : list spec_float) : R := real_sum (map (fun c => Rabs (real c)) q).

Definition mstep_dec : forall x y : mstep, {x = y} + {x <> y}.
Proof. decide equality; apply Nat.eq_dec. Defined.
(** Every vector is handled once: its load of the maximum comes before its store. *)
Definition interleaving (n : nat) (sched : list mstep) : Prop :=
  (forall i, count_occ mstep_dec sched (MLoad i) = if i <? n then 1 else 0)%nat /\
  (forall i, count_occ mstep_dec sched (MStore i) = if i <? n then 1 else 0)%nat /\
  forall i a b, nth_error sched a = Some (MLoad i) -> nth_error sched b = Some (MStore i) -> (a < b)%nat.
(** One vector after the other, in some order. *)
Definition one_by_one (n : nat) (sched : list mstep) : Prop :=
  exists order, Permutation order (seq 0 n) /\ sched = flat_map (fun i => [MLoad i; MStore i]) order.

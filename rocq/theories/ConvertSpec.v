(** * Specification of the file converters. *)
From Coq Require Import NArith ZArith List SpecFloat.
From Verif Require Import Base Bytes Float32 LloydModel.
Import ListNotations.
Local Open Scope nat_scope.

(** A record of an fvecs or ivecs file: a header of four bytes and the coordinates. *)
Definition record (r : list N * list N) : list N := fst r ++ snd r.

(** The coordinates of record [k] of a file whose records have [nd] coordinates, and those
    of records [i], [i + 1], ... *)
Definition row_at (nd : nat) (b : list N) (k : nat) : list N := firstn (4 * nd) (skipn (4 * (k * (nd + 1) + 1)) b).
Definition rows_at (nd : nat) (b : list N) (i cnt : nat) : list N := concat (map (row_at nd b) (seq i cnt)).

(** [z] is the number [v] without its fraction. *)
Definition integer_part (v : spec_float) (z : Z) : Prop :=
  match v with
  | S754_zero _ => z = 0%Z
  | S754_finite s m e =>
      (if s then (z <= 0)%Z else (0 <= z)%Z) /\
      (if (0 <=? e)%Z then (Z.abs z = Zpos m * 2 ^ e)%Z else (Z.abs z * 2 ^ (- e) <= Zpos m < (Z.abs z + 1) * 2 ^ (- e))%Z)
  | _ => False
  end.

(** [y] is the byte of the int8 value (x - bias) * (256 / scale): the difference is
    rounded to float, quotient and product to double, and the result loses its fraction. *)
Definition quantised (bias scale x : f32) (y : N) : Prop :=
  exists z, integer_part (f64_mul (f64_of_f32 (fsub x bias)) (f64_div (f64_of_nat 256) (f64_of_f32 scale))) z /\
    (-128 <= z <= 127)%Z /\ y = Z.to_N (z mod 256).

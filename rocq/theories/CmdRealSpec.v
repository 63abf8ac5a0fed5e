(** * Decimals on a command line, and the real numbers they stand for. *)
From Coq Require Import ZArith QArith Qabs Qreals Reals String Floats.SpecFloat.
From Verif Require Import TextModel TsvSpec RealSpec DistSpec.
Local Open Scope R_scope.

(** The word [s] is the decimal [q] with up to six digits, 0 or of a size between 10^-37 and
    10^37, and the library function atof gives a double within half a unit in the last place. *)
Definition written (atof : string -> spec_float) (s : string) (q : Q) : Prop :=
  notation_of (bytes_of s) q /\ six_digits q /\ ((q == 0)%Q \/ ((10 # 1) ^ (-37) <= Qabs q)%Q /\ (Qabs q <= (10 # 1) ^ 37)%Q) /\
  DistSpec.finite (atof s) /\ Rabs (real (atof s) - Q2R q) <= Rabs (Q2R q) * powerRZ 2 (-53).

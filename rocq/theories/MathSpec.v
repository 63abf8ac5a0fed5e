(** * What a rotation multiplies with. *)
From Coq Require Import ZArith Reals List Floats.SpecFloat.
From Verif Require Import Float32 RealSpec.
Import ListNotations.

(** Column j of the matrix with the rows [M], or row j if the matrix is transposed. *)
Definition line_of (transpose : bool) (M : list (list f32)) (j : nat) : list f32 :=
  if transpose then nth j M [] else map (fun r => nth j r f32_zero) M.
Definition int_dot (a b : list Z) : Z := fold_right Z.add 0%Z (map (fun p => (fst p * snd p)%Z) (combine a b)).
Definition int_abs_dot (a b : list Z) : Z := fold_right Z.add 0%Z (map (fun p => Z.abs (fst p * snd p)) (combine a b)).

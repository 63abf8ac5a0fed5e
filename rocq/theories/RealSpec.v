(** The real number a float stands for, and exact sums; nothing here is from the model. *)
From Coq Require Import ZArith Reals List Floats.SpecFloat.
Import ListNotations.
Local Open Scope R_scope.

Definition real (x : spec_float) : R :=
  match x with S754_finite s m e => (if s then -1 else 1) * IZR (Zpos m) * powerRZ 2 e | _ => 0 end.

(** The sum of the differences squared, and of the products. *)
Definition real_sum (l : list R) : R := fold_right Rplus 0 l.
Definition exact_l2 (a b : list spec_float) : R := real_sum (map (fun p => (real (fst p) - real (snd p)) ^ 2) (combine a b)).
Definition exact_ip (a b : list spec_float) : R := real_sum (map (fun p => real (fst p) * real (snd p)) (combine a b)).
Definition exact_abs_ip (a b : list spec_float) : R := real_sum (map (fun p => Rabs (real (fst p) * real (snd p))) (combine a b)).

(** Half a unit in the last place of 1, and half the smallest positive float. *)
Definition ulp : R := powerRZ 2 (-24).
Definition tiny : R := powerRZ 2 (-150).

(** The vector [a] holds exactly the integers [z]. *)
Definition holds_ints (a : list spec_float) (z : list Z) : Prop :=
  Forall2 (fun x k => match x with S754_infinity _ | S754_nan => False | _ => real x = IZR k end) a z.

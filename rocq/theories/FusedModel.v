(** * Float sums of products with contraction (include/distance.h:66-117).

    The build (CMakeLists.txt: -Ofast -march=native) lets the compiler contract a product
    and the addition that takes it into one fused multiply-add, which rounds once.
    DistModel rounds the product and the sum apart; here every choice is covered. *)
From Coq Require Import ZArith List Bool Floats.SpecFloat.
From Verif Require Import Base Float32 DistModel.
Import ListNotations.

(** The integer and the exponent of a finite float. *)
Definition f_int (x : f32) : option (Z * Z) :=
  match x with
  | S754_zero _ => Some (0, 0)%Z
  | S754_finite s m e => Some (cond_Zopp s (Zpos m), e)
  | _ => None
  end.

Definition f_neg (x : f32) : bool :=
  match x with S754_zero s => s | S754_infinity s => s | S754_nan => false | S754_finite s _ _ => s end.

(** The fused multiply-add x * y + z: exact, then rounded once to the nearest. *)
Definition ffma (x y z : f32) : f32 :=
  match f_int x, f_int y with
  | Some (mx, ex), Some (my, ey) =>
      match f_int z with
      | Some (mz, ez) =>
          let e := Z.min (ex + ey) ez in
          let s := xorb (f_neg x) (f_neg y) in
          binary_normalize prec emax (mx * my * 2 ^ (ex + ey - e) + mz * 2 ^ (ez - e)) e (s && f_neg z)
      | None => z
      end
  | _, _ => fadd (fmul x y) z
  end.

(** One way to compute the sum: [FAdd] adds two partial sums, [FFma i t] adds the product
    of iteration i to a partial sum in one fused operation. *)
Inductive fred : Type := FZero | FItem (i : nat) | FAdd (l r : fred) | FFma (i : nat) (r : fred).

Fixpoint fred_items (t : fred) : list nat :=
  match t with FZero => [] | FItem i => [i] | FAdd l r => fred_items l ++ fred_items r | FFma i r => i :: fred_items r end.

Fixpoint fred_eval (fac : nat -> res (f32 * f32)) (t : fred) : res f32 :=
  match t with
  | FZero => Ok f32_zero
  | FItem i => do p <- fac i; Ok (fmul (fst p) (snd p))
  | FAdd l r => do x <- fred_eval fac l; do y <- fred_eval fac r; Ok (fadd x y)
  | FFma i r => do p <- fac i; do y <- fred_eval fac r; Ok (ffma (fst p) (snd p) y)
  end.

(** The code of [t] with some of its additions contracted. *)
Inductive contracts : red -> fred -> Prop :=
| CZero : contracts RZero FZero
| CItem : forall i, contracts (RItem i) (FItem i)
| CAdd : forall l r l' r', contracts l l' -> contracts r r' -> contracts (RAdd l r) (FAdd l' r')
| CFmaL : forall i r r', contracts r r' -> contracts (RAdd (RItem i) r) (FFma i r')
| CFmaR : forall i l l', contracts l l' -> contracts (RAdd l (RItem i)) (FFma i l').

(** include/distance.h:66-80, DistanceL2::compare with contraction. *)
Definition l2_fused (t : fred) (a b : list f32) : res f32 :=
  fred_eval (fun i => do x <- rd a i; do y <- rd b i; Ok (fsub x y, fsub x y)) t.

(** include/distance.h:85-117, DistanceInnerProduct::inner_product with contraction (the
    intrinsics _mm256_mul_ps and _mm256_add_ps are plain products and sums to the compiler). *)
Definition ip_fused (t : fred) (a b : list f32) : res f32 :=
  fred_eval (fun i => do x <- rd a i; do y <- rd b i; Ok (x, y)) t.

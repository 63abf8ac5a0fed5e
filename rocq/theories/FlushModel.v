(** * Float sums of products when subnormal numbers may be flushed to zero (include/distance.h:66-117).

    The build (CMakeLists.txt: -Ofast) links code that switches the processor to flush-to-zero
    and denormals-are-zero before main.  FusedModel keeps subnormals; here the arithmetic is a
    parameter.  Which of the two modes is on, and whether a result that rounds up to the
    smallest normal number counts as tiny, is left open. *)
From Coq Require Import ZArith List Bool Floats.SpecFloat.
From Verif Require Import Base Float32 DistModel FusedModel.
Import ListNotations.

(** At most the smallest normal number 2^-126 in magnitude, and not zero. *)
Definition at_most_normal (x : f32) : bool :=
  match x with S754_finite _ m e => (Zpos m <=? 8388608)%Z && (e =? -149)%Z | _ => false end.

(** [y] is [x], or [x] is that small and [y] the zero of its sign. *)
Definition may_flush (x y : f32) : Prop := y = x \/ (at_most_normal x = true /\ y = S754_zero (f_neg x)).

(** The float operations of a processor. *)
Record fpu : Type := mkFpu {
  u_add : f32 -> f32 -> f32;
  u_sub : f32 -> f32 -> f32;
  u_mul : f32 -> f32 -> f32;
  u_fma : f32 -> f32 -> f32 -> f32
}.

(** Each operation rounds as IEEE 754 has it, but may flush its operands and its result. *)
Record fpu_ok (u : fpu) : Prop := {
  fo_add : forall x y, exists x' y', may_flush x x' /\ may_flush y y' /\ may_flush (fadd x' y') (u_add u x y);
  fo_sub : forall x y, exists x' y', may_flush x x' /\ may_flush y y' /\ may_flush (fsub x' y') (u_sub u x y);
  fo_mul : forall x y, exists x' y', may_flush x x' /\ may_flush y y' /\ may_flush (fmul x' y') (u_mul u x y);
  fo_fma : forall x y z, exists x' y' z', may_flush x x' /\ may_flush y y' /\ may_flush z z' /\ may_flush (ffma x' y' z') (u_fma u x y z)
}.

(** The sum of a loop, as in FusedModel, on the processor [u]. *)
Fixpoint ured_eval (u : fpu) (fac : nat -> res (f32 * f32)) (t : fred) : res f32 :=
  match t with
  | FZero => Ok f32_zero
  | FItem i => do p <- fac i; Ok (u_mul u (fst p) (snd p))
  | FAdd l r => do x <- ured_eval u fac l; do y <- ured_eval u fac r; Ok (u_add u x y)
  | FFma i r => do p <- fac i; do y <- ured_eval u fac r; Ok (u_fma u (fst p) (snd p) y)
  end.

(** include/distance.h:66-80, DistanceL2::compare. *)
Definition l2_on (u : fpu) (t : fred) (a b : list f32) : res f32 :=
  ured_eval u (fun i => do x <- rd a i; do y <- rd b i; Ok (u_sub u x y, u_sub u x y)) t.

(** include/distance.h:85-117, DistanceInnerProduct::inner_product. *)
Definition ip_on (u : fpu) (t : fred) (a b : list f32) : res f32 :=
  ured_eval u (fun i => do x <- rd a i; do y <- rd b i; Ok (x, y)) t.

(** Two processors: one that keeps subnormals, and one with both modes on. *)
Definition keeping : fpu := mkFpu fadd fsub fmul ffma.

Definition flush (x : f32) : f32 :=
  match x with S754_finite s m e => if (Zpos m <? 8388608)%Z && (e =? -149)%Z then S754_zero s else x | _ => x end.

Definition flushing : fpu := mkFpu
  (fun x y => flush (fadd (flush x) (flush y)))
  (fun x y => flush (fsub (flush x) (flush y)))
  (fun x y => flush (fmul (flush x) (flush y)))
  (fun x y z => flush (ffma (flush x) (flush y) (flush z))).

(** * Distance functions (include/distance.h, src/index.cpp:19-69). *)
From Coq Require Import ZArith List Arith Lia Bool Floats.SpecFloat Sorting.Permutation.
From Verif Require Import Base Float32.
Import ListNotations.

(** A loop under [#pragma omp simd reduction(+ : result)] may split the iterations over
    lanes and add the lanes in any order.  [red] is one such order of additions:
    [RZero] the initial value of an accumulator, [RItem i] the summand of iteration i. *)
Inductive red : Type := RZero | RItem (i : nat) | RAdd (l r : red).

Fixpoint red_items (t : red) : list nat :=
  match t with RZero => [] | RItem i => [i] | RAdd l r => red_items l ++ red_items r end.

Fixpoint red_eval {A : Type} (zero : A) (add : A -> A -> res A) (item : nat -> res A) (t : red) : res A :=
  match t with
  | RZero => Ok zero
  | RItem i => item i
  | RAdd l r => do x <- red_eval zero add item l; do y <- red_eval zero add item r; add x y
  end.

(** include/distance.h:44, 58, 75: [for (_s32 i = 0; i < (_s32) size; i++)], in any
    order of the additions; a size of 2^31 or more converts to a negative bound. *)
Definition simd_loop (size : nat) (t : red) : Prop :=
  Permutation (red_items t) (seq 0 (if (Z.of_nat size <? 2 ^ 31)%Z then size else 0)).

(** include/distance.h:45-46, 59-60: the squared difference of coordinate i.  With int8
    or uint8 coordinates the difference and its square fit int32. *)
Definition sq_item (a b : list Z) (i : nat) : res Z :=
  do x <- rd a i; do y <- rd b i; Ok ((x - y) * (x - y))%Z.

(** Addition of int32: overflow is undefined. *)
Definition add_i32 (x y : Z) : res Z :=
  let r := (x + y)%Z in if ((- 2 ^ 31 <=? r) && (r <? 2 ^ 31))%Z then Ok r else UB.

(** Addition of uint32: wraps. *)
Definition add_u32 (x y : Z) : res Z := Ok ((x + y) mod 2 ^ 32)%Z.

(** include/distance.h:39-51, DistanceL2Int8::compare. *)
Definition l2_int8 (t : red) (a b : list Z) : res f32 :=
  do r <- red_eval 0%Z add_i32 (sq_item a b) t; Ok (f32_of_Z r).

(** include/distance.h:53-64, DistanceL2UInt8::compare. *)
Definition l2_uint8 (t : red) (a b : list Z) : res f32 :=
  do r <- red_eval 0%Z add_u32 (sq_item a b) t; Ok (f32_of_Z r).

(** include/distance.h:66-80, DistanceL2::compare.  Each operation is rounded to float;
    contraction of the product and sum into one fused operation is not modelled. *)
Definition l2_float (t : red) (a b : list f32) : res f32 :=
  red_eval f32_zero (fun x y => Ok (fadd x y))
    (fun i => do x <- rd a i; do y <- rd b i; Ok (fmul (fsub x y) (fsub x y))) t.

(** [_mm256_loadu_ps]: eight consecutive floats. *)
Definition load8 {A : Type} (a : list A) (o : nat) : res (list A) :=
  fold_right (fun j r => do x <- rd a (o + j); do l <- r; Ok (x :: l)) (Ok []) (seq 0 8).

Definition zip8 {A : Type} (f : A -> A -> A) (x y : list A) : list A :=
  map (fun p => f (fst p) (snd p)) (combine x y).

(** include/distance.h:90-94, the macro AVX_DOT. *)
Definition avx_dot {A : Type} (add mul : A -> A -> A) (a b : list A) (o : nat) (sum : list A) : res (list A) :=
  do x <- load8 a o; do y <- load8 b o; Ok (zip8 add sum (zip8 mul x y)).

(** include/distance.h:111-114: [k] rounds of 16 floats from round [i] on. *)
Fixpoint avx_rounds {A : Type} (add mul : A -> A -> A) (a b : list A) (k i : nat) (sum : list A) : res (list A) :=
  match k with
  | 0 => Ok sum
  | S k => do s <- avx_dot add mul a b (16 * i) sum; do s <- avx_dot add mul a b (16 * i + 8) s; avx_rounds add mul a b k (S i) s
  end.

(** include/distance.h:116-117: unpack[0] + ... + unpack[7]. *)
Definition sum8 {A : Type} (add : A -> A -> A) (zero : A) (u : list A) : A :=
  match u with [] => zero | x :: r => fold_left add r x end.

(** include/distance.h:98: [D = (size + 7) & ~7U] (no wrap: size + 7 < 2^32). *)
Definition avx_D (size : nat) : nat := 8 * ((size + 7) / 8).

(** include/distance.h:85-117, DistanceInnerProduct::inner_product, the AVX branch (the
    build uses -march=native).  Generic in the element type. *)
Definition avx_ip {A : Type} (zero : A) (add mul : A -> A -> A) (size : nat) (a b : list A) : res A :=
  let D := avx_D size in let DR := D mod 16 in let DD := D - DR in
  let sum := repeat zero 8 in
  do sum <- (if DR =? 0 then Ok sum else avx_dot add mul a b DD sum);
  do sum <- avx_rounds add mul a b (DD / 16) 0 sum;
  Ok (sum8 add zero sum).

(** include/distance.h:203-229, DistanceFastL2::norm: the same loops with squares. *)
Definition avx_sq {A : Type} (add mul : A -> A -> A) (a : list A) (o : nat) (sum : list A) : res (list A) :=
  do x <- load8 a o; Ok (zip8 add sum (zip8 mul x x)).

Fixpoint avx_sq_rounds {A : Type} (add mul : A -> A -> A) (a : list A) (k i : nat) (sum : list A) : res (list A) :=
  match k with
  | 0 => Ok sum
  | S k => do s <- avx_sq add mul a (16 * i) sum; do s <- avx_sq add mul a (16 * i + 8) s; avx_sq_rounds add mul a k (S i) s
  end.

Definition avx_norm {A : Type} (zero : A) (add mul : A -> A -> A) (size : nat) (a : list A) : res A :=
  let D := avx_D size in let DR := D mod 16 in let DD := D - DR in
  let sum := repeat zero 8 in
  do sum <- (if DR =? 0 then Ok sum else avx_sq add mul a DD sum);
  do sum <- avx_sq_rounds add mul a (DD / 16) 0 sum;
  Ok (sum8 add zero sum).

(** include/distance.h:183-191, DistanceInnerProduct::compare. *)
Definition ip_compare (size : nat) (a b : list f32) : res f32 :=
  do r <- avx_ip f32_zero fadd fmul size a b; Ok (fneg r).

(** include/distance.h:195-294: DistanceFastL2 takes [compare] from its base class
    (line 286) and adds an overload with a norm argument that nothing calls. *)
Definition fast_l2_compare (size : nat) (a b : list f32) : res f32 := ip_compare size a b.

Definition fast_l2_compare_norm (size : nat) (a b : list f32) (norm : f32) : res f32 :=
  do r <- avx_ip f32_zero fadd fmul size a b; Ok (fadd (fmul (f32_of_Z (-2)) r) norm).

(** include/essentials.h:72. *)
Inductive metric : Type := L2 | INNER_PRODUCT | FAST_L2 | PQ.

(** src/index.cpp:22-41, get_distance_function<float>: the comparison an index of this
    metric uses; [order size] is the order of additions the compiler chose for L2. *)
Definition distance_float (order : nat -> red) (m : metric) : res (nat -> list f32 -> list f32 -> res f32) :=
  match m with
  | FAST_L2 => Ok fast_l2_compare
  | L2 => Ok (fun size a b => l2_float (order size) a b)
  | INNER_PRODUCT => Ok ip_compare
  | PQ => Throw
  end.

(** src/index.cpp:43-69. *)
Definition distance_int8 (order : nat -> red) (m : metric) : res (nat -> list Z -> list Z -> res f32) :=
  match m with L2 => Ok (fun size a b => l2_int8 (order size) a b) | _ => Throw end.

Definition distance_uint8 (order : nat -> red) (m : metric) : res (nat -> list Z -> list Z -> res f32) :=
  match m with L2 => Ok (fun size a b => l2_uint8 (order size) a b) | _ => Throw end.

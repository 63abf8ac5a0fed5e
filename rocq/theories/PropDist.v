(** * Theorems: distance functions (C60, C61, C62, C80).

    [t] is any order in which a vectorised loop adds its summands ([simd_loop]: each
    index below the size once). *)
From Coq Require Import ZArith List Arith Lia Bool Floats.SpecFloat Sorting.Permutation.
From Verif Require Import Base Float32 Float32Facts ConvProofs DistModel DistSpec DistProofs DistProofs2.
Import ListNotations.

(** C60.  int8 vectors of at most 33025 coordinates: the value is the true squared
    distance, converted to float. *)
Theorem C60_int8_exact : forall t a b, int8s a -> int8s b -> length a = length b -> (Z.of_nat (length a) <= 33025)%Z -> simd_loop (length a) t ->
  (sq_dist a b < 2 ^ 31)%Z /\ l2_int8 t a b = Ok (f32_of_Z (sq_dist a b)).
Proof. exact l2_int8_exact. Qed.
Print Assumptions C60_int8_exact.

(** uint8 vectors of at most 66051 coordinates. *)
Theorem C60_uint8_exact : forall t a b, uint8s a -> uint8s b -> length a = length b -> (Z.of_nat (length a) <= 66051)%Z -> simd_loop (length a) t ->
  (sq_dist a b < 2 ^ 32)%Z /\ l2_uint8 t a b = Ok (f32_of_Z (sq_dist a b)).
Proof. exact l2_uint8_exact. Qed.
Print Assumptions C60_uint8_exact.

(** Every length below 2^31: the int8 accumulator is exact or overflows, the uint8 one is
    the distance modulo 2^32. *)
Theorem C60_int8_any : forall t a b, int8s a -> int8s b -> length a = length b -> (Z.of_nat (length a) < 2 ^ 31)%Z -> simd_loop (length a) t ->
  l2_int8 t a b = if (sq_dist a b <? 2 ^ 31)%Z then Ok (f32_of_Z (sq_dist a b)) else UB.
Proof. exact l2_int8_ok. Qed.
Print Assumptions C60_int8_any.

Theorem C60_uint8_any : forall t a b, uint8s a -> uint8s b -> length a = length b -> (Z.of_nat (length a) < 2 ^ 31)%Z -> simd_loop (length a) t ->
  l2_uint8 t a b = Ok (f32_of_Z (sq_dist a b mod 2 ^ 32)).
Proof. exact l2_uint8_ok. Qed.
Print Assumptions C60_uint8_any.

(** The bounds are sharp: from 33026 coordinates on some int8 vectors overflow; a distance
    of exactly 2^32 between different uint8 vectors comes out as zero. *)
Theorem C60_int8_overflow : forall n t, (33026 <= Z.of_nat n < 2 ^ 31)%Z -> simd_loop n t ->
  int8s (repeat (-128)%Z n) /\ int8s (repeat 127%Z n) /\ l2_int8 t (repeat (-128)%Z n) (repeat 127%Z n) = UB.
Proof. exact l2_int8_overflow. Qed.
Print Assumptions C60_int8_overflow.

Theorem C60_uint8_wrap : forall n t, (Z.of_nat n = 2 ^ 28)%Z -> simd_loop n t ->
  uint8s (repeat 4%Z n) /\ uint8s (repeat 0%Z n) /\ l2_uint8 t (repeat 4%Z n) (repeat 0%Z n) = Ok f32_zero.
Proof. exact l2_uint8_wrap. Qed.
Print Assumptions C60_uint8_wrap.

(** The squared distance is symmetric, zero only for equal vectors and unchanged by zero
    padding. *)
Theorem C60_laws : forall a b k, length a = length b ->
  sq_dist a b = sq_dist b a /\ (sq_dist a b = 0%Z <-> a = b) /\ sq_dist (a ++ repeat 0%Z k) (b ++ repeat 0%Z k) = sq_dist a b.
Proof. intros a b k H. exact (conj (sq_dist_sym a b H) (conj (sq_dist_zero a b H) (sq_dist_pad a b k H))). Qed.
Print Assumptions C60_laws.

(** The conversion to float keeps zero apart and never inverts an order. *)
Theorem C60_float_zero : forall a b, length a = length b -> (sq_dist a b < 2 ^ 32)%Z -> (feq (f32_of_Z (sq_dist a b)) f32_zero = true <-> a = b).
Proof. exact l2_float_zero_iff. Qed.
Print Assumptions C60_float_zero.

Theorem C60_float_order : forall x y, (0 <= x <= y)%Z -> (y < 2 ^ 64)%Z -> fle (f32_of_Z x) (f32_of_Z y) = true.
Proof. exact conv_mono. Qed.
Print Assumptions C60_float_order.

(** Five coordinates summed over two lanes. *)
Definition ex_tree : red := RAdd (RAdd (RAdd (RAdd RZero (RItem 0)) (RItem 2)) (RItem 4)) (RAdd (RAdd RZero (RItem 1)) (RItem 3)).
Definition ex_a : list Z := [-128; 3; 0; 127; 5]%Z.
Definition ex_b : list Z := [127; 3; -7; -128; 1]%Z.
Definition ex_u : list Z := [255; 3; 0; 127; 5]%Z.
Definition ex_v : list Z := [0; 3; 7; 255; 1]%Z.

Example C60_case : simd_loop 5 ex_tree /\ int8s ex_a /\ int8s ex_b /\ uint8s ex_u /\ uint8s ex_v /\
  sq_dist ex_a ex_b = 130115%Z /\ l2_int8 ex_tree ex_a ex_b = Ok (f32_of_Z 130115) /\ l2_uint8 ex_tree ex_u ex_v = Ok (f32_of_Z 81474).
Proof.
  assert (H : forall lo hi l, forallb (fun x => (lo <=? x) && (x <=? hi))%Z l = true -> forall x, In x l -> (lo <= x <= hi)%Z).
  { intros lo hi l F x Hx. rewrite forallb_forall in F. specialize (F x Hx). apply andb_prop in F. destruct F as [F1 F2]. apply Z.leb_le in F1. apply Z.leb_le in F2. lia. }
  split; [|repeat split; try (vm_compute; reflexivity)].
  - unfold simd_loop. cbn. apply perm_skip. change [2; 4; 1; 3] with ([2; 4] ++ [1; 3]). apply (Permutation_trans (Permutation_app_comm [2; 4] [1; 3])). cbn. apply perm_skip. apply (Permutation_trans (perm_swap 2 3 [4])). apply perm_skip, Permutation_refl.
  - apply (H (-128)%Z 127%Z ex_a eq_refl x H0).
  - apply (H (-128)%Z 127%Z ex_a eq_refl x H0).
  - apply (H (-128)%Z 127%Z ex_b eq_refl x H0).
  - apply (H (-128)%Z 127%Z ex_b eq_refl x H0).
  - apply (H 0%Z 255%Z ex_u eq_refl x H0).
  - apply (H 0%Z 255%Z ex_u eq_refl x H0).
  - apply (H 0%Z 255%Z ex_v eq_refl x H0).
  - apply (H 0%Z 255%Z ex_v eq_refl x H0).
Qed.

(** C61.  With D the size rounded up to a multiple of 8, the inner product uses each
    coordinate below D in exactly one product, adds all products, and reads nothing else:
    if either array is shorter than D the behaviour is undefined, otherwise it is not.
    The order of additions [t] depends on the size only.  For any element type. *)
Theorem C61_covers : forall size, exists t, (forall D, D mod 8 = 0 -> size <= D < size + 8 -> Permutation (red_items t) (seq 0 D)) /\
  forall (A : Type) (zero : A) (add mul : A -> A -> A) D (a b : list A), D mod 8 = 0 -> size <= D < size + 8 ->
    (D <= length a -> D <= length b -> avx_ip zero add mul size a b =
       red_eval zero (fun x y => Ok (add x y)) (fun i => do x <- rd a i; do y <- rd b i; Ok (mul x y)) t) /\
    (length a < D \/ length b < D -> avx_ip zero add mul size a b = UB).
Proof. exact avx_covers. Qed.
Print Assumptions C61_covers.

(** With exact arithmetic it is the inner product. *)
Theorem C61_exact : forall size a b, size mod 8 = 0 -> length a = size -> length b = size -> avx_ip 0%Z Z.add Z.mul size a b = Ok (dot a b).
Proof. exact avx_dot_exact. Qed.
Print Assumptions C61_exact.

(** The norm is the inner product of a vector with itself, in the same order. *)
Theorem C61_norm : forall (A : Type) (zero : A) add mul size a, avx_norm zero add mul size a = avx_ip zero add mul size a a.
Proof. exact avx_norm_ip. Qed.
Print Assumptions C61_norm.

Example C61_case : avx_ip 0%Z Z.add Z.mul 24 (map Z.of_nat (seq 0 24)) (repeat 2%Z 24) = Ok 552%Z /\
  avx_ip 0%Z Z.add Z.mul 20 (map Z.of_nat (seq 0 24)) (repeat 2%Z 24) = Ok 552%Z /\
  avx_ip 0%Z Z.add Z.mul 20 (map Z.of_nat (seq 0 20)) (repeat 2%Z 20) = UB.
Proof. vm_compute. auto. Qed.

(** C62.  An index of metric FAST_L2 compares any two vectors exactly as one of metric
    INNER_PRODUCT: by the negated inner product. *)
Theorem C62_fast_l2_is_ip : forall order, exists f g, distance_float order FAST_L2 = Ok f /\ distance_float order INNER_PRODUCT = Ok g /\
  forall size a b, f size a b = g size a b /\ f size a b = (do r <- avx_ip f32_zero fadd fmul size a b; Ok (fneg r)).
Proof. intros order. exists fast_l2_compare, ip_compare. repeat split. Qed.
Print Assumptions C62_fast_l2_is_ip.

(** So a vector need not be its own nearest neighbour. *)
Definition ex_one : list f32 := f32_one :: repeat f32_zero 7.
Definition ex_two : list f32 := f32_of_Z 2 :: repeat f32_zero 7.

Theorem C62_own_nearest_refuted : ~ (forall order f size a b x y, distance_float order FAST_L2 = Ok f -> length a = size -> length b = size ->
  f size a a = Ok x -> f size a b = Ok y -> fle x y = true).
Proof.
  intros H. specialize (H (fun _ => RZero) fast_l2_compare 8 ex_one ex_two (f32_of_Z (-1)) (f32_of_Z (-2)) eq_refl eq_refl eq_refl ltac:(vm_compute; reflexivity) ltac:(vm_compute; reflexivity)).
  vm_compute in H. discriminate.
Qed.
Print Assumptions C62_own_nearest_refuted.

(** int8 and uint8 indices exist for the metric L2 only, and no index for the metric PQ. *)
Theorem C62_supported : forall order m, (m <> L2 -> distance_int8 order m = Throw /\ distance_uint8 order m = Throw) /\ (m = PQ <-> distance_float order m = Throw).
Proof. intros order []; cbn; split; try split; try split; intros; auto; try congruence; discriminate. Qed.
Print Assumptions C62_supported.

(** C80.  The float L2 distance in any order of additions: symmetric to the last bit,
    never negative, zero between equal finite vectors. *)
Theorem C80_symmetric : forall t a b, length a = length b -> l2_float t a b = l2_float t b a.
Proof. exact l2_float_sym. Qed.
Print Assumptions C80_symmetric.

Theorem C80_not_negative : forall t a b r, l2_float t a b = Ok r -> flt r f32_zero = false.
Proof. exact l2_float_not_neg. Qed.
Print Assumptions C80_not_negative.

Theorem C80_zero_on_itself : forall t a, (forall x, In x a -> finite x) -> (forall i, In i (red_items t) -> i < length a) -> exists s, l2_float t a a = Ok (S754_zero s).
Proof. exact l2_float_self. Qed.
Print Assumptions C80_zero_on_itself.

(** Zero does not mean equal: squares underflow. *)
Theorem C80_zero_means_equal_refuted : ~ (forall t a b s, simd_loop (length a) t -> length a = length b -> (forall x, In x (a ++ b) -> finite x) ->
  l2_float t a b = Ok (S754_zero s) -> Forall2 (fun x y => feq x y = true) a b).
Proof.
  intros H. specialize (H (RItem 0) [S754_finite false 8388608 (-123)] [f32_zero] false).
  assert (F : Forall2 (fun x y => feq x y = true) [S754_finite false 8388608 (-123)] [f32_zero]).
  { apply H; [apply Permutation_refl|reflexivity| |vm_compute; reflexivity]. intros x [<-|[<-|[]]]; exact I. }
  inversion F as [|? ? ? ? E]. vm_compute in E. discriminate.
Qed.
Print Assumptions C80_zero_means_equal_refuted.

Example C80_case : l2_float ex_tree (map f32_of_Z ex_a) (map f32_of_Z ex_b) = Ok (f32_of_Z 130115) /\
  l2_float ex_tree (map f32_of_Z ex_b) (map f32_of_Z ex_a) = Ok (f32_of_Z 130115) /\ l2_float ex_tree (map f32_of_Z ex_a) (map f32_of_Z ex_a) = Ok f32_zero.
Proof. vm_compute. auto. Qed.

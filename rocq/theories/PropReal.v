(** * Theorems: float distances and the exact real ones (C92, C93).

    [real x] is the real number a float stands for, [exact_l2] and [exact_ip] the exact sums
    (RealSpec).  [t] is any order in which a vectorised loop adds its summands, and [f] the
    same code with any choice of contractions into fused multiply-adds. *)
From Coq Require Import ZArith Reals List Arith Lia Bool Floats.SpecFloat Sorting.Permutation.
From Verif Require Import Base Float32 DistSpec DistModel FusedModel FusedProofs RealSpec RealDistProofs RealDistProofs2 RealCases.
Import ListNotations.
Local Open Scope R_scope.

(** C92.  Every finite float distance is within (n + 2) * 2^-23 of the exact one, relatively,
    and n * 2^-149 absolutely, for n < 2^23 coordinates. *)
Theorem C92_l2_error : forall t f a b r, (Z.of_nat (length a) < 2 ^ 23)%Z -> Permutation (red_items t) (seq 0 (length a)) -> contracts t f -> length a = length b ->
  (forall x, In x a -> finite x /\ valid_binary 24 128 x = true) -> (forall x, In x b -> finite x /\ valid_binary 24 128 x = true) ->
  l2_fused f a b = Ok r -> finite r ->
  Rabs (real r - exact_l2 a b) <= (INR (length a) + 2) * powerRZ 2 (-23) * exact_l2 a b + INR (length a) * powerRZ 2 (-149).
Proof. exact l2_error_simple. Qed.
Print Assumptions C92_l2_error.

(** The sharper bound, for every length. *)
Theorem C92_l2_error_sharp : forall t f a b r, Permutation (red_items t) (seq 0 (length a)) -> contracts t f -> length a = length b ->
  (forall x, In x a -> finite x /\ valid_binary 24 128 x = true) -> (forall x, In x b -> finite x /\ valid_binary 24 128 x = true) ->
  l2_fused f a b = Ok r -> finite r ->
  Rabs (real r - exact_l2 a b) <= ((1 + ulp) ^ (length a + 2) - 1) * exact_l2 a b + INR (length a) * tiny * (1 + ulp) ^ length a.
Proof. exact l2_error. Qed.
Print Assumptions C92_l2_error_sharp.

(** The result is finite unless the exact distance comes near 2^127. *)
Theorem C92_l2_finite : forall t f a b, Permutation (red_items t) (seq 0 (length a)) -> contracts t f -> length a = length b ->
  (forall x, In x a -> finite x /\ valid_binary 24 128 x = true) -> (forall x, In x b -> finite x /\ valid_binary 24 128 x = true) ->
  (1 + ulp) ^ (length a + 3) * exact_l2 a b + INR (length a) * tiny * (1 + ulp) ^ length a <= powerRZ 2 127 ->
  exists r, l2_fused f a b = Ok r /\ finite r.
Proof. exact l2_finite. Qed.
Print Assumptions C92_l2_finite.

(** The code as DistModel has it is one of the choices. *)
Theorem C92_no_contraction : forall t, exists f, contracts t f /\ forall a b, l2_float t a b = l2_fused f a b.
Proof. intros t. exists (embed t). exact (uncontracted_l2 t). Qed.
Print Assumptions C92_no_contraction.

(** A contracted distance is symmetric, never negative, and zero on itself. *)
Theorem C92_contracted_distance : forall f a b, length a = length b ->
  l2_fused f a b = l2_fused f b a /\ (forall r, l2_fused f a b = Ok r -> flt r f32_zero = false) /\
  ((forall x, In x a -> finite x) -> (forall i, In i (fred_items f) -> (i < length a)%nat) -> exists s, l2_fused f a a = Ok (S754_zero s)).
Proof. intros f a b H. split; [exact (l2_fused_sym f a b H)|]. split; [exact (l2_fused_not_neg f a b)|exact (l2_fused_self f a)]. Qed.
Print Assumptions C92_contracted_distance.

(** Points further apart than the errors are ordered right, whatever the compiler chose. *)
Theorem C92_order : forall t f t' f' q a b ra rb, (Z.of_nat (length q) < 2 ^ 23)%Z ->
  Permutation (red_items t) (seq 0 (length q)) -> Permutation (red_items t') (seq 0 (length q)) -> contracts t f -> contracts t' f' ->
  length q = length a -> length q = length b ->
  (forall x, In x q -> finite x /\ valid_binary 24 128 x = true) -> (forall x, In x a -> finite x /\ valid_binary 24 128 x = true) -> (forall x, In x b -> finite x /\ valid_binary 24 128 x = true) ->
  l2_fused f q a = Ok ra -> l2_fused f' q b = Ok rb -> finite ra -> finite rb ->
  exact_l2 q a + (INR (length q) + 2) * powerRZ 2 (-23) * (exact_l2 q a + exact_l2 q b) + INR (length q) * powerRZ 2 (-148) < exact_l2 q b ->
  flt ra rb = true.
Proof. exact l2_order. Qed.
Print Assumptions C92_order.

(** Closer points can be ordered wrong. *)
Theorem C92_any_order_refuted : exists t q a b ra rb, Permutation (red_items t) (seq 0 3) /\ length q = 3%nat /\ length a = 3%nat /\ length b = 3%nat /\
  (forall x, In x q \/ In x a \/ In x b -> finite x /\ valid_binary 24 128 x = true) /\
  exact_l2 q b < exact_l2 q a /\ l2_float t q a = Ok ra /\ l2_float t q b = Ok rb /\ flt ra rb = true.
Proof. exact close_wrong. Qed.
Print Assumptions C92_any_order_refuted.

(** The inner product: the error is relative to the sum of the magnitudes.  [size] is rounded
    up to a multiple of 8, D, and D coordinates are read. *)
Theorem C92_inner_product : forall size, exists t, (forall D, (D mod 8 = 0)%nat -> (size <= D < size + 8)%nat -> Permutation (red_items t) (seq 0 D)) /\
  (forall D a b, (D mod 8 = 0)%nat -> (size <= D < size + 8)%nat -> length a = D -> length b = D ->
     exists f, contracts t f /\ avx_ip f32_zero fadd fmul size a b = ip_fused f a b) /\
  forall D f a b r, (D mod 8 = 0)%nat -> (size <= D < size + 8)%nat -> contracts t f -> length a = D -> length b = D ->
    (forall x, In x a -> finite x /\ valid_binary 24 128 x = true) -> (forall x, In x b -> finite x /\ valid_binary 24 128 x = true) ->
    ip_fused f a b = Ok r -> finite r ->
    Rabs (real r - exact_ip a b) <= ((1 + ulp) ^ D - 1) * exact_abs_ip a b + INR D * tiny * (1 + ulp) ^ D.
Proof. exact avx_ip_error. Qed.
Print Assumptions C92_inner_product.

(** Three coordinates, the products of two of them fused. *)
Example C92_case : Permutation (red_items case_t) (seq 0 3) /\ contracts case_t case_f /\
  (forall x, In x case_a \/ In x case_b \/ In x case_c -> finite x /\ valid_binary 24 128 x = true) /\
  (exists r, l2_fused case_f case_a case_b = Ok r /\ finite r) /\ (exists r, l2_fused case_f case_a case_c = Ok r /\ finite r) /\
  (1 + ulp) ^ (3 + 3) * exact_l2 case_a case_b + INR 3 * tiny * (1 + ulp) ^ 3 <= powerRZ 2 127 /\
  exact_l2 case_a case_c + (INR 3 + 2) * powerRZ 2 (-23) * (exact_l2 case_a case_c + exact_l2 case_a case_b) + INR 3 * powerRZ 2 (-148) < exact_l2 case_a case_b.
Proof. exact case_hyps. Qed.
Example C92_exact_case : exact_l2 case_a case_b = 99 / 8 /\ exact_l2 case_a case_c = 1 / 16.
Proof. exact case_exact. Qed.
Example C92_ip_case : (forall x, In x ip_a \/ In x ip_b -> finite x /\ valid_binary 24 128 x = true) /\ length ip_a = 8%nat /\ length ip_b = 8%nat /\
  avx_ip f32_zero fadd fmul 7 ip_a ip_b = Ok (fdiv (f32_of_Z 3) (f32_of_Z 2)).
Proof. exact ip_hyps. Qed.

(** C93.  Vectors of integers: while the squared distance is at most 2^24 it is computed
    exactly, in every order and with every contraction. *)
Theorem C93_l2_exact : forall t f a b za zb, Permutation (red_items t) (seq 0 (length a)) -> contracts t f -> length a = length b -> holds_ints a za -> holds_ints b zb ->
  (forall x, In x a -> valid_binary 24 128 x = true) -> (forall x, In x b -> valid_binary 24 128 x = true) -> (sq_dist za zb <= 2 ^ 24)%Z ->
  exists r, l2_fused f a b = Ok r /\ finite r /\ valid_binary 24 128 r = true /\ real r = IZR (sq_dist za zb).
Proof. exact l2_exact. Qed.
Print Assumptions C93_l2_exact.

(** So float distances order such points as the integers do, ties included. *)
Theorem C93_order : forall t f t' f' q a b zq za zb,
  Permutation (red_items t) (seq 0 (length q)) -> Permutation (red_items t') (seq 0 (length q)) -> contracts t f -> contracts t' f' ->
  length q = length a -> length q = length b -> holds_ints q zq -> holds_ints a za -> holds_ints b zb ->
  (forall x, In x q \/ In x a \/ In x b -> valid_binary 24 128 x = true) -> (sq_dist zq za <= 2 ^ 24)%Z -> (sq_dist zq zb <= 2 ^ 24)%Z ->
  exists ra rb, l2_fused f q a = Ok ra /\ l2_fused f' q b = Ok rb /\
    (flt ra rb = true <-> (sq_dist zq za < sq_dist zq zb)%Z) /\ (feq ra rb = true <-> sq_dist zq za = sq_dist zq zb).
Proof. exact l2_int_order. Qed.
Print Assumptions C93_order.

(** Byte vectors of at most 258 coordinates stored as floats: the float distance equals the
    one of the byte type. *)
Theorem C93_bytes : forall t f za zb, uint8s za -> uint8s zb -> length za = length zb -> (length za <= 258)%nat -> Permutation (red_items t) (seq 0 (length za)) -> contracts t f ->
  exists r, l2_fused f (map f32_of_Z za) (map f32_of_Z zb) = Ok r /\ real r = IZR (sq_dist za zb) /\ feq r (f32_of_Z (sq_dist za zb)) = true.
Proof. exact l2_bytes. Qed.
Print Assumptions C93_bytes.

(** 259 coordinates are too many. *)
Theorem C93_bytes_259_refuted : exists t f za zb r, uint8s za /\ uint8s zb /\ length za = 259%nat /\ length zb = 259%nat /\ Permutation (red_items t) (seq 0 259) /\ contracts t f /\
  l2_fused f (map f32_of_Z za) (map f32_of_Z zb) = Ok r /\ real r <> IZR (sq_dist za zb).
Proof. exact bytes_259. Qed.
Print Assumptions C93_bytes_259_refuted.

(** The inner product of integers is exact while the sum of the magnitudes is at most 2^24. *)
Theorem C93_ip_exact : forall t f a b za zb, Permutation (red_items t) (seq 0 (length a)) -> contracts t f -> length a = length b -> holds_ints a za -> holds_ints b zb ->
  (forall x, In x a -> valid_binary 24 128 x = true) -> (forall x, In x b -> valid_binary 24 128 x = true) -> (dot (map Z.abs za) (map Z.abs zb) <= 2 ^ 24)%Z ->
  exists r, ip_fused f a b = Ok r /\ finite r /\ valid_binary 24 128 r = true /\ real r = IZR (dot za zb).
Proof. exact ip_exact. Qed.
Print Assumptions C93_ip_exact.

Example C93_case : holds_ints (map f32_of_Z [4096; -7; 3]%Z) [4096; -7; 3]%Z /\ holds_ints (map f32_of_Z [0; -7; 3]%Z) [0; -7; 3]%Z /\
  (forall x, In x (map f32_of_Z [4096; -7; 3; 0]%Z) -> valid_binary 24 128 x = true) /\ (sq_dist [4096; -7; 3] [0; -7; 3] = 2 ^ 24)%Z /\
  (dot (map Z.abs [4096; -7; 3]) (map Z.abs [0; -7; 3]) <= 2 ^ 24)%Z /\ l2_fused case_f (map f32_of_Z [4096; -7; 3]%Z) (map f32_of_Z [0; -7; 3]%Z) = Ok (f32_of_Z (2 ^ 24)).
Proof. exact int_hyps. Qed.

(** The overload of FAST_L2 that takes the norm of the second vector (nothing in the library
    calls it): on integers it is the squared distance less the first vector's own norm, so for
    one query it orders points as the L2 distance does. *)
Theorem C93_norm_overload : forall size (a b : list f32) za zb, (size mod 8 = 0)%nat -> length a = size -> length b = size -> holds_ints a za -> holds_ints b zb ->
  (forall x, In x a -> valid_binary 24 128 x = true) -> (forall x, In x b -> valid_binary 24 128 x = true) -> (2 * dot (map Z.abs za) (map Z.abs zb) + dot zb zb <= 2 ^ 24)%Z ->
  exists nb r, avx_norm f32_zero fadd fmul size b = Ok nb /\ real nb = IZR (dot zb zb) /\
    fast_l2_compare_norm size a b nb = Ok r /\ finite r /\ valid_binary 24 128 r = true /\ real r = IZR (sq_dist za zb - dot za za).
Proof. exact norm_overload. Qed.
Print Assumptions C93_norm_overload.

Example C93_norm_case : let a := map f32_of_Z [3; -1; 0; 2; 5; 0; 0; 1]%Z in let b := map f32_of_Z [1; 1; 4; -2; 5; 0; 7; 0]%Z in
  avx_norm f32_zero fadd fmul 8 b = Ok (f32_of_Z 96) /\ fast_l2_compare_norm 8 a b (f32_of_Z 96) = Ok (f32_of_Z 50) /\
  (sq_dist [3; -1; 0; 2; 5; 0; 0; 1] [1; 1; 4; -2; 5; 0; 7; 0] - dot [3; -1; 0; 2; 5; 0; 0; 1] [3; -1; 0; 2; 5; 0; 0; 1] = 50)%Z.
Proof. vm_compute. auto. Qed.

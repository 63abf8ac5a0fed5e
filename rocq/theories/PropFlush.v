(** * Theorems: distances when subnormal floats may be flushed to zero (C116).

    [fpu_ok u]: each operation of the processor [u] rounds as IEEE 754 has it, but any operand and any result that is at
    most the smallest normal number 2^-126 may be replaced by zero (FlushModel.v).  [t] is any order of the additions,
    [f] the same code with any choice of fused multiply-adds, [fred_ops f] the number of its operations. *)
From Coq Require Import ZArith Reals List Arith Bool Floats.SpecFloat Sorting.Permutation.
From Verif Require Import Base Float32 DistSpec DistModel FusedModel RealSpec FlushModel FlushSpec FlushProofs FlushProofs2 FlushProofs3 FlushCases.
Import ListNotations.
Local Open Scope R_scope.

(** C116.  On vectors whose coordinates are zero or at least 2^-39 in magnitude, flushing changes no bit of any squared
    distance, in any order of the additions. *)
Theorem C116_l2_same : forall u t a b, fpu_ok u -> coarse a -> coarse b -> l2_on u t a b = l2_fused t a b.
Proof. exact l2_same. Qed.
Print Assumptions C116_l2_same.

(** C116.  Nor of any inner product. *)
Theorem C116_ip_same : forall u t a b, fpu_ok u -> coarse a -> coarse b -> ip_on u t a b = ip_fused t a b.
Proof. exact ip_same. Qed.
Print Assumptions C116_ip_same.

Example C116_same_case : (coarse fv /\ coarse fw) /\ Permutation (red_items ft) (seq 0 3) /\ contracts ft ff /\ fred_ops ff = 4%nat /\ fpu_ok flushing /\
  l2_on flushing ff fv fw = l2_fused ff fv fw /\ exists r, l2_on flushing ff fv fw = Ok r /\ finite r /\ flt f32_zero r = true.
Proof. exact flush_case. Qed.

(** C116.  On all vectors, the squared distance stays within (n + 3) * 2^-23 of the exact one, relatively, and 2^-118 for
    each operation, absolutely. *)
Theorem C116_l2_error : forall u t f a b r, fpu_ok u -> (Z.of_nat (length a) < 2 ^ 23)%Z -> Permutation (red_items t) (seq 0 (length a)) -> contracts t f -> length a = length b -> (forall x, In x a -> finite x /\ valid_binary 24 128 x = true) -> (forall x, In x b -> finite x /\ valid_binary 24 128 x = true) ->
  l2_on u f a b = Ok r -> finite r ->
  Rabs (real r - exact_l2 a b) <= (INR (length a) + 3) * powerRZ 2 (-23) * exact_l2 a b + INR (fred_ops f) * powerRZ 2 (-118).
Proof. exact l2_flush_simple. Qed.
Print Assumptions C116_l2_error.

(** The sharper bound, for every length. *)
Theorem C116_l2_error_sharp : forall u t f a b r, fpu_ok u -> Permutation (red_items t) (seq 0 (length a)) -> contracts t f -> length a = length b -> (forall x, In x a -> finite x /\ valid_binary 24 128 x = true) -> (forall x, In x b -> finite x /\ valid_binary 24 128 x = true) ->
  l2_on u f a b = Ok r -> finite r ->
  Rabs (real r - exact_l2 a b) <= ((1 + ulp) ^ (length a + 3) - 1) * exact_l2 a b + INR (fred_ops f) * powerRZ 2 (-119) * (1 + ulp) ^ length a.
Proof. exact l2_flush_error. Qed.
Print Assumptions C116_l2_error_sharp.

(** C116.  The same for the inner product of vectors with coordinates up to [B]. *)
Theorem C116_ip_error : forall u t f a b r B, fpu_ok u -> Permutation (red_items t) (seq 0 (length a)) -> contracts t f -> length a = length b -> (forall x, In x a -> finite x /\ valid_binary 24 128 x = true) -> (forall x, In x b -> finite x /\ valid_binary 24 128 x = true) ->
  1 <= B -> (forall x, In x a \/ In x b -> Rabs (real x) <= B) ->
  ip_on u f a b = Ok r -> finite r ->
  Rabs (real r - exact_ip a b) <= ((1 + ulp) ^ length a - 1) * exact_abs_ip a b + INR (fred_ops f) * (powerRZ 2 (-123) * B) * (1 + ulp) ^ length a.
Proof. exact ip_flush_error. Qed.
Print Assumptions C116_ip_error.

(** C116.  Points further apart than the errors are ordered right, also when the two distances are computed on
    different processors. *)
Theorem C116_order : forall u u' t f t' f' q a b ra rb, fpu_ok u -> fpu_ok u' -> (Z.of_nat (length q) < 2 ^ 23)%Z ->
  Permutation (red_items t) (seq 0 (length q)) -> Permutation (red_items t') (seq 0 (length q)) -> contracts t f -> contracts t' f' ->
  length q = length a -> length q = length b -> (forall x, In x q -> finite x /\ valid_binary 24 128 x = true) -> (forall x, In x a -> finite x /\ valid_binary 24 128 x = true) -> (forall x, In x b -> finite x /\ valid_binary 24 128 x = true) -> l2_on u f q a = Ok ra -> l2_on u' f' q b = Ok rb -> finite ra -> finite rb ->
  exact_l2 q a + (INR (length q) + 3) * powerRZ 2 (-23) * (exact_l2 q a + exact_l2 q b) + (INR (fred_ops f) + INR (fred_ops f')) * powerRZ 2 (-118) < exact_l2 q b ->
  flt ra rb = true.
Proof. exact l2_flush_order. Qed.
Print Assumptions C116_order.

(** C116.  No squared distance is negative. *)
Theorem C116_l2_not_negative : forall u t a b r, fpu_ok u -> l2_on u t a b = Ok r -> flt r f32_zero = false.
Proof. exact l2_on_not_neg. Qed.
Print Assumptions C116_l2_not_negative.

(** C116.  The distance of a vector to itself is zero. *)
Theorem C116_l2_self : forall u t a, fpu_ok u -> (forall x, In x a -> finite x) -> (forall i, In i (fred_items t) -> (i < length a)%nat) -> exists s, l2_on u t a a = Ok (S754_zero s).
Proof. exact l2_on_self. Qed.
Print Assumptions C116_l2_self.

(** C116.  Both kinds of processor are covered: one that keeps subnormals, and one that flushes operands and results. *)
Theorem C116_processors : fpu_ok keeping /\ fpu_ok flushing /\ (forall t a b, l2_on keeping t a b = l2_fused t a b) /\ (forall t a b, ip_on keeping t a b = ip_fused t a b).
Proof. split; [exact keeping_ok|]. split; [exact flushing_ok|]. split; [exact l2_keeping|exact ip_keeping]. Qed.
Print Assumptions C116_processors.

(** Points that differ can be at distance zero when subnormals are flushed, and a point nearer than another one equally
    far from the query. *)
Theorem C116_same_refuted : exists q a b ra rb, a <> q /\ flt f32_zero rb = true /\ flt rb ra = true /\
  l2_on keeping (FItem 0) q a = Ok ra /\ l2_on keeping (FItem 0) q b = Ok rb /\ l2_on flushing (FItem 0) q a = Ok f32_zero /\ l2_on flushing (FItem 0) q b = Ok f32_zero.
Proof. exact flush_refuted. Qed.
Print Assumptions C116_same_refuted.

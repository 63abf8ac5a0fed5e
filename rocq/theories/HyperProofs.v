(** The numbers of the engine, and the polar method on them. *)
From Coq Require Import NArith ZArith Reals Lra Lia List Arith Bool Floats.SpecFloat.
From Flocq Require Import Core.
From Flocq Require BinarySingleNaN.
From Verif Require Import Base Float32 DivFacts FloatBits DistSpec RealSpec FloatReal L2ErrorProofs RealDistProofs NormModel NormProofs RandModel RandSpec RandProofs RandProofs2 RandDistModel RandDistSpec RandDistProofs3 HyperModel.
Import ListNotations.
Local Open Scope R_scope.

Lemma real_inj : forall x y, f32_valid x = true -> f32_valid y = true -> finite x -> finite y -> real x = real y -> real x <> 0 -> x = y.
Proof.
  intros x y Vx Vy Fx Fy E Z. destruct (to_B x Vx) as [bx <-]. destruct (to_B y Vy) as [by0 <-]. rewrite !real_B2R in *. f_equal.
  apply (BinarySingleNaN.B2R_inj 24 128); auto.
  - destruct bx; cbn in *; auto; try (now destruct Fx); now destruct Z.
  - rewrite E in Z. destruct by0; cbn in *; auto; try (now destruct Fy); now destruct Z.
Qed.

(** Rounding commutes with doubling. *)
Lemma rnd_double : forall x, 1 <= x -> rnd (2 * x) = 2 * rnd x.
Proof.
  intros x H. unfold rnd, round, scaled_mantissa, cexp.
  assert (M : mag radix2 (2 * x) = (mag radix2 x + 1)%Z :> Z). { rewrite Rmult_comm. change 2 with (bpow radix2 1). apply mag_mult_bpow. lra. }
  assert (G : (1 <= mag radix2 x)%Z). { apply mag_ge_bpow. rewrite Rabs_pos_eq by lra. exact H. }
  rewrite M. unfold FLT_exp. replace (Z.max (mag radix2 x + 1 - 24) (-149)) with (Z.max (mag radix2 x - 24) (-149) + 1)%Z by lia.
  set (e := Z.max (mag radix2 x - 24) (-149)). unfold F2R. cbn [Fnum Fexp]. rewrite Z.opp_add_distr, !bpow_plus. change (bpow radix2 (- (1))) with (/ 2). change (bpow radix2 1) with 2.
  replace (2 * x * (bpow radix2 (- e) * / 2)) with (x * bpow radix2 (- e)) by field. ring.
Qed.

Lemma two31_real : finite (f32_of_Z 2147483646) /\ f32_valid (f32_of_Z 2147483646) = true /\ real (f32_of_Z 2147483646) = bpow radix2 31.
Proof. split; [exact I|]. split; [reflexivity|]. change (f32_of_Z 2147483646) with (S754_finite false 8388608 8). cbn [real]. rewrite pow_bp. change 8388608%Z with (radix2 ^ 23)%Z. rewrite IZR_Zpower by lia. rewrite Rmult_1_l, <- bpow_plus. reflexivity. Qed.

(** The word that gives the same canonical number. *)
Definition as_word (x : N) : N := (2 * (x - 1))%N.
Lemma as_word_small : forall x, (1 <= x < 2 ^ 31)%N -> (as_word x < 2 ^ 32)%N.
Proof. intros x H. unfold as_word. change (2 ^ 31)%N with 2147483648%N in H. change (2 ^ 32)%N with 4294967296%N. lia. Qed.
Lemma canonical_eq : forall x, (1 <= x < 2 ^ 31)%N -> canonical_lcg x = canonical32 (as_word x).
Proof.
  intros x H. destruct (N.eq_dec x 1) as [->|N1]; [reflexivity|]. unfold canonical_lcg, canonical32.
  assert (E : fdiv (f32_of_Z (Z.of_N x - 1)) (f32_of_Z 2147483646) = fdiv (f32_of_Z (Z.of_N (as_word x))) (f32_of_Z 4294967296)); [|now rewrite E].
  destruct (quot32 (as_word x) (as_word_small x H)) as [F [V R]]. change (2 ^ 31)%N with 2147483648%N in H.
  set (z := (Z.of_N x - 1)%Z). assert (Hz : (1 <= z <= 2 ^ 40)%Z) by (subst z; change (2 ^ 40)%Z with 1099511627776%Z; lia).
  replace (Z.of_N (as_word x)) with (2 * z)%Z in * by (unfold as_word; subst z; lia).
  assert (P : 1 <= IZR z) by (apply (IZR_le 1); lia). rewrite mult_IZR, rnd_double in R by exact P.
  destruct (of_Z_rnd z ltac:(lia)) as [Fz [Vz Rz]]. destruct two31_real as [F2 [V2 R2]].
  assert (P31 : bpow radix2 32 = 2 * bpow radix2 31) by (change 2 with (bpow radix2 1); rewrite <- bpow_plus; reflexivity).
  assert (Q31 : 0 < bpow radix2 31) by apply bpow_gt_0.
  assert (Eq : real (f32_of_Z z) / real (f32_of_Z 2147483646) = real (fdiv (f32_of_Z (2 * z)) (f32_of_Z 4294967296))). { rewrite R, Rz, R2, P31. field. lra. }
  assert (G : rnd (real (f32_of_Z z) / real (f32_of_Z 2147483646)) = real (fdiv (f32_of_Z (2 * z)) (f32_of_Z 4294967296))). { rewrite Eq. apply round_generic; [auto with typeclass_instances|]. now apply real_format. }
  assert (L1 : 1 <= rnd (IZR z)) by (rewrite <- rnd_1; now apply rnd_le).
  assert (U : rnd (IZR z) <= bpow radix2 31). { rewrite <- (rnd_bp 31) by lia. apply rnd_le. rewrite <- IZR_Zpower by lia. apply IZR_le. change (radix2 ^ 31)%Z with 2147483648%Z. subst z. lia. }
  assert (B : 0 < real (fdiv (f32_of_Z (2 * z)) (f32_of_Z 4294967296)) <= 1).
  { rewrite <- Eq, Rz, R2. split; [apply Rmult_lt_0_compat; [lra | now apply Rinv_0_lt_compat]|]. apply Rmult_le_reg_r with (bpow radix2 31); [exact Q31|]. unfold Rdiv. rewrite Rmult_assoc, Rinv_l by lra. lra. }
  assert (Fd : finite (fdiv (f32_of_Z z) (f32_of_Z 2147483646))).
  { apply fdiv_fin; auto; [rewrite R2; lra|]. rewrite G, Rabs_pos_eq by lra. apply Rle_lt_trans with (bpow radix2 0); [apply B | apply bpow_lt; lia]. }
  destruct (fdiv_rnd (f32_of_Z z) (f32_of_Z 2147483646) Vz V2) as [Vd Rd]; auto; [rewrite R2; lra|].
  apply real_inj; auto; rewrite Rd, G; [reflexivity | lra].
Qed.

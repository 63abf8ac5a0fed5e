(** Percentiles, means, percentages. *)
From Coq Require Import ZArith NArith Reals Lra Lia List Arith Bool Permutation Sorting.Sorted Floats.SpecFloat.
From Flocq Require Import Core Relative.
From Flocq Require BinarySingleNaN.
From Verif Require Import Base Float32 DivFacts DistSpec DistModel RecallModel LloydModel ConvertModel FusedModel RealSpec FloatReal L2ErrorProofs RealDistProofs Float64Real NormModel NormProofs StatsModel StatsSpec.
Import ListNotations.
Local Open Scope R_scope.

(** ** Doubles *)
Definition ulp64 : R := powerRZ 2 (-53).
Lemma ulp64_bpow : ulp64 = bpow radix2 (-53).
Proof. unfold ulp64. change 2 with (IZR radix2). now rewrite <- bpow_powerRZ. Qed.
Lemma ulp64_val : 0 < ulp64 <= / 1000000000000000.
Proof.
  rewrite ulp64_bpow. split; [apply bpow_gt_0|]. apply Rle_trans with (bpow radix2 (-50)); [apply bpow_le; lia|]. change (bpow radix2 (-50)) with (/ 1125899906842624). lra.
Qed.

Lemma rnd64_rel : forall x, x = 0 \/ bpow radix2 (-1000) <= Rabs x -> exists d, Rabs d <= ulp64 /\ rnd64 x = x * (1 + d).
Proof.
  intros x [->|H].
  - exists 0. rewrite round_0 by auto with typeclass_instances. rewrite Rabs_R0. pose proof ulp64_val. split; lra.
  - destruct (relative_error_N_FLT_ex radix2 (-1074) 53 prec_pos64 (fun z => negb (Z.even z)) x) as [d [Hd E]].
    + apply Rle_trans with (2 := H). apply bpow_le. lia.
    + exists d. split; [|exact E]. rewrite ulp64_bpow. apply Rle_trans with (1 := Hd). change (/ 2) with (bpow radix2 (-1)). rewrite <- bpow_plus. apply bpow_le. lia.
Qed.

Lemma int64_format : forall z, (Z.abs z <= 2 ^ 53)%Z -> generic_format radix2 (FLT_exp (-1074) 53) (IZR z).
Proof.
  intros z H. destruct (Z.eq_dec (Z.abs z) (2 ^ 53)) as [Q|Q].
  - assert (F : generic_format radix2 (FLT_exp (-1074) 53) (IZR (2 ^ 53))).
    { rewrite pow_Z by lia. apply generic_format_bpow'; [auto with typeclass_instances|]. unfold FLT_exp. lia. }
    destruct (Z.abs_eq_or_opp z) as [A|A]; rewrite A in Q.
    + rewrite Q. exact F.
    + replace z with (- 2 ^ 53)%Z by lia. rewrite opp_IZR. apply generic_format_opp, F.
  - apply generic_format_FLT. exists (Float radix2 z 0); cbn [Fnum Fexp]; [unfold F2R; cbn; ring| |lia].
    change (radix2 ^ 53)%Z with (2 ^ 53)%Z. lia.
Qed.
Lemma small64 : forall x, Rabs x <= bpow radix2 1000 -> Rabs (rnd64 x) < bpow radix2 1024.
Proof.
  intros x H. apply Rle_lt_trans with (bpow radix2 1000); [|apply bpow_lt; lia]. apply abs_round_le_generic; auto with typeclass_instances.
  apply generic_format_bpow'; [auto with typeclass_instances|]. unfold FLT_exp. lia.
Qed.
Lemma int64_rnd : forall z, (Z.abs z <= 2 ^ 53)%Z -> rnd64 (IZR z) = IZR z /\ Rabs (rnd64 (IZR z)) < bpow radix2 1024.
Proof.
  intros z H. split; [apply round_generic; [auto with typeclass_instances|apply int64_format, H]|].
  apply small64. rewrite <- abs_IZR. apply Rle_trans with (IZR (2 ^ 53)); [apply IZR_le, H|]. rewrite pow_Z by lia. apply bpow_le. lia.
Qed.

Lemma norm64 : forall z, (Z.abs z <= 2 ^ 53)%Z -> let x := SpecFloat.binary_normalize 53 1024 z 0 false in finite x /\ f64_valid x = true /\ real x = IZR z.
Proof.
  intros z H x. unfold x. rewrite normalize_equiv64. destruct (int64_rnd z H) as [R1 R2].
  pose proof (BinarySingleNaN.binary_normalize_correct 53 1024 _ _ BinarySingleNaN.mode_NE z 0 false) as C. cbn zeta in C.
  replace (F2R (Float radix2 z 0)) with (IZR z) in C by (unfold F2R; cbn; ring). rewrite Rlt_bool_true in C by exact R2.
  destruct C as [C1 [C2 _]]. split; [apply finite_B64, C2|]. split; [apply B_valid64|]. rewrite real_B2R64, C1. exact R1.
Qed.
Lemma of_nat64 : forall n, (Z.of_nat n <= 2 ^ 53)%Z -> finite (f64_of_nat n) /\ f64_valid (f64_of_nat n) = true /\ real (f64_of_nat n) = INR n.
Proof. intros n H. rewrite INR_IZR_INZ. apply norm64. lia. Qed.

Lemma ddiv_fin : forall x y, f64_valid x = true -> f64_valid y = true -> finite x -> real y <> 0 -> Rabs (rnd64 (real x / real y)) < bpow radix2 1024 -> finite (f64_div x y).
Proof.
  intros x y Vx Vy Fx N H. destruct (to_B64 x Vx) as [bx <-]. destruct (to_B64 y Vy) as [by' <-].
  rewrite ddiv_B. rewrite !real_B2R64 in *. apply finite_B64 in Fx. apply finite_B64.
  pose proof (BinarySingleNaN.Bdiv_correct 53 1024 _ _ BinarySingleNaN.mode_NE bx by' N) as C.
  rewrite Rlt_bool_true in C by exact H. destruct C as [_ [C _]]. rewrite C. exact Fx.
Qed.

(** ** Integer parts *)
Lemma trunc_real : forall x, finite x -> 0 <= real x -> exists z, trunc x = Some z /\ (0 <= z)%Z /\ IZR z <= real x < IZR z + 1.
Proof.
  intros [s|s| |s m e] F P; try (destruct F).
  - exists 0%Z. cbn. repeat split; try lia; lra.
  - destruct s.
    + exfalso. cbn [real] in P. assert (0 < powerRZ 2 e) by (apply powerRZ_lt; lra). assert (0 < IZR (Z.pos m)) by (apply IZR_lt; lia). nra.
    + cbn [trunc SpecFloat.cond_Zopp]. eexists. split; [reflexivity|]. cbn [real]. rewrite Rmult_1_l. change 2 with (IZR radix2). rewrite <- bpow_powerRZ.
      destruct (Z.leb_spec 0 e) as [A|A].
      * rewrite mult_IZR, (pow_Z e A). split; [apply Z.mul_nonneg_nonneg; [lia|apply Z.pow_nonneg; lia]|]. split; lra.
      * assert (Q : (0 < 2 ^ (- e))%Z) by (apply Z.pow_pos_nonneg; lia). pose proof (Z.div_mod (Z.pos m) (2 ^ (- e)) ltac:(lia)) as D. pose proof (Z.mod_pos_bound (Z.pos m) (2 ^ (- e)) Q) as Mb.
        set (q := (Z.pos m / 2 ^ (- e))%Z) in *. set (r := (Z.pos m mod 2 ^ (- e))%Z) in *. split; [apply Z.div_pos; lia|].
        assert (E : IZR (Z.pos m) = bpow radix2 (- e) * IZR q + IZR r) by (rewrite D, plus_IZR, mult_IZR, (pow_Z (- e)) by lia; reflexivity).
        assert (R0 : 0 <= IZR r) by (apply IZR_le; lia). assert (R1 : IZR r < bpow radix2 (- e)) by (rewrite <- (pow_Z (- e)) by lia; apply IZR_lt; lia).
        rewrite E. assert (B : bpow radix2 (- e) * bpow radix2 e = 1) by (rewrite <- bpow_plus, Z.add_opp_diag_l; reflexivity).
        assert (G : 0 < bpow radix2 e) by apply bpow_gt_0. replace ((bpow radix2 (- e) * IZR q + IZR r) * bpow radix2 e) with (IZR q * (bpow radix2 (- e) * bpow radix2 e) + IZR r * bpow radix2 e) by ring.
        rewrite B. split; [nra|]. assert (IZR r * bpow radix2 e < 1) by (rewrite <- B; apply Rmult_lt_compat_r; lra). lra.
Qed.

Lemma to_u64_real : forall x n, finite x -> 0 <= real x < IZR n -> (n <= 2 ^ 64)%Z ->
  exists k, to_u64 x = Ok k /\ (Z.of_N k < n)%Z /\ IZR (Z.of_N k) <= real x < IZR (Z.of_N k) + 1.
Proof.
  intros x n F [P L] N. destruct (trunc_real x F P) as [z [E [Z0 [A B]]]]. assert (z < n)%Z by (apply lt_IZR; lra).
  exists (Z.to_N z). rewrite Z2N.id by exact Z0. split; [|auto]. unfold to_u64. rewrite E.
  destruct (Z.leb_spec 0 z); [|lia]. destruct (Z.ltb_spec z (2 ^ 64)); [reflexivity|lia].
Qed.

(** Random numbers lie in the unit interval. *)
From Coq Require Import NArith ZArith Reals Lra Lia String List Arith Bool Permutation Sorting.Sorted Floats.SpecFloat.
From Flocq Require Import Core Relative.
From Flocq Require BinarySingleNaN.
From Verif Require Import Base Bytes Float32 DivFacts DistSpec RealSpec FloatReal L2ErrorProofs RealDistProofs NormProofs Float64Real LloydModel StatsProofs StatsProofs4 MeanProofs3 MeanProofs5 LloydSpec LloydProofs2 RandModel.
Import ListNotations.
Local Open Scope R_scope.

Lemma pow_bp : forall k, powerRZ 2 k = bpow radix2 k.
Proof. intros k. rewrite bpow_powerRZ. reflexivity. Qed.

(** ** Comparisons of doubles *)
Lemma dlt_real : forall x y, f64_valid x = true -> f64_valid y = true -> finite x -> finite y -> (SFltb x y = true <-> real x < real y).
Proof.
  intros x y Vx Vy Fx Fy. destruct (to_B64 x Vx) as [bx <-]. destruct (to_B64 y Vy) as [by' <-]. apply finite_B64 in Fx, Fy. rewrite !real_B2R64.
  pose proof (BinarySingleNaN.Bltb_correct 53 1024 bx by' Fx Fy) as C. unfold BinarySingleNaN.Bltb in C. rewrite C. destruct (Rlt_bool_spec (BinarySingleNaN.B2R bx) (BinarySingleNaN.B2R by')); split; intros; auto; try discriminate; lra.
Qed.
Lemma dle_real : forall x y, f64_valid x = true -> f64_valid y = true -> finite x -> finite y -> (SFleb x y = true <-> real x <= real y).
Proof.
  intros x y Vx Vy Fx Fy. destruct (to_B64 x Vx) as [bx <-]. destruct (to_B64 y Vy) as [by' <-]. apply finite_B64 in Fx, Fy. rewrite !real_B2R64.
  pose proof (BinarySingleNaN.Bleb_correct 53 1024 bx by' Fx Fy) as C. unfold BinarySingleNaN.Bleb in C. rewrite C. destruct (Rle_bool_spec (BinarySingleNaN.B2R bx) (BinarySingleNaN.B2R by')); split; intros; auto; try discriminate; lra.
Qed.
Lemma sle_real : forall x y, f32_valid x = true -> f32_valid y = true -> finite x -> finite y -> (fle x y = true <-> real x <= real y).
Proof.
  intros x y Vx Vy Fx Fy. destruct (to_B x Vx) as [bx <-]. destruct (to_B y Vy) as [by' <-]. apply finite_B in Fx, Fy. rewrite !real_B2R.
  pose proof (BinarySingleNaN.Bleb_correct 24 128 bx by' Fx Fy) as C. unfold BinarySingleNaN.Bleb in C. unfold fle. rewrite C. destruct (Rle_bool_spec (BinarySingleNaN.B2R bx) (BinarySingleNaN.B2R by')); split; intros; auto; try discriminate; lra.
Qed.

(** ** Integers as floats and doubles *)
Lemma of_Z_rnd : forall z, (0 <= z <= 2 ^ 40)%Z -> finite (f32_of_Z z) /\ f32_valid (f32_of_Z z) = true /\ real (f32_of_Z z) = rnd (IZR z).
Proof.
  intros z Hz. destruct (ffma_norm z 0 false) as [A C]. change (bpow radix2 0) with 1 in *. rewrite Rmult_1_r in *.
  assert (B : Rabs (IZR z) <= bpow radix2 127). { rewrite Rabs_pos_eq by (apply IZR_le; lia). apply Rle_trans with (IZR (2 ^ 40)); [apply IZR_le; lia|]. change (2 ^ 40)%Z with (radix2 ^ 40)%Z. rewrite IZR_Zpower by lia. apply bpow_le. lia. }
  specialize (C (rnd_small _ B)). destruct (A C) as [V Q]. auto.
Qed.
Lemma of_Z64_rnd : forall z, (Z.abs z <= 2 ^ 100)%Z -> finite (f64_of_Z z) /\ f64_valid (f64_of_Z z) = true /\ real (f64_of_Z z) = rnd64 (IZR z).
Proof.
  intros z Hz. unfold f64_of_Z. rewrite normalize_equiv64. pose proof (BinarySingleNaN.binary_normalize_correct 53 1024 _ _ BinarySingleNaN.mode_NE z 0 false) as C. cbn zeta in C.
  assert (R : F2R (Float radix2 z 0) = IZR z) by (unfold F2R; cbn; lra). rewrite R in C.
  rewrite Rlt_bool_true in C.
  - destruct C as [C1 [C2 _]]. split; [apply finite_B64, C2|]. split; [apply B_valid64|]. rewrite real_B2R64, C1. reflexivity.
  - apply small64. rewrite <- abs_IZR. apply Rle_trans with (IZR (2 ^ 100)); [apply IZR_le; lia|]. change (2 ^ 100)%Z with (radix2 ^ 100)%Z. rewrite IZR_Zpower by lia. apply bpow_le. lia.
Qed.

Lemma format_int : forall z, (Z.abs z < 2 ^ 53)%Z -> generic_format radix2 (FLT_exp (-1074) 53) (IZR z).
Proof.
  intros z Hz. replace (IZR z) with (F2R (Float radix2 z 0)) by (unfold F2R; cbn; lra). apply generic_format_FLT. exists (Float radix2 z 0); cbn [Fnum Fexp]; [reflexivity|exact Hz|lia].
Qed.
Lemma exact64 : forall z, (Z.abs z < 2 ^ 53)%Z -> finite (f64_of_Z z) /\ f64_valid (f64_of_Z z) = true /\ real (f64_of_Z z) = IZR z.
Proof.
  intros z Hz. destruct (of_Z64_rnd z ltac:(lia)) as [F [V R]]. split; [exact F|]. split; [exact V|]. rewrite R. apply round_generic; [auto with typeclass_instances|]. now apply format_int.
Qed.
Lemma rnd64_le : forall x y, x <= y -> rnd64 x <= rnd64 y.
Proof. intros x y H. apply round_le; auto with typeclass_instances. Qed.
Lemma rnd64_gen : forall x, generic_format radix2 (FLT_exp (-1074) 53) x -> rnd64 x = x.
Proof. intros x H. apply round_generic; [auto with typeclass_instances|exact H]. Qed.
Lemma rnd64_0 : rnd64 0 = 0.
Proof. apply round_0. auto with typeclass_instances. Qed.
Lemma bp64 : forall k, (-1074 <= k)%Z -> generic_format radix2 (FLT_exp (-1074) 53) (bpow radix2 k).
Proof. intros k H. apply generic_format_bpow'; [auto with typeclass_instances|]. unfold FLT_exp. lia. Qed.

(** ** One word *)
Lemma two32_real : finite (f32_of_Z 4294967296) /\ f32_valid (f32_of_Z 4294967296) = true /\ real (f32_of_Z 4294967296) = bpow radix2 32.
Proof. split; [exact I|]. split; [reflexivity|]. change (f32_of_Z 4294967296) with (S754_finite false 8388608 9). cbn [real]. rewrite pow_bp. change 8388608%Z with (radix2 ^ 23)%Z. rewrite IZR_Zpower by lia. rewrite Rmult_1_l, <- bpow_plus. reflexivity. Qed.
Lemma one_real : real f32_one = 1.
Proof. change 1 with (bpow radix2 0). unfold f32_one. cbn [real]. rewrite pow_bp. change 8388608%Z with (radix2 ^ 23)%Z. rewrite IZR_Zpower by lia. rewrite Rmult_1_l, <- bpow_plus. reflexivity. Qed.
Lemma below_real : real f32_below_one = 1 - bpow radix2 (-24).
Proof.
  unfold f32_below_one. cbn [real]. rewrite pow_bp. replace 16777215 with (IZR (radix2 ^ 24) - 1) by (change (radix2 ^ 24)%Z with 16777216%Z; lra). rewrite IZR_Zpower by lia.
  replace (1 * (bpow radix2 24 - 1) * bpow radix2 (-24)) with (bpow radix2 24 * bpow radix2 (-24) - bpow radix2 (-24)) by ring. rewrite <- bpow_plus. reflexivity.
Qed.
Lemma div_scale : forall x, generic_format radix2 (FLT_exp (-149) 24) x -> 1 <= x \/ x = 0 -> generic_format radix2 (FLT_exp (-149) 24) (x / bpow radix2 32).
Proof.
  intros x Fx [H| ->]; [|unfold Rdiv; rewrite Rmult_0_l; apply generic_format_0].
  unfold Rdiv. rewrite <- bpow_opp. change (- (32))%Z with (-32)%Z. apply FLT_format_generic in Fx; [|reflexivity]. destruct Fx as [[m e] E M _]. cbn [Fnum Fexp] in *.
  assert (He : (-24 < e)%Z).
  { destruct (Z_lt_le_dec (-24) e) as [|Q]; auto. exfalso. assert (x < 1); [|lra]. rewrite E. unfold F2R. cbn [Fnum Fexp]. apply Rlt_le_trans with (bpow radix2 24 * bpow radix2 e).
    - apply Rmult_lt_compat_r; [apply bpow_gt_0|]. rewrite <- IZR_Zpower by lia. apply IZR_lt. lia.
    - rewrite <- bpow_plus. change 1 with (bpow radix2 0). apply bpow_le. lia. }
  apply generic_format_FLT. exists (Float radix2 m (e - 32)); cbn [Fnum Fexp]; [|exact M|lia].
  rewrite E. unfold F2R. cbn [Fnum Fexp]. rewrite Rmult_assoc, <- bpow_plus. reflexivity.
Qed.

(** The quotient is exact: the word rounded to 24 bits, over 2^32. *)
Lemma quot32 : forall x, (x < 2 ^ 32)%N -> let r := fdiv (f32_of_Z (Z.of_N x)) (f32_of_Z 4294967296) in
  finite r /\ f32_valid r = true /\ real r = rnd (IZR (Z.of_N x)) / bpow radix2 32.
Proof.
  intros x Hx r. subst r. change (2 ^ 32)%N with 4294967296%N in Hx. destruct (of_Z_rnd (Z.of_N x) ltac:(lia)) as [F [V R]]. destruct two32_real as [F2 [V2 R2]].
  assert (P2 : 0 < bpow radix2 32) by apply bpow_gt_0. assert (Px : 0 <= IZR (Z.of_N x)) by (apply IZR_le; lia).
  assert (L : rnd (IZR (Z.of_N x)) = 0 \/ 1 <= rnd (IZR (Z.of_N x))).
  { destruct (N.eq_dec x 0) as [->|Nz]; [left; apply rnd_0|right]. rewrite <- rnd_1. apply rnd_le. apply (IZR_le 1). lia. }
  assert (U : rnd (IZR (Z.of_N x)) <= bpow radix2 32).
  { assert (E : rnd (bpow radix2 32) = bpow radix2 32) by (apply round_generic; [auto with typeclass_instances|]; apply generic_format_bpow'; [auto with typeclass_instances|]; unfold FLT_exp; lia). rewrite <- E. apply rnd_le. rewrite <- IZR_Zpower by lia. apply IZR_le. cbn. lia. }
  assert (Q : generic_format radix2 (FLT_exp (-149) 24) (rnd (IZR (Z.of_N x)) / bpow radix2 32)) by (apply div_scale; [apply generic_format_round; auto with typeclass_instances|tauto]).
  assert (E : rnd (real (f32_of_Z (Z.of_N x)) / real (f32_of_Z 4294967296)) = rnd (IZR (Z.of_N x)) / bpow radix2 32) by (rewrite R, R2; apply round_generic; [auto with typeclass_instances|exact Q]).
  assert (B : 0 <= rnd (IZR (Z.of_N x)) / bpow radix2 32 <= 1).
  { split; [apply Rmult_le_pos; [destruct L; lra|apply Rlt_le, Rinv_0_lt_compat, P2]|]. apply Rmult_le_reg_r with (bpow radix2 32); [exact P2|]. unfold Rdiv. rewrite Rmult_assoc, Rinv_l by lra. lra. }
  assert (Fd : finite (fdiv (f32_of_Z (Z.of_N x)) (f32_of_Z 4294967296))).
  { apply fdiv_fin; auto; [rewrite R2; lra|]. rewrite E, Rabs_pos_eq by apply B. apply Rle_lt_trans with (bpow radix2 0); [apply B|apply bpow_lt; lia]. }
  split; [exact Fd|]. destruct (fdiv_rnd (f32_of_Z (Z.of_N x)) (f32_of_Z 4294967296) V V2) as [Vr Rr]; auto; [rewrite R2; lra|]. split; [exact Vr|]. now rewrite Rr, E.
Qed.

(** The canonical number: in [0, 1 - 2^-24], next to the word over 2^32. *)
Lemma unit32 : forall x, (x < 2 ^ 32)%N -> finite (canonical32 x) /\ f32_valid (canonical32 x) = true /\ 0 <= real (canonical32 x) <= 1 - bpow radix2 (-24) /\
  Rabs (real (canonical32 x) - IZR (Z.of_N x) / bpow radix2 32) <= bpow radix2 (-24).
Proof.
  intros x Hx. destruct (quot32 x Hx) as [F [V R]]. set (r := fdiv _ _) in *. assert (Px : 0 <= IZR (Z.of_N x)) by (apply IZR_le; lia). assert (P2 : 0 < bpow radix2 32) by apply bpow_gt_0.
  assert (Ux : IZR (Z.of_N x) <= bpow radix2 32 - 1). { rewrite <- IZR_Zpower by lia. rewrite <- minus_IZR. apply IZR_le. change (radix2 ^ 32 - 1)%Z with 4294967295%Z. change (2 ^ 32)%N with 4294967296%N in Hx. lia. }
  assert (Er : Rabs (rnd (IZR (Z.of_N x)) - IZR (Z.of_N x)) <= bpow radix2 8).
  { destruct (N.eq_dec x 0) as [->|Nz]; [cbn [Z.of_N]; rewrite rnd_0; rewrite Rminus_diag_eq by reflexivity; rewrite Rabs_R0; apply bpow_ge_0|].
    destruct (rnd_normal (IZR (Z.of_N x))) as [d [Hd E]]; [rewrite Rabs_pos_eq by exact Px; apply Rle_trans with (bpow radix2 0); [apply bpow_le; lia|apply (IZR_le 1); lia]|].
    rewrite E. replace (IZR (Z.of_N x) * (1 + d) - IZR (Z.of_N x)) with (IZR (Z.of_N x) * d) by ring. rewrite Rabs_mult, (Rabs_pos_eq (IZR (Z.of_N x))) by exact Px.
    apply Rle_trans with (bpow radix2 32 * bpow radix2 (-24)); [|rewrite <- bpow_plus; apply Rle_refl]. apply Rmult_le_compat; auto; [apply Rabs_pos|lra|]. rewrite ulp_bpow in Hd. replace (bpow radix2 (-24)) with (/ 2 * bpow radix2 (-24 + 1)); [exact Hd|]. change (/ 2) with (bpow radix2 (-1)). rewrite <- bpow_plus. reflexivity. }
  assert (Eq : Rabs (real r - IZR (Z.of_N x) / bpow radix2 32) <= bpow radix2 (-24)).
  { rewrite R. replace (rnd (IZR (Z.of_N x)) / bpow radix2 32 - IZR (Z.of_N x) / bpow radix2 32) with ((rnd (IZR (Z.of_N x)) - IZR (Z.of_N x)) * bpow radix2 (-32)) by (change (-32)%Z with (- (32))%Z; rewrite bpow_opp; field; lra).
    rewrite Rabs_mult, (Rabs_pos_eq (bpow radix2 (-32))) by apply bpow_ge_0. apply Rle_trans with (bpow radix2 8 * bpow radix2 (-32)); [apply Rmult_le_compat_r; [apply bpow_ge_0|exact Er]|]. rewrite <- bpow_plus. apply Rle_refl. }
  assert (Pr : 0 <= real r). { rewrite R. apply Rmult_le_pos; [|apply Rlt_le, Rinv_0_lt_compat, P2]. rewrite <- rnd_0. now apply rnd_le. }
  unfold canonical32. fold r. destruct (fle f32_one r) eqn:Q.
  - apply sle_real in Q; auto; [|exact I]. rewrite one_real in Q. split; [exact I|]. split; [reflexivity|]. rewrite below_real. pose proof (bpow_gt_0 radix2 (-24)) as B.
    assert (B1 : bpow radix2 (-24) <= 1) by (change 1 with (bpow radix2 0); apply bpow_le; lia). split; [lra|]. apply Rabs_le_inv in Eq. apply Rabs_le.
    assert (IZR (Z.of_N x) / bpow radix2 32 <= 1). { apply Rmult_le_reg_r with (bpow radix2 32); [exact P2|]. unfold Rdiv. rewrite Rmult_assoc, Rinv_l by lra. lra. }
    lra.
  - split; [exact F|]. split; [exact V|]. split; [|exact Eq]. split; [exact Pr|].
    assert (Lt : real r < 1). { destruct (Rlt_or_le (real r) 1) as [|L]; auto. rewrite <- one_real in L. apply (proj2 (sle_real f32_one r eq_refl V I F)) in L. congruence. }
    assert (G : generic_format radix2 (FLT_exp (-149) 24) (real r)) by apply real_format, V.
    assert (G1 : generic_format radix2 (FLT_exp (-149) 24) (bpow radix2 0)) by (apply generic_format_bpow'; [auto with typeclass_instances|]; unfold FLT_exp; lia).
    apply (pred_ge_gt radix2 (FLT_exp (-149) 24) _ _ G G1) in Lt. rewrite pred_bpow in Lt. exact Lt.
Qed.

(** ** Two words *)
Lemma two64_real : finite (f64_of_Z 18446744073709551616) /\ f64_valid (f64_of_Z 18446744073709551616) = true /\ real (f64_of_Z 18446744073709551616) = bpow radix2 64.
Proof.
  split; [exact I|]. split; [reflexivity|]. change (f64_of_Z 18446744073709551616) with (S754_finite false 4503599627370496 12). cbn [real]. rewrite pow_bp.
  change 4503599627370496%Z with (radix2 ^ 52)%Z. rewrite IZR_Zpower by lia. rewrite Rmult_1_l, <- bpow_plus. reflexivity.
Qed.
Lemma one64 : finite f64_one /\ f64_valid f64_one = true /\ real f64_one = 1.
Proof. apply (exact64 1). cbn. lia. Qed.
Lemma below64 : real f64_below_one = 1 - bpow radix2 (-53).
Proof.
  unfold f64_below_one. cbn [real]. rewrite pow_bp. replace 9007199254740991 with (IZR (radix2 ^ 53) - 1) by (change (radix2 ^ 53)%Z with 9007199254740992%Z; lra). rewrite IZR_Zpower by lia.
  replace (1 * (bpow radix2 53 - 1) * bpow radix2 (-53)) with (bpow radix2 53 * bpow radix2 (-53) - bpow radix2 (-53)) by ring. rewrite <- bpow_plus. reflexivity.
Qed.
Lemma div_scale64 : forall x, generic_format radix2 (FLT_exp (-1074) 53) x -> 1 <= x \/ x = 0 -> generic_format radix2 (FLT_exp (-1074) 53) (x / bpow radix2 64).
Proof.
  intros x Fx [H| ->]; [|unfold Rdiv; rewrite Rmult_0_l; apply generic_format_0].
  unfold Rdiv. rewrite <- bpow_opp. change (- (64))%Z with (-64)%Z. apply FLT_format_generic in Fx; [|reflexivity]. destruct Fx as [[m e] E M _]. cbn [Fnum Fexp] in *.
  assert (He : (-53 < e)%Z).
  { destruct (Z_lt_le_dec (-53) e) as [|Q]; auto. exfalso. assert (x < 1); [|lra]. rewrite E. unfold F2R. cbn [Fnum Fexp]. apply Rlt_le_trans with (bpow radix2 53 * bpow radix2 e).
    - apply Rmult_lt_compat_r; [apply bpow_gt_0|]. rewrite <- IZR_Zpower by lia. apply IZR_lt. lia.
    - rewrite <- bpow_plus. change 1 with (bpow radix2 0). apply bpow_le. lia. }
  apply generic_format_FLT. exists (Float radix2 m (e - 64)); cbn [Fnum Fexp]; [|exact M|lia].
  rewrite E. unfold F2R. cbn [Fnum Fexp]. rewrite Rmult_assoc, <- bpow_plus. reflexivity.
Qed.

Lemma quot64 : forall x y, (x < 2 ^ 32)%N -> (y < 2 ^ 32)%N ->
  let r := f64_div (f64_add (f64_of_Z (Z.of_N x)) (f64_mul (f64_of_Z (Z.of_N y)) (f64_of_Z 4294967296))) (f64_of_Z 18446744073709551616) in
  finite r /\ f64_valid r = true /\ real r = rnd64 (IZR (Z.of_N (x + y * 2 ^ 32))) / bpow radix2 64.
Proof.
  intros x y Hx Hy r. subst r. change (2 ^ 32)%N with 4294967296%N in *. destruct (exact64 (Z.of_N x) ltac:(lia)) as [Fx [Vx Rx]]. destruct (exact64 (Z.of_N y) ltac:(lia)) as [Fy [Vy Ry]].
  destruct (exact64 4294967296 ltac:(cbn; lia)) as [Fe [Ve Re]]. destruct two64_real as [F2 [V2 R2]].
  assert (E32 : IZR 4294967296 = bpow radix2 32) by (change 4294967296%Z with (radix2 ^ 32)%Z; rewrite IZR_Zpower by lia; reflexivity).
  assert (Px : 0 <= IZR (Z.of_N x)) by (apply IZR_le; lia). assert (Py : 0 <= IZR (Z.of_N y)) by (apply IZR_le; lia).
  assert (Gm : rnd64 (IZR (Z.of_N y) * bpow radix2 32) = IZR (Z.of_N y) * bpow radix2 32).
  { apply rnd64_gen. apply generic_format_FLT. exists (Float radix2 (Z.of_N y) 32); cbn [Fnum Fexp]; [reflexivity|cbn; lia|lia]. }
  assert (By : IZR (Z.of_N y) * bpow radix2 32 <= bpow radix2 64 - bpow radix2 32).
  { replace (bpow radix2 64 - bpow radix2 32) with ((bpow radix2 32 - 1) * bpow radix2 32) by (replace (bpow radix2 64) with (bpow radix2 32 * bpow radix2 32) by (rewrite <- bpow_plus; reflexivity); ring).
    apply Rmult_le_compat_r; [apply bpow_ge_0|]. rewrite <- E32, <- minus_IZR. apply IZR_le. lia. }
  assert (Bx : IZR (Z.of_N x) <= bpow radix2 32 - 1) by (rewrite <- E32, <- minus_IZR; apply IZR_le; lia).
  assert (B64 : bpow radix2 64 <= bpow radix2 1000) by (apply bpow_le; lia). assert (P32 : 0 < bpow radix2 32) by apply bpow_gt_0. assert (P64 : 0 < bpow radix2 64) by apply bpow_gt_0.
  assert (Py2 : 0 <= IZR (Z.of_N y) * bpow radix2 32) by (apply Rmult_le_pos; lra).
  assert (Fm : finite (f64_mul (f64_of_Z (Z.of_N y)) (f64_of_Z 4294967296))) by (apply dmul_fin; auto; rewrite Ry, Re, E32; apply small64; rewrite Rabs_pos_eq; lra).
  destruct (dmul_rnd _ _ Vy Ve Fm) as [Vm Rm]. rewrite Ry, Re, E32, Gm in Rm.
  set (m := f64_mul _ _) in *.
  assert (S : IZR (Z.of_N x) + IZR (Z.of_N y) * bpow radix2 32 = IZR (Z.of_N (x + y * 4294967296))) by (rewrite N2Z.inj_add, N2Z.inj_mul, plus_IZR, mult_IZR; change (Z.of_N 4294967296) with 4294967296%Z; rewrite E32; reflexivity).
  assert (Fa : finite (f64_add (f64_of_Z (Z.of_N x)) m)) by (apply dadd_fin; auto; rewrite Rx, Rm; apply small64; rewrite Rabs_pos_eq; lra).
  destruct (dadd_rnd _ _ Vx Vm Fx Fm Fa) as [Va Ra]. rewrite Rx, Rm, S in Ra. set (a := f64_add _ _) in *.
  set (z := (x + y * 4294967296)%N) in *. assert (Uz : 0 <= IZR (Z.of_N z) <= bpow radix2 64) by (rewrite <- S; lra).
  assert (L : rnd64 (IZR (Z.of_N z)) = 0 \/ 1 <= rnd64 (IZR (Z.of_N z))).
  { destruct (N.eq_dec z 0) as [->|Nz]; [left; apply rnd64_0|right]. rewrite <- (rnd64_gen 1) by (apply (bp64 0); lia). apply rnd64_le. apply (IZR_le 1). lia. }
  assert (U : rnd64 (IZR (Z.of_N z)) <= bpow radix2 64) by (rewrite <- (rnd64_gen (bpow radix2 64)) by (apply bp64; lia); now apply rnd64_le).
  assert (E : rnd64 (real a / real (f64_of_Z 18446744073709551616)) = rnd64 (IZR (Z.of_N z)) / bpow radix2 64).
  { rewrite Ra, R2. apply rnd64_gen. apply div_scale64; [apply generic_format_round; auto with typeclass_instances|tauto]. }
  assert (B : 0 <= rnd64 (IZR (Z.of_N z)) / bpow radix2 64 <= 1).
  { split; [apply Rmult_le_pos; [destruct L; lra|apply Rlt_le, Rinv_0_lt_compat, P64]|]. apply Rmult_le_reg_r with (bpow radix2 64); [exact P64|]. unfold Rdiv. rewrite Rmult_assoc, Rinv_l by lra. lra. }
  assert (Fd : finite (f64_div a (f64_of_Z 18446744073709551616))).
  { apply ddiv_fin; auto; [rewrite R2; lra|]. rewrite E, Rabs_pos_eq by apply B. apply Rle_lt_trans with (bpow radix2 0); [apply B|apply bpow_lt; lia]. }
  split; [exact Fd|]. destruct (ddiv_rnd a (f64_of_Z 18446744073709551616) Va V2) as [Vr Rr]; auto; [rewrite R2; lra|]. split; [exact Vr|]. now rewrite Rr, E.
Qed.

Lemma unit64 : forall x y, (x < 2 ^ 32)%N -> (y < 2 ^ 32)%N -> finite (canonical64 x y) /\ f64_valid (canonical64 x y) = true /\ 0 <= real (canonical64 x y) <= 1 - bpow radix2 (-53).
Proof.
  intros x y Hx Hy. destruct (quot64 x y Hx Hy) as [F [V R]]. set (r := f64_div _ _) in *. assert (P2 : 0 < bpow radix2 64) by apply bpow_gt_0.
  assert (Pr : 0 <= real r). { rewrite R. apply Rmult_le_pos; [|apply Rlt_le, Rinv_0_lt_compat, P2]. rewrite <- rnd64_0. apply rnd64_le. apply IZR_le. lia. }
  destruct one64 as [F1 [V1 R1]]. unfold canonical64. fold r. destruct (SFleb f64_one r) eqn:Q.
  - split; [exact I|]. split; [reflexivity|]. rewrite below64. assert (B1 : bpow radix2 (-53) <= 1) by (change 1 with (bpow radix2 0); apply bpow_le; lia). lra.
  - split; [exact F|]. split; [exact V|]. split; [exact Pr|].
    assert (Lt : real r < 1). { destruct (Rlt_or_le (real r) 1) as [|L]; auto. rewrite <- R1 in L. apply (proj2 (dle_real f64_one r V1 V F1 F)) in L. congruence. }
    apply (pred_ge_gt radix2 (FLT_exp (-1074) 53) _ _ (real_format64 r V) (bp64 0 ltac:(lia))) in Lt. rewrite pred_bpow in Lt. exact Lt.
Qed.

(** ** Darts *)

(** A number below 1 times a sum stays below the sum. *)
Lemma below_sum : forall d s, generic_format radix2 (FLT_exp (-1074) 53) s -> bpow radix2 (-1000) <= s -> d <= 1 - bpow radix2 (-53) -> rnd64 (d * s) < s.
Proof.
  intros d s G Hs Hd. assert (P : 0 < s) by (apply Rlt_le_trans with (2 := Hs); apply bpow_gt_0).
  assert (Lp : pred radix2 (FLT_exp (-1074) 53) s < s) by (apply pred_lt_id; lra).
  apply Rle_lt_trans with (2 := Lp). apply round_N_le_midp; [auto with typeclass_instances|apply generic_format_pred; auto with typeclass_instances|].
  rewrite succ_pred; auto with typeclass_instances.
  assert (Hm : d * s <= s - s * bpow radix2 (-53)). { apply Rle_trans with ((1 - bpow radix2 (-53)) * s); [apply Rmult_le_compat_r; lra|]. right. ring. }
  apply Rle_lt_trans with (1 := Hm). pose proof (bpow_mag_le radix2 s ltac:(lra)) as L. rewrite Rabs_pos_eq in L by lra.
  assert (M : (-1000 < mag radix2 s)%Z). { apply (lt_bpow radix2). apply Rle_lt_trans with (1 := Hs). apply Rle_lt_trans with (Rabs s); [apply Rle_abs|apply bpow_mag_gt]. }
  rewrite pred_eq_pos by lra. unfold pred_pos. set (e := (mag radix2 s : Z)) in *. destruct (Req_bool_spec s (bpow radix2 (e - 1))) as [Q|Q].
  - replace (FLT_exp (-1074) 53 (e - 1)) with (e - 1 - 53)%Z by (unfold FLT_exp; lia). assert (E : s * bpow radix2 (-53) = bpow radix2 (e - 1 - 53)). { rewrite Q at 1. rewrite <- bpow_plus. reflexivity. }
    rewrite E. pose proof (bpow_gt_0 radix2 (e - 1 - 53)). lra.
  - rewrite ulp_neq_0 by lra. unfold cexp. fold e. replace (FLT_exp (-1074) 53 e) with (e - 1 + -53 + 1)%Z by (unfold FLT_exp; lia). rewrite bpow_plus_1. change (IZR radix2) with 2.
    assert (E : bpow radix2 (e - 1 + -53) < s * bpow radix2 (-53)). { rewrite bpow_plus. apply Rmult_lt_compat_r; [apply bpow_gt_0|]. lra. }
    lra.
Qed.

(** The float of a distance as a double. *)
Lemma of_f32_any : forall x, f32_valid x = true -> finite x -> finite (f64_of_f32 x) /\ f64_valid (f64_of_f32 x) = true /\ real (f64_of_f32 x) = real x /\ Rabs (real x) <= bpow radix2 128.
Proof.
  intros x V F. assert (B : Rabs (real x) <= bpow radix2 128).
  { destruct (to_B x V) as [b <-]. rewrite real_B2R. apply Rlt_le. apply (BinarySingleNaN.abs_B2R_lt_emax 24 128). }
  destruct x as [s|s| |s m e]; try (destruct F); [repeat split; exact B|]. cbn [f64_of_f32].
  assert (R : F2R (Float radix2 (SpecFloat.cond_Zopp s (Z.pos m)) e) = real (S754_finite s m e)).
  { unfold F2R. cbn [real Fnum Fexp]. change 2 with (IZR radix2). rewrite <- bpow_powerRZ. destruct s; cbn [SpecFloat.cond_Zopp]; [change (Z.opp (Z.pos m)) with (Z.neg m); change (Z.neg m) with (- Z.pos m)%Z; rewrite opp_IZR|]; ring. }
  rewrite normalize_equiv64. pose proof (BinarySingleNaN.binary_normalize_correct 53 1024 _ _ BinarySingleNaN.mode_NE (SpecFloat.cond_Zopp s (Z.pos m)) e s) as C. cbn zeta in C. rewrite R in C.
  rewrite Rlt_bool_true in C by (apply small64; apply Rle_trans with (1 := B), bpow_le; lia). destruct C as [C1 [C2 _]].
  split; [apply finite_B64, C2|]. split; [apply B_valid64|]. split; [|exact B]. rewrite real_B2R64, C1. apply rnd64_gen. apply format_64. apply real_format. exact V.
Qed.

(** A positive float is at least 2^-149. *)
Lemma least32 : forall x, f32_valid x = true -> 0 < real x -> bpow radix2 (-149) <= real x.
Proof.
  intros [s|s| |s m e] V P; cbn [real] in P; try lra. assert (H := V). unfold f32_valid in H. cbn [valid_binary] in H. unfold bounded in H. apply andb_true_iff in H. destruct H as [H _]. unfold canonical_mantissa in H. apply Zeq_bool_eq in H.
  assert (He : (-149 <= e)%Z) by (rewrite fexp_FLT in H; unfold FLT_exp in H; lia). cbn [real]. rewrite pow_bp in *. destruct s.
  - exfalso. pose proof (Rmult_lt_0_compat (IZR (Z.pos m)) (bpow radix2 e) ltac:(apply IZR_lt; lia) ltac:(apply bpow_gt_0)). lra.
  - apply Rle_trans with (bpow radix2 e); [apply bpow_le, He|]. rewrite Rmult_1_l. rewrite <- (Rmult_1_l (bpow radix2 e)) at 1. apply Rmult_le_compat_r; [apply bpow_ge_0|apply IZR_le; lia].
Qed.

(** The sum of at most 2^53 non-negative floats: finite, and zero or at least 2^-149. *)
Lemma sum_pos : forall l s k, (forall d, In d l -> finite d /\ f32_valid d = true /\ 0 <= real d) -> finite s -> f64_valid s = true -> (Z.of_nat k + Z.of_nat (length l) <= 2 ^ 53)%Z ->
  real s = 0 \/ bpow radix2 (-149) <= real s -> real s <= INR k * bpow radix2 128 ->
  let r := fold_left (fun a d => f64_add a (f64_of_f32 d)) l s in
  finite r /\ f64_valid r = true /\ (real r = 0 \/ bpow radix2 (-149) <= real r) /\ real r <= INR (k + length l) * bpow radix2 128.
Proof.
  induction l as [|d l IH]; intros s k Hl Fs Vs Hk Hz Hb; cbn zeta.
  - cbn [fold_left length]. rewrite Nat.add_0_r. auto.
  - cbn [fold_left length]. cbn [length] in Hk. destruct (Hl d (or_introl eq_refl)) as [Fd [Vd Pd]]. destruct (of_f32_any d Vd Fd) as [Fw [Vw [Rw Bw]]]. rewrite Rabs_pos_eq in Bw by exact Pd.
    assert (Gk : rnd64 (INR (S k) * bpow radix2 128) = INR (S k) * bpow radix2 128).
    { apply rnd64_gen. rewrite INR_IZR_INZ. destruct (Z_le_lt_eq_dec (Z.of_nat (S k)) (2 ^ 53) ltac:(lia)) as [Lt|E].
      - apply generic_format_FLT. exists (Float radix2 (Z.of_nat (S k)) 128); cbn [Fnum Fexp]; [reflexivity|change (radix2 ^ 53)%Z with (2 ^ 53)%Z; lia|lia].
      - rewrite E. change (2 ^ 53)%Z with (radix2 ^ 53)%Z. rewrite IZR_Zpower by lia. rewrite <- bpow_plus. apply bp64. lia. }
    assert (Us : real s + real d <= INR (S k) * bpow radix2 128) by (rewrite S_INR, Rmult_plus_distr_r; lra).
    assert (Ps : 0 <= real s) by (pose proof (bpow_gt_0 radix2 (-149)); lra).
    assert (Ur : rnd64 (real s + real d) <= INR (S k) * bpow radix2 128) by (rewrite <- Gk; now apply rnd64_le).
    assert (Pr : 0 <= rnd64 (real s + real d)) by (rewrite <- rnd64_0; apply rnd64_le; lra).
    assert (Kb : INR (S k) <= bpow radix2 53) by (rewrite INR_IZR_INZ, <- (IZR_Zpower radix2 53) by lia; apply IZR_le; change (radix2 ^ 53)%Z with (2 ^ 53)%Z; lia).
    assert (Fa : finite (f64_add s (f64_of_f32 d))).
    { apply dadd_fin; auto. rewrite Rw, Rabs_pos_eq by exact Pr. apply Rle_lt_trans with (1 := Ur). apply Rle_lt_trans with (bpow radix2 53 * bpow radix2 128); [apply Rmult_le_compat_r; [apply bpow_ge_0|exact Kb]|]. rewrite <- bpow_plus. apply bpow_lt. lia. }
    destruct (dadd_rnd s (f64_of_f32 d) Vs Vw Fs Fw Fa) as [Va Ra]. rewrite Rw in Ra.
    replace (k + S (length l))%nat with (S k + length l)%nat by lia. apply IH; auto.
    + intros e He. apply Hl. now right.
    + lia.
    + rewrite Ra. destruct (Req_dec (real d) 0) as [Zd|Nd].
      * rewrite Zd, Rplus_0_r, rnd64_gen by now apply real_format64. exact Hz.
      * right. rewrite <- (rnd64_gen (bpow radix2 (-149))) by (apply bp64; lia). apply rnd64_le. pose proof (least32 d Vd ltac:(lra)). lra.
    + now rewrite Ra.
Qed.

Lemma zero64 : finite f64_zero /\ f64_valid f64_zero = true /\ real f64_zero = 0.
Proof. repeat split. Qed.
Lemma sfeq0 : forall x, f64_valid x = true -> finite x -> real x = 0 -> SFeqb x f64_zero = true.
Proof.
  intros [s|s| |s m e] V F R; try (destruct F); [destruct s; reflexivity|]. exfalso. cbn [real] in R. rewrite pow_bp in R. pose proof (Rmult_lt_0_compat (IZR (Z.pos m)) (bpow radix2 e) ltac:(apply IZR_lt; lia) ltac:(apply bpow_gt_0)). destruct s; lra.
Qed.

Lemma darts_in_range : forall n pdist words, (Z.of_nat n <= 2 ^ 53)%Z -> (forall i j, (i < n)%nat -> (j < n)%nat -> finite (pdist i j) /\ f32_valid (pdist i j) = true /\ fle f32_zero (pdist i j) = true) ->
  (forall k, (words k < 2 ^ 32)%N) -> LloydSpec.darts_ok n pdist (dart words).
Proof.
  intros n pdist words Hn Hp Hw r l Hl Hd.
  assert (Q : forall d, In d l -> finite d /\ f32_valid d = true /\ 0 <= real d).
  { intros d Id. destruct (Hd d Id) as [i [j [Hi [Hj ->]]]]. destruct (Hp i j Hi Hj) as [F [V L]]. split; [exact F|]. split; [exact V|]. apply (proj1 (sle_real f32_zero (pdist i j) eq_refl V I F)) in L; exact L. }
  destruct (sum_pos l f64_zero 0 Q I eq_refl) as [F [V [Z B]]]; [rewrite Hl; lia|left; reflexivity|cbn [INR real f64_zero]; rewrite Rmult_0_l; apply Rle_refl|].
  fold (sum64 l) in *. destruct Z as [Z|Z]; [left; now apply sfeq0|right].
  destruct (unit64 (words (2 * r)%nat) (words (2 * r + 1)%nat) (Hw _) (Hw _)) as [Fd [Vd [D0 D1]]]. fold (dart words r) in *.
  assert (G : generic_format radix2 (FLT_exp (-1074) 53) (real (sum64 l))) by now apply real_format64.
  assert (Lt : rnd64 (real (dart words r) * real (sum64 l)) < real (sum64 l)) by (apply below_sum; auto; apply Rle_trans with (2 := Z), bpow_le; lia).
  assert (P : 0 < real (sum64 l)) by (apply Rlt_le_trans with (2 := Z), bpow_gt_0).
  assert (P0 : 0 <= rnd64 (real (dart words r) * real (sum64 l))) by (rewrite <- rnd64_0; apply rnd64_le, Rmult_le_pos; lra).
  assert (B64 : real (sum64 l) < bpow radix2 1024).
  { apply Rle_lt_trans with (Rabs (real (sum64 l))); [apply Rle_abs|]. destruct (to_B64 (sum64 l) V) as [b Eb]. rewrite <- Eb, real_B2R64. apply (BinarySingleNaN.abs_B2R_lt_emax 53 1024). }
  assert (Fm : finite (f64_mul (dart words r) (sum64 l))) by (apply dmul_fin; auto; rewrite Rabs_pos_eq by exact P0; lra).
  destruct (dmul_rnd (dart words r) (sum64 l) Vd V Fm) as [Vm Rm]. split.
  - apply dle_real; auto; [exact I|]. rewrite Rm. exact P0.
  - apply dlt_real; auto. rewrite Rm. exact Lt.
Qed.

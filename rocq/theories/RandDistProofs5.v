(** The polar method in real numbers. *)
From Coq Require Import NArith ZArith Reals Lra Lia List Arith Bool Floats.SpecFloat.
From Flocq Require Import Core.
From Verif Require Import Base Bytes Float32 DivFacts FloatBits DistSpec FusedModel RealSpec FloatReal L2ErrorProofs RealDistProofs NormModel NormProofs NormProofs2 MeanProofs3 RandModel RandSpec RandProofs RandProofs2 RandDistModel RandDistSpec RandDistProofs3.
Import ListNotations.
Local Open Scope R_scope.

(** ** The logarithm *)
Lemma ln2_small : ln 2 <= 708 / 1000.
Proof.
  rewrite <- (ln_exp (708 / 1000)). apply Rlt_le. apply ln_increasing; [lra|].
  replace (708 / 1000) with (INR 32 * (708 / 32000)) by (replace (INR 32) with 32 by (cbn; lra); lra).
  assert (P : forall n x, exp (INR n * x) = exp x ^ n). { intros n x. induction n as [|n IH]; [cbn [INR pow]; rewrite Rmult_0_l; apply exp_0|]. rewrite S_INR, Rmult_plus_distr_r, Rmult_1_l, exp_plus, IH. cbn [pow]. ring. }
  rewrite P. apply Rlt_le_trans with ((1 + 708 / 32000) ^ 32); [|apply pow_incr; split; [lra|]; apply Rlt_le, exp_ineq1; lra].
  assert (A : (1 + 708 / 32000) ^ 32 = ((((1 + 708 / 32000) ^ 2) ^ 2) ^ 2) ^ 4) by (rewrite <- !pow_mult; reflexivity).
  rewrite A. lra.
Qed.
Lemma ln_range : forall x, bpow radix2 (-48) <= x <= 1 -> - (48 * (708 / 1000)) <= ln x <= x - 1.
Proof.
  intros x [A B]. assert (P : 0 < x) by (eapply Rlt_le_trans; [apply bpow_gt_0|exact A]). split.
  - assert (E : ln (bpow radix2 (-48)) = - (48 * ln 2)). { change (-48)%Z with (- (48))%Z. rewrite bpow_opp, ln_Rinv by apply bpow_gt_0. f_equal. rewrite <- IZR_Zpower by lia. replace (IZR (radix2 ^ 48)) with (2 ^ 48) by (cbn; lra). rewrite ln_pow by lra. cbn [INR]. lra. }
    pose proof ln2_small. assert (L : ln (bpow radix2 (-48)) <= ln x). { destruct A as [A|A]; [left; apply ln_increasing; [apply bpow_gt_0|exact A]|rewrite A; apply Rle_refl]. } lra.
  - destruct (Req_dec x 1) as [->|N]; [rewrite ln_1; lra|]. rewrite <- (ln_exp (x - 1)). left. apply ln_increasing; [exact P|]. pose proof (exp_ineq1 (x - 1) ltac:(lra)). lra.
Qed.
Lemma below_one : forall r, f32_valid r = true -> real r < 1 -> real r <= 1 - bpow radix2 (-24).
Proof.
  intros r V L. pose proof (real_format r V) as G. assert (G1 : generic_format radix2 (FLT_exp (-149) 24) 1) by (change 1 with (bpow radix2 0); apply format_bp; lia).
  pose proof (pred_ge_gt radix2 (FLT_exp (-149) 24) _ _ G G1 L) as Q. change 1 with (bpow radix2 0) in Q at 1. rewrite pred_bpow in Q. exact Q.
Qed.
Lemma small22 : 0 < bpow radix2 (-22) <= / 4000000 /\ bpow radix2 (-22) = 4 * bpow radix2 (-24) /\ bpow radix2 (-20) = 16 * bpow radix2 (-24) /\ powerRZ 2 (-24) = bpow radix2 (-24).
Proof.
  split; [split; [apply bpow_gt_0|]|].
  - change (-22)%Z with (- (22))%Z. rewrite bpow_opp. apply Rinv_le; [lra|]. rewrite <- IZR_Zpower by lia. apply IZR_le. cbn. lia.
  - split; [change (-22)%Z with (-24 + 2)%Z; rewrite bpow_plus; change (bpow radix2 2) with 4; ring|]. split; [change (-20)%Z with (-24 + 4)%Z; rewrite bpow_plus; change (bpow radix2 4) with 16; ring|apply pow_bp].
Qed.
Lemma near_ex : forall e a b, 0 <= e -> near e a b -> exists d, Rabs d <= e /\ a = b * (1 + d).
Proof.
  intros e a b He H. unfold near in H. destruct (Req_dec b 0) as [->|N].
  - exists 0. rewrite Rabs_R0 in *. split; [lra|]. rewrite Rmult_0_r, Rminus_0_r in H. pose proof (Rabs_pos a). destruct (Req_dec a 0) as [->|Na]; [ring|]. apply Rabs_no_R0 in Na. lra.
  - exists ((a - b) / b). split; [|field; exact N]. unfold Rdiv. rewrite Rabs_mult, Rabs_inv. apply Rabs_no_R0 in N as P. pose proof (Rabs_pos b). apply Rmult_le_reg_r with (Rabs b); [lra|]. rewrite Rmult_assoc, Rinv_l by exact P. lra.
Qed.
Lemma ex_near : forall e a b d, Rabs d <= e -> a = b * (1 + d) -> near e a b.
Proof. intros e a b d H ->. unfold near. replace (b * (1 + d) - b) with (d * b) by ring. rewrite Rabs_mult. apply Rmult_le_compat_r; [apply Rabs_pos|exact H]. Qed.

Lemma near_log_ok : forall logf, log_near logf -> log_ok logf.
Proof.
  intros logf H r F V B. destruct (H r F V B) as [Fl [Vl N]]. split; [exact Fl|]. split; [exact Vl|]. rewrite !pow_bp in *. destruct (ln_range _ B) as [L1 L2]. destruct small22 as [[S1 S2] _]. destruct (near_ex _ _ _ (Rlt_le _ _ S1) N) as [d [Hd E]]. rewrite E. apply Rabs_le_inv in Hd. split; nra.
Qed.

(** A library that rounds the logarithm to the nearest. *)
Definition round_log (r : f32) : f32 :=
  let t := rnd (ln (real r)) in binary_normalize 24 128 (Ztrunc (scaled_mantissa radix2 (FLT_exp (-149) 24) t)) (cexp radix2 (FLT_exp (-149) 24) t) false.
Lemma below_zero : forall r, f32_valid r = true -> bpow radix2 (-48) <= real r <= 1 -> real r = 1 \/ ln (real r) <= - bpow radix2 (-24).
Proof. intros r V B. destruct (Req_dec (real r) 1) as [E|N]; [now left|right]. pose proof (below_one r V ltac:(lra)). pose proof (ln_range _ B). lra. Qed.
Lemma round_log_near : log_near round_log.
Proof.
  intros r F V B. rewrite !pow_bp in *. pose proof (ln_range _ B) as [L1 L2]. set (t := rnd (ln (real r))). assert (G : generic_format radix2 (FLT_exp (-149) 24) t) by (apply generic_format_round; auto with typeclass_instances).
  assert (E : IZR (Ztrunc (scaled_mantissa radix2 (FLT_exp (-149) 24) t)) * bpow radix2 (cexp radix2 (FLT_exp (-149) 24) t) = t) by (symmetry; exact G).
  assert (Rt : rnd t = t) by (apply round_generic; auto with typeclass_instances).
  destruct (ffma_norm (Ztrunc (scaled_mantissa radix2 (FLT_exp (-149) 24) t)) (cexp radix2 (FLT_exp (-149) 24) t) false) as [N1 N2]. rewrite E, Rt in N1, N2. fold t in N1, N2.
  assert (Fl : finite (round_log r)). { apply N2. unfold t. apply rnd_small. apply Rle_trans with (bpow radix2 6); [change (bpow radix2 6) with 64; apply Rabs_le; lra|apply bpow_le; lia]. }
  destruct (N1 Fl) as [Vl Rl]. change (real (round_log r) = t) in Rl. split; [exact Fl|]. split; [exact Vl|]. rewrite Rl. unfold t. destruct small22 as [S1 [S2 [_ U]]].
  destruct (below_zero r V B) as [Q|Q].
  - rewrite Q, ln_1, rnd_0. unfold near. rewrite Rminus_0_r, Rabs_R0. lra.
  - destruct (rnd_normal (ln (real r))) as [d [Hd ->]].
    + rewrite Rabs_left1 by (pose proof (bpow_gt_0 radix2 (-24)); lra). apply Rle_trans with (bpow radix2 (-24)); [apply bpow_le; lia|lra].
    + unfold ulp in Hd. rewrite U in Hd. apply (ex_near _ _ _ d); [lra|reflexivity].
Qed.

(** ** The factor *)
Lemma sqrt_near : forall e, Rabs e <= / 2 -> exists d, Rabs d <= Rabs e /\ sqrt (1 + e) = 1 + d.
Proof.
  intros e He. exists (sqrt (1 + e) - 1). split; [|ring]. apply Rabs_le_inv in He. assert (P : 0 <= sqrt (1 + e)) by apply sqrt_pos. assert (Q : sqrt (1 + e) * sqrt (1 + e) = 1 + e) by (apply sqrt_sqrt; lra).
  assert (K : (sqrt (1 + e) - 1) * (sqrt (1 + e) + 1) = e) by (ring_simplify; lra). rewrite <- K at 2. rewrite Rabs_mult. rewrite <- (Rmult_1_r (Rabs (sqrt (1 + e) - 1))) at 1. apply Rmult_le_compat_l; [apply Rabs_pos|]. rewrite Rabs_pos_eq by lra. lra.
Qed.
Lemma mult_near : forall logf r, log_near logf -> finite r -> f32_valid r = true -> bpow radix2 (-48) <= real r <= 1 ->
  let m := polar_mult logf r in finite m /\ f32_valid m = true /\ (real m = 0 \/ bpow radix2 (-14) <= real m) /\ exists d, Rabs d <= 8 * bpow radix2 (-24) /\ real m = sqrt (-2 * ln (real r) / real r) * (1 + d).
Proof.
  intros logf r HL F V B m. pose proof (near_log_ok logf HL) as HO. destruct (mult_ok logf r HO F V B) as [Fm [Vm _]]. fold m in Fm, Vm. split; [exact Fm|]. split; [exact Vm|].
  destruct (HL r F V) as [Fl [Vl Nl]]; [rewrite pow_bp; exact B|]. destruct small22 as [[S1 S2] [S22 [S20 U]]]. rewrite pow_bp in Nl. destruct (near_ex _ _ _ (Rlt_le _ _ S1) Nl) as [d0 [H0 E0]].
  unfold log_ok in HO. rewrite pow_bp in HO. destruct (HO r F V B) as [_ [_ Bl]].
  destruct ntwo_ok as [F2 [V2 R2]]. assert (Pr : 0 < real r) by (eapply Rlt_le_trans; [apply bpow_gt_0|apply B]). set (l := logf r) in *. set (u := bpow radix2 (-24)) in *. assert (Pu : 0 < u) by apply bpow_gt_0.
  assert (Small : forall k x, (k <= 127)%Z -> Rabs x <= bpow radix2 k -> Rabs (rnd x) < bpow radix2 128) by (intros k x Hk Hx; apply rnd_small; eapply Rle_trans; [exact Hx|apply bpow_le; lia]).
  assert (Fa : finite (fmul (f32_of_Z (-2)) l)). { apply fmul_fin; auto. rewrite R2. apply (Small 7%Z); [lia|]. change (bpow radix2 7) with 128. apply Rabs_le. lra. }
  destruct (fmul_rnd _ _ V2 Vl Fa) as [Va Ra]. rewrite R2 in Ra. set (a := fmul _ l) in *.
  assert (Ir2 : / real r <= bpow radix2 48). { replace (bpow radix2 48) with (/ bpow radix2 (-48)) by (rewrite <- bpow_opp; reflexivity). apply Rinv_le; [apply bpow_gt_0|apply B]. }
  assert (Ir : 1 <= / real r) by (rewrite <- Rinv_1; apply Rinv_le; lra).
  assert (E68 : rnd 68 = 68) by (destruct (int_rnd 68) as [H _]; [lia|exact H]). assert (Ba : 0 <= real a <= 68). { rewrite Ra. split; [rewrite <- rnd_0; apply rnd_le; lra|rewrite <- E68; apply rnd_le; lra]. }
  assert (Fq : finite (fdiv a r)). { apply fdiv_fin; auto; [lra|]. apply (Small 55%Z); [lia|]. unfold Rdiv. rewrite Rabs_pos_eq by (apply Rmult_le_pos; lra). change 55%Z with (7 + 48)%Z. rewrite bpow_plus. apply Rmult_le_compat; try lra. change (bpow radix2 7) with 128. lra. }
  destruct (fdiv_rnd a r Va V ltac:(lra) Fq) as [Vq Rq]. set (q := fdiv a r) in *. destruct (fsqrt_rnd q Vq) as [_ [Rm _]]. change (real m = rnd (sqrt (real q))) in Rm.
  destruct (below_zero r V B) as [Q|Q].
  - rewrite Q, ln_1 in *. assert (Z0 : real l = 0) by (rewrite E0; ring). rewrite Z0 in Ra. rewrite Rmult_0_r, rnd_0 in Ra. rewrite Ra in Rq. unfold Rdiv in Rq. rewrite Rmult_0_l, rnd_0 in Rq. rewrite Rq, sqrt_0, rnd_0 in Rm. split; [now left|]. exists 0. rewrite Rabs_R0. split; [lra|]. rewrite Rm. replace (-2 * 0 / 1) with 0 by field. rewrite sqrt_0. ring.
  - fold u in Q. assert (Ul : u <= / 4000000) by lra. apply Rabs_le_inv in H0. set (L := - ln (real r)) in *. assert (PL : u <= L) by (unfold L; lra). assert (El : - real l = L * (1 + d0)) by (rewrite E0; unfold L; ring).
    assert (Low : / 2 * u <= - real l) by (rewrite El; nra).
    assert (N126 : bpow radix2 (-126) <= / 2 * u). { change (/ 2) with (bpow radix2 (-1)). unfold u. rewrite <- bpow_plus. apply bpow_le. lia. }
    destruct (rnd_normal (-2 * real l)) as [d1 [H1 E1]]; [rewrite Rabs_pos_eq by lra; lra|]. rewrite E1 in Ra. unfold ulp in H1. rewrite U in H1. apply Rabs_le_inv in H1.
    assert (La : / 2 * u <= real a) by (rewrite Ra; nra).
    destruct (rnd_normal (real a / real r)) as [d2 [H2 E2]]; [unfold Rdiv; rewrite Rabs_pos_eq by (apply Rmult_le_pos; lra); nra|]. rewrite E2 in Rq. unfold ulp in H2. rewrite U in H2. apply Rabs_le_inv in H2.
    set (Qr := -2 * ln (real r) / real r). assert (PQ : 2 * u <= Qr). { unfold Qr, Rdiv. replace (-2 * ln (real r)) with (2 * L) by (unfold L; ring). nra. }
    set (e := (1 + d0) * (1 + d1) * (1 + d2) - 1). assert (Eq : real q = Qr * (1 + e)). { rewrite Rq, Ra. unfold Qr, e. rewrite E0. field. lra. }
    assert (He : Rabs e <= 6 * u + u / 2). { replace e with (d0 + d1 + d2 + d0 * d1 + d0 * d2 + d1 * d2 + d0 * d1 * d2) by (unfold e; ring).
      assert (T0 : Rabs d0 <= 4 * u) by (apply Rabs_le; lra). assert (T1 : Rabs d1 <= u) by (apply Rabs_le; lra). assert (T2 : Rabs d2 <= u) by (apply Rabs_le; lra).
      assert (M01 : Rabs (d0 * d1) <= u / 1000). { rewrite Rabs_mult. apply Rle_trans with (4 * u * u); [apply Rmult_le_compat; try apply Rabs_pos; lra|nra]. }
      assert (M02 : Rabs (d0 * d2) <= u / 1000). { rewrite Rabs_mult. apply Rle_trans with (4 * u * u); [apply Rmult_le_compat; try apply Rabs_pos; lra|nra]. }
      assert (M12 : Rabs (d1 * d2) <= u / 1000). { rewrite Rabs_mult. apply Rle_trans with (u * u); [apply Rmult_le_compat; try apply Rabs_pos; lra|nra]. }
      assert (M012 : Rabs (d0 * d1 * d2) <= u / 1000). { rewrite Rabs_mult. apply Rle_trans with (u / 1000 * 1); [apply Rmult_le_compat; try apply Rabs_pos; lra|lra]. }
      repeat (eapply Rle_trans; [apply Rabs_triang|]; try apply Rplus_le_compat_r). apply Rabs_le_inv in T0, T1, T2, M01, M02, M12, M012. unfold Rabs; repeat destruct (Rcase_abs _); lra. }
    destruct (sqrt_near e) as [d3 [H3 E3]]; [lra|]. assert (Es : sqrt (real q) = sqrt Qr * (1 + d3)) by (rewrite Eq, sqrt_mult_alt by lra; now rewrite E3).
    assert (LQ : bpow radix2 (-12) <= sqrt Qr). { rewrite <- (sqrt_square (bpow radix2 (-12))) by apply bpow_ge_0. apply sqrt_le_1_alt. rewrite <- bpow_plus. change (-12 + -12)%Z with (-24)%Z. fold u. lra. }
    assert (P12 : 0 < bpow radix2 (-12)) by apply bpow_gt_0. apply Rabs_le_inv in H3 as H3'. assert (A3 : - (7 * u) <= d3 <= 7 * u) by lra.
    assert (Ls : bpow radix2 (-13) <= sqrt (real q)). { rewrite Es. change (-13)%Z with (-1 + -12)%Z. rewrite bpow_plus. change (bpow radix2 (-1)) with (/ 2). nra. }
    destruct (rnd_normal (sqrt (real q))) as [d4 [H4 E4]]; [rewrite Rabs_pos_eq by apply sqrt_pos; eapply Rle_trans; [|exact Ls]; apply bpow_le; lia|]. unfold ulp in H4. rewrite U in H4. apply Rabs_le_inv in H4.
    split. { right. rewrite Rm. change (-14)%Z with (-1 + -13)%Z. rewrite bpow_plus. change (bpow radix2 (-1)) with (/ 2). rewrite E4. pose proof (bpow_gt_0 radix2 (-13)). nra. }
    exists (d3 + d4 + d3 * d4). split; [|rewrite Rm, E4, Es; ring].
    assert (T3 : Rabs d3 <= 6 * u + u / 2) by lra. assert (T4 : Rabs d4 <= u) by (apply Rabs_le; lra). assert (M : Rabs (d3 * d4) <= u / 1000). { rewrite Rabs_mult. apply Rle_trans with (7 * u * u); [apply Rmult_le_compat; try apply Rabs_pos; lra|nra]. }
    apply Rabs_le_inv in T3, T4, M. apply Rabs_le. lra.
Qed.

(** ** The numbers *)
Lemma param_exact : forall z, finite z -> f32_valid z = true -> Rabs (real z) <= 64 -> real (normal_param z) = real z.
Proof.
  intros u F1 V1 W. assert (B64 : 64 = bpow radix2 6) by reflexivity. assert (Lt : bpow radix2 6 <= bpow radix2 127) by (apply bpow_le; lia). rewrite B64 in W.
  assert (F2 : finite (fmul u f32_one)). { apply fmul_fin; [exact V1|reflexivity|exact F1|exact I|]. rewrite one_real, Rmult_1_r. apply rnd_small. lra. }
  destruct (fmul_rnd u f32_one V1 eq_refl F2) as [V2 R2]. rewrite one_real, Rmult_1_r, rnd_fmt in R2 by exact V1.
  assert (F3 : finite (fadd (fmul u f32_one) f32_zero)). { apply fadd_fin; [exact V2|reflexivity|exact F2|exact I|]. cbn [real f32_zero]. rewrite R2, Rplus_0_r. apply rnd_small. lra. }
  destruct (fadd_rnd _ f32_zero V2 eq_refl F2 I F3) as [V3 R3]. cbn [real f32_zero] in R3. rewrite R2, Rplus_0_r, rnd_fmt in R3 by exact V1. exact R3.
Qed.
Lemma scaled_near : forall logf r z, log_near logf -> finite r -> f32_valid r = true -> bpow radix2 (-48) <= real r <= 1 -> finite z -> f32_valid z = true -> (real z = 0 \/ bpow radix2 (-24) <= Rabs (real z)) -> real z ^ 2 <= 2 * real r ->
  near (powerRZ 2 (-20)) (real (normal_param (fmul z (polar_mult logf r)))) (real z * sqrt (-2 * ln (real r) / real r)).
Proof.
  intros logf r z HL F V B Fz Vz Zz Hz. destruct (mult_near logf r HL F V B) as [Fm [Vm [Zm [d [Hd Em]]]]]. destruct (mult_ok logf r (near_log_ok logf HL) F V B) as [_ [_ [Pm [M2 _]]]]. set (m := polar_mult logf r) in *. assert (Pr : 0 < real r) by (eapply Rlt_le_trans; [apply bpow_gt_0|apply B]).
  assert (P : Rabs (real z * real m) <= 64).
  { assert (S : (real z * real m) ^ 2 <= 64 ^ 2). { rewrite Rpow_mult_distr. apply Rle_trans with (2 * real r * real m ^ 2); [apply Rmult_le_compat_r; [apply pow2_ge_0|exact Hz]|]. nra. } apply Rabs_le. split; nra. }
  assert (B64 : 64 = bpow radix2 6) by reflexivity. rewrite B64 in P. assert (Lt : bpow radix2 6 <= bpow radix2 127) by (apply bpow_le; lia). pose proof (rnd_within 6 _ ltac:(lia) P) as W.
  assert (F1 : finite (fmul z m)) by (apply fmul_fin; auto; apply rnd_small; lra). destruct (fmul_rnd z m Vz Vm F1) as [V1 R1]. rewrite param_exact; auto; [|rewrite R1, B64; exact W]. rewrite R1, pow_bp.
  destruct small22 as [[S1 S2] [S22 [S20 U]]]. set (u := bpow radix2 (-24)) in *. assert (Pu : 0 < u) by apply bpow_gt_0. set (t := sqrt _) in *.
  assert (K : real z * real m = 0 \/ bpow radix2 (-38) <= Rabs (real z * real m)).
  { destruct Zz as [->|Zz]; [left; ring|]. destruct Zm as [->|Zm]; [left; ring|]. right. rewrite Rabs_mult, (Rabs_pos_eq (real m)) by exact Pm. change (-38)%Z with (-24 + -14)%Z. rewrite bpow_plus. apply Rmult_le_compat; auto; apply bpow_ge_0. }
  assert (T : Rabs d <= 8 * u) by exact Hd. destruct K as [K|K].
  - rewrite K, rnd_0. rewrite Em in K. assert (Z0 : real z * t = 0). { apply Rabs_le_inv in T. assert (D : 1 + d <> 0) by lra. apply Rmult_eq_reg_r with (1 + d); [|exact D]. rewrite Rmult_0_l, <- K. ring. } unfold near. rewrite Z0, Rminus_0_r, Rabs_R0. lra.
  - destruct (rnd_normal (real z * real m)) as [d2 [H2 E2]]; [eapply Rle_trans; [|exact K]; apply bpow_le; lia|]. unfold ulp in H2. rewrite U in H2. apply (ex_near _ _ _ (d + d2 + d * d2)); [|rewrite E2, Em; ring].
    assert (M : Rabs (d * d2) <= u). { rewrite Rabs_mult. apply Rle_trans with (8 * u * u); [apply Rmult_le_compat; try apply Rabs_pos; lra|nra]. } apply Rabs_le_inv in T, H2, M. apply Rabs_le. rewrite S20. lra.
Qed.
Lemma square_near : forall x, finite x -> f32_valid x = true -> Rabs (real x) <= 1 -> (real x = 0 \/ bpow radix2 (-24) <= Rabs (real x)) -> exists d, Rabs d <= bpow radix2 (-24) /\ real (fmul x x) = real x ^ 2 * (1 + d).
Proof.
  intros x F V B Z. destruct (square_ok x F V B) as [_ [_ [R _]]]. destruct small22 as [_ [_ [_ U]]]. rewrite R. destruct Z as [Z|Z].
  - exists 0. rewrite Z, Rabs_R0. split; [apply bpow_ge_0|]. replace (0 ^ 2) with 0 by ring. rewrite rnd_0. ring.
  - destruct (rnd_normal (real x ^ 2)) as [d [Hd E]]; [|exists d; unfold ulp in Hd; rewrite U in Hd; auto]. rewrite <- RPow_abs. apply Rle_trans with (bpow radix2 (-24) * bpow radix2 (-24)); [rewrite <- bpow_plus; apply bpow_le; lia|]. pose proof (bpow_gt_0 radix2 (-24)). nra.
Qed.
Lemma round_sum : forall s t, 0 <= t -> (t = 0 \/ bpow radix2 (-48) <= t) -> (exists d, Rabs d <= 2 * bpow radix2 (-24) /\ s = t * (1 + d)) -> near (bpow radix2 (-22)) (rnd s) t.
Proof.
  intros s t P Z [d [Hd ->]]. destruct small22 as [[S1 S2] [S22 [_ U]]]. set (u := bpow radix2 (-24)) in *. assert (Pu : 0 < u) by apply bpow_gt_0. destruct Z as [->|Z].
  - rewrite Rmult_0_l, rnd_0. unfold near. rewrite Rminus_0_r, Rabs_R0. lra.
  - apply Rabs_le_inv in Hd as Hd'. assert (Q : / 2 * t <= t * (1 + d)) by nra. destruct (rnd_normal (t * (1 + d))) as [d2 [H2 E2]].
    + rewrite Rabs_pos_eq by lra. apply Rle_trans with (/ 2 * t); [|exact Q]. apply Rle_trans with (bpow radix2 (-1) * bpow radix2 (-48)); [rewrite <- bpow_plus; apply bpow_le; lia|]. change (bpow radix2 (-1)) with (/ 2). lra.
    + unfold ulp in H2. rewrite U in H2. apply (ex_near _ _ _ (d + d2 + d * d2)); [|rewrite E2; ring]. assert (M : Rabs (d * d2) <= u). { rewrite Rabs_mult. apply Rle_trans with (2 * u * u); [apply Rmult_le_compat; try apply Rabs_pos; lra|nra]. }
      apply Rabs_le_inv in H2, M. apply Rabs_le. rewrite S22. lra.
Qed.
Lemma weigh : forall p q a b e, 0 <= p -> 0 <= q -> 0 <= e -> Rabs a <= e -> Rabs b <= e -> exists d, Rabs d <= 2 * e /\ p * (1 + a) + q * (1 + b) = (p + q) * (1 + d).
Proof.
  intros p q a b e Hp Hq He Ha Hb. apply Rabs_le_inv in Ha, Hb. destruct (Req_dec (p + q) 0) as [Z|N].
  - exists 0. assert (p = 0) by lra. assert (q = 0) by lra. subst. rewrite Rabs_R0. split; [lra|ring].
  - assert (P : 0 < p + q) by lra. exists ((p * a + q * b) / (p + q)). split; [|field; lra]. apply Rle_trans with e; [|lra]. apply Rabs_le. split.
    + apply Rmult_le_reg_r with (p + q); [exact P|]. unfold Rdiv. rewrite Rmult_assoc, Rinv_l by lra. nra.
    + apply Rmult_le_reg_r with (p + q); [exact P|]. unfold Rdiv. rewrite Rmult_assoc, Rinv_l by lra. nra.
Qed.
Lemma r2_near : forall way x y, (forall z, z = x \/ z = y -> finite z /\ f32_valid z = true /\ Rabs (real z) <= 1 /\ (real z = 0 \/ bpow radix2 (-24) <= Rabs (real z))) ->
  near (bpow radix2 (-22)) (real (polar_r2 way x y)) (real x ^ 2 + real y ^ 2).
Proof.
  intros way x y H. destruct (r2_ok way x y H) as [Fr _]. destruct (H x (or_introl eq_refl)) as [Fx [Vx [Bx Zx]]]. destruct (H y (or_intror eq_refl)) as [Fy [Vy [By Zy]]]. destruct (square_ok x Fx Vx Bx) as [Fxx [Vxx _]]. destruct (square_ok y Fy Vy By) as [Fyy [Vyy _]].
  destruct (square_near x Fx Vx Bx Zx) as [a [Ha Ea]]. destruct (square_near y Fy Vy By Zy) as [b [Hb Eb]]. pose proof (pow2_ge_0 (real x)) as Px. pose proof (pow2_ge_0 (real y)) as Py.
  assert (Sq : forall z, real z = 0 \/ bpow radix2 (-24) <= Rabs (real z) -> real z ^ 2 = 0 \/ bpow radix2 (-48) <= real z ^ 2).
  { intros z [Q|Q]; [left; rewrite Q; ring|right]. rewrite <- (Rabs_pos_eq (real z ^ 2)) by apply pow2_ge_0. rewrite <- RPow_abs. change (-48)%Z with (-24 + -24)%Z. rewrite bpow_plus. pose proof (bpow_gt_0 radix2 (-24)). nra. }
  assert (Z : real x ^ 2 + real y ^ 2 = 0 \/ bpow radix2 (-48) <= real x ^ 2 + real y ^ 2) by (destruct (Sq x Zx), (Sq y Zy); (left; lra) || (right; lra)).
  assert (P24 : 0 <= bpow radix2 (-24)) by apply bpow_ge_0. assert (A0 : Rabs 0 <= bpow radix2 (-24)) by (rewrite Rabs_R0; exact P24).
  destruct way; unfold polar_r2 in *.
  - destruct (fadd_rnd _ _ Vxx Vyy Fxx Fyy Fr) as [_ ->]. apply round_sum; [lra|exact Z|]. rewrite Ea, Eb. apply weigh; auto.
  - destruct (ffma_rnd _ _ _ Fx Fx Fyy Fr) as [_ ->]. apply round_sum; [lra|exact Z|]. rewrite Eb. destruct (weigh (real x ^ 2) (real y ^ 2) 0 b _ Px Py P24 A0 Hb) as [d [Hd Ed]]. exists d. split; [exact Hd|]. rewrite <- Ed. ring.
  - destruct (ffma_rnd _ _ _ Fy Fy Fxx Fr) as [_ ->]. apply round_sum; [lra|exact Z|]. rewrite Ea. destruct (weigh (real x ^ 2) (real y ^ 2) a 0 _ Px Py P24 Ha A0) as [d [Hd Ed]]. exists d. split; [exact Hd|]. rewrite <- Ed. ring.
Qed.
Lemma coord_near : forall w, (w < 2 ^ 32)%N -> Rabs (real (polar_coord w) - (2 * fraction w - 1)) <= powerRZ 2 (-22).
Proof.
  intros w Hw. destruct (cube_range w Hw) as [_ [_ C]]. assert (E : real (polar_coord w) = real (cube_value w)); [|now rewrite E].
  destruct (twice_fin w Hw) as [[Fa [Va Ra]] [Fb [Vb Rb]]]. destruct (twice_less w Hw) as [E [G T]]. rewrite E in G, T. destruct (less_one _ G T) as [B Z]. assert (B23 : 0 < bpow radix2 (-23)) by apply bpow_gt_0.
  destruct (cube_range w Hw) as [Fc _]. destruct (coord_ok w Hw) as [Fp _]. unfold cube_value, uniform32, polar_coord in *. change (fsub f32_one (fneg f32_one)) with (f32_of_Z 2) in *.
  assert (N1 : real (fneg f32_one) = -1). { pose proof one_real as O. unfold f32_one in O. change (fneg f32_one) with (S754_finite true 8388608 (-23)). cbn [real] in O |- *. lra. }
  destruct (fadd_rnd _ (fneg f32_one) Va eq_refl Fa I Fc) as [_ ->]. destruct (fsub_rnd _ f32_one Vb eq_refl Fb I Fp) as [_ ->]. rewrite Ra, Rb, N1, one_real. reflexivity.
Qed.
Lemma rejected_real : forall r, finite r -> f32_valid r = true -> (real r = 0 \/ bpow radix2 (-48) <= real r) -> (rejected r = true <-> real r = 0 \/ 1 < real r).
Proof.
  intros r F V Z. split.
  - intros H. unfold rejected in H. apply orb_true_iff in H as [H|H].
    + right. rewrite <- one_real. now apply (proj1 (flt_real f32_one r eq_refl V I F)).
    + left. destruct r as [s|s| |s m e]; try reflexivity; try discriminate; destruct s; discriminate.
  - intros H. destruct (rejected r) eqn:E; [reflexivity|]. pose proof (kept_range r F V Z E) as K. pose proof (bpow_gt_0 radix2 (-48)). lra.
Qed.

Lemma pair_meaning : forall logf way words i, log_near logf -> (forall k, (words k < 2 ^ 32)%N) -> exists x y s,
  (Rabs (x - (2 * fraction (words (2 * i)%nat) - 1)) <= powerRZ 2 (-22) /\ Rabs (y - (2 * fraction (words (2 * i + 1)%nat) - 1)) <= powerRZ 2 (-22) /\ near (powerRZ 2 (-22)) s (x ^ 2 + y ^ 2) /\
  ((s = 0 \/ 1 < s) /\ pair_numbers logf way words i = [] \/
   (0 < s <= 1 /\ exists a b, pair_numbers logf way words i = [a; b] /\ near (powerRZ 2 (-20)) (real a) (y * sqrt (-2 * ln s / s)) /\ near (powerRZ 2 (-20)) (real b) (x * sqrt (-2 * ln s / s)))))%R.
Proof.
  intros logf way words i HL HW. set (x := polar_coord (words (2 * i)%nat)). set (y := polar_coord (words (2 * i + 1)%nat)). assert (C : forall z, z = x \/ z = y -> finite z /\ f32_valid z = true /\ Rabs (real z) <= 1 /\ (real z = 0 \/ bpow radix2 (-24) <= Rabs (real z))) by (intros c [->| ->]; now apply coord_ok).
  exists (real x), (real y), (real (polar_r2 way x y)). split; [now apply coord_near|]. split; [now apply coord_near|]. split; [rewrite pow_bp; now apply r2_near|].
  destruct (r2_ok way x y C) as [F [V [Z S]]]. pose proof (rejected_real _ F V Z) as R. unfold pair_numbers. fold x y. destruct (rejected (polar_r2 way x y)) eqn:E; [left|right].
  - split; [now apply R|reflexivity].
  - pose proof (kept_range _ F V Z E) as B. pose proof (bpow_gt_0 radix2 (-48)). split; [lra|]. eexists. eexists. split; [reflexivity|]. destruct (C x (or_introl eq_refl)) as [Fx [Vx [_ Zx]]]. destruct (C y (or_intror eq_refl)) as [Fy [Vy [_ Zy]]]. split; apply scaled_near; auto.
Qed.

(** Floats as real numbers: each operation is the exact one with a relative error of at
    most 2^-24 and, for products, an absolute error of at most 2^-150. *)
From Coq Require Import ZArith Reals Lra Lia Bool Floats.SpecFloat.
From Flocq Require Import Core Relative Plus_error.
From Flocq Require BinarySingleNaN.
From Verif Require Import Float32 DivFacts DistSpec FusedModel RealSpec.
Local Open Scope R_scope.

Lemma prec_pos : FLX.Prec_gt_0 24. Proof. reflexivity. Qed.
Lemma prec_emax : BinarySingleNaN.Prec_lt_emax 24 128. Proof. reflexivity. Qed.
#[export] Existing Instance prec_pos.
#[export] Existing Instance prec_emax.
Notation b32 := (BinarySingleNaN.binary_float 24 128).
Notation rnd := (round radix2 (FLT_exp (-149) 24) ZnearestE).

Lemma real_B2R : forall b : b32, real (BinarySingleNaN.B2SF b) = BinarySingleNaN.B2R b.
Proof.
  intros [s|s| |s m e H]; try reflexivity. cbn [BinarySingleNaN.B2SF real BinarySingleNaN.B2R]. unfold F2R. cbn [Fnum Fexp].
  rewrite bpow_powerRZ. destruct s; cbn [cond_Zopp]; [rewrite opp_IZR|]; cbn; lra.
Qed.

Lemma finite_B : forall b : b32, finite (BinarySingleNaN.B2SF b) <-> BinarySingleNaN.is_finite b = true.
Proof. intros [s|s| |s m e H]; cbn; intuition congruence. Qed.

Lemma to_B : forall x, f32_valid x = true -> exists b : b32, BinarySingleNaN.B2SF b = x.
Proof. intros x H. exists (BinarySingleNaN.SF2B x H). apply BinarySingleNaN.B2SF_SF2B. Qed.

Lemma B_valid : forall b : b32, f32_valid (BinarySingleNaN.B2SF b) = true.
Proof. intros b. exact (BinarySingleNaN.valid_binary_B2SF 24 128 b). Qed.

(** The operations of SpecFloat are those of Flocq. *)
Lemma rne_equiv : forall s m l, round_nearest_even m l = BinarySingleNaN.choice_mode BinarySingleNaN.mode_NE s m l.
Proof.
  intros s m l. case l; [reflexivity|intro c]. case c; [|reflexivity..]. cbn. unfold Round.cond_incr. now case Z.even.
Qed.
Lemma round_aux_equiv : forall s m e l, SpecFloat.binary_round_aux 24 128 s m e l = BinarySingleNaN.binary_round_aux 24 128 BinarySingleNaN.mode_NE s m e l.
Proof.
  intros s m e l. unfold SpecFloat.binary_round_aux, BinarySingleNaN.binary_round_aux. set (q := shr_fexp _ _ _). case q. intros mrs' e'. cbn.
  now rewrite (rne_equiv s).
Qed.
Lemma round_equiv : forall s m e, SpecFloat.binary_round 24 128 s m e = BinarySingleNaN.binary_round 24 128 BinarySingleNaN.mode_NE s m e.
Proof.
  intros s m e. unfold SpecFloat.binary_round, BinarySingleNaN.binary_round, BinarySingleNaN.shl_align_fexp. set (q := shl_align _ _ _). case q. intros mz ez. apply round_aux_equiv.
Qed.
Lemma normalize_equiv : forall m e z, SpecFloat.binary_normalize 24 128 m e z = BinarySingleNaN.B2SF (BinarySingleNaN.binary_normalize 24 128 _ _ BinarySingleNaN.mode_NE m e z).
Proof.
  intros m e z. case m as [|p|p].
  - reflexivity.
  - cbn. rewrite BinarySingleNaN.B2SF_SF2B. apply round_equiv.
  - cbn. rewrite BinarySingleNaN.B2SF_SF2B. apply round_equiv.
Qed.

Lemma fadd_B : forall x y : b32, fadd (BinarySingleNaN.B2SF x) (BinarySingleNaN.B2SF y) = BinarySingleNaN.B2SF (BinarySingleNaN.Bplus BinarySingleNaN.mode_NE x y).
Proof.
  intros [sx|sx| |sx mx ex Hx] [sy|sy| |sy my ey Hy]; try reflexivity; try (cbn; case Bool.eqb; reflexivity). apply normalize_equiv.
Qed.
Lemma fsub_B : forall x y : b32, fsub (BinarySingleNaN.B2SF x) (BinarySingleNaN.B2SF y) = BinarySingleNaN.B2SF (BinarySingleNaN.Bminus BinarySingleNaN.mode_NE x y).
Proof.
  intros [sx|sx| |sx mx ex Hx] [sy|sy| |sy my ey Hy]; try reflexivity; try (cbn; case Bool.eqb; reflexivity).
  cbn. unfold Zminus. rewrite <- cond_Zopp_negb. apply normalize_equiv.
Qed.
Lemma fmul_B : forall x y : b32, fmul (BinarySingleNaN.B2SF x) (BinarySingleNaN.B2SF y) = BinarySingleNaN.B2SF (BinarySingleNaN.Bmult BinarySingleNaN.mode_NE x y).
Proof.
  intros [sx|sx| |sx mx ex Hx] [sy|sy| |sy my ey Hy]; try reflexivity. cbn. rewrite BinarySingleNaN.B2SF_SF2B. apply round_aux_equiv.
Qed.
Lemma fdiv_B : forall x y : b32, fdiv (BinarySingleNaN.B2SF x) (BinarySingleNaN.B2SF y) = BinarySingleNaN.B2SF (BinarySingleNaN.Bdiv BinarySingleNaN.mode_NE x y).
Proof.
  intros [sx|sx| |sx mx ex Hx] [sy|sy| |sy my ey Hy]; try reflexivity. unfold fdiv, prec, emax. cbn -[SFdiv_core_binary]. rewrite BinarySingleNaN.B2SF_SF2B.
  set (q := SFdiv_core_binary _ _ _ _ _ _). case q as [[mz ez] lz]. apply round_aux_equiv.
Qed.
Lemma fsqrt_B : forall x : b32, SFsqrt prec emax (BinarySingleNaN.B2SF x) = BinarySingleNaN.B2SF (BinarySingleNaN.Bsqrt BinarySingleNaN.mode_NE x).
Proof.
  intros [sx|sx| |sx mx ex Hx]; try (case sx; reflexivity); try reflexivity. case sx; [reflexivity|].
  unfold prec, emax. cbn -[SFsqrt_core_binary]. rewrite BinarySingleNaN.B2SF_SF2B.
  set (q := SFsqrt_core_binary _ _ _ _). case q as [[mz ez] lz]. apply round_aux_equiv.
Qed.

Lemma overflow_inf : forall s, ~ finite (BinarySingleNaN.binary_overflow 24 128 BinarySingleNaN.mode_NE s).
Proof. intros s H. exact H. Qed.

Lemma fexp_FLT : forall z, SpecFloat.fexp 24 128 z = FLT_exp (-149) 24 z.
Proof. reflexivity. Qed.

Lemma B_format : forall b : b32, generic_format radix2 (FLT_exp (-149) 24) (BinarySingleNaN.B2R b).
Proof. intros b. exact (BinarySingleNaN.generic_format_B2R 24 128 b). Qed.

(** Results rounded to the nearest. *)
Lemma fadd_rnd : forall x y, f32_valid x = true -> f32_valid y = true -> finite x -> finite y -> finite (fadd x y) ->
  f32_valid (fadd x y) = true /\ real (fadd x y) = rnd (real x + real y).
Proof.
  intros x y Vx Vy Fx Fy F. destruct (to_B x Vx) as [bx <-]. destruct (to_B y Vy) as [by' <-].
  rewrite fadd_B in *. split; [apply B_valid|]. rewrite !real_B2R. apply finite_B in Fx, Fy.
  pose proof (BinarySingleNaN.Bplus_correct 24 128 _ _ BinarySingleNaN.mode_NE bx by' Fx Fy) as C. destruct (Rlt_bool _ _).
  - apply C.
  - destruct C as [C _]. rewrite C in F. destruct (overflow_inf _ F).
Qed.
Lemma fsub_rnd : forall x y, f32_valid x = true -> f32_valid y = true -> finite x -> finite y -> finite (fsub x y) ->
  f32_valid (fsub x y) = true /\ real (fsub x y) = rnd (real x - real y).
Proof.
  intros x y Vx Vy Fx Fy F. destruct (to_B x Vx) as [bx <-]. destruct (to_B y Vy) as [by' <-].
  rewrite fsub_B in *. split; [apply B_valid|]. rewrite !real_B2R. apply finite_B in Fx, Fy.
  pose proof (BinarySingleNaN.Bminus_correct 24 128 _ _ BinarySingleNaN.mode_NE bx by' Fx Fy) as C. destruct (Rlt_bool _ _).
  - apply C.
  - destruct C as [C _]. rewrite C in F. destruct (overflow_inf _ F).
Qed.
Lemma fmul_rnd : forall x y, f32_valid x = true -> f32_valid y = true -> finite (fmul x y) ->
  f32_valid (fmul x y) = true /\ real (fmul x y) = rnd (real x * real y).
Proof.
  intros x y Vx Vy F. destruct (to_B x Vx) as [bx <-]. destruct (to_B y Vy) as [by' <-].
  rewrite fmul_B in *. split; [apply B_valid|]. rewrite !real_B2R.
  pose proof (BinarySingleNaN.Bmult_correct 24 128 _ _ BinarySingleNaN.mode_NE bx by') as C. destruct (Rlt_bool _ _).
  - apply C.
  - rewrite C in F. destruct (overflow_inf _ F).
Qed.
Lemma fdiv_rnd : forall x y, f32_valid x = true -> f32_valid y = true -> real y <> 0 -> finite (fdiv x y) ->
  f32_valid (fdiv x y) = true /\ real (fdiv x y) = rnd (real x / real y).
Proof.
  intros x y Vx Vy N F. destruct (to_B x Vx) as [bx <-]. destruct (to_B y Vy) as [by' <-].
  rewrite fdiv_B in *. split; [apply B_valid|]. rewrite !real_B2R in *.
  pose proof (BinarySingleNaN.Bdiv_correct 24 128 _ _ BinarySingleNaN.mode_NE bx by' N) as C. destruct (Rlt_bool _ _).
  - apply C.
  - rewrite C in F. destruct (overflow_inf _ F).
Qed.
Lemma fsqrt_rnd : forall x, f32_valid x = true ->
  f32_valid (SFsqrt prec emax x) = true /\ real (SFsqrt prec emax x) = rnd (sqrt (real x)) /\ (finite x -> 0 <= real x -> finite (SFsqrt prec emax x)).
Proof.
  intros x Vx. destruct (to_B x Vx) as [bx <-]. rewrite fsqrt_B. split; [apply B_valid|]. rewrite !real_B2R.
  destruct (BinarySingleNaN.Bsqrt_correct 24 128 _ _ BinarySingleNaN.mode_NE bx) as [C1 [C2 _]]. split; [exact C1|]. intros F P. apply finite_B. rewrite C2.
  destruct bx as [s|s| |[|] m e Hx]; try reflexivity; try (destruct F). cbn in P. exfalso.
  assert (F2R (Float radix2 (Z.neg m) e) < 0) by (apply F2R_lt_0; reflexivity). lra.
Qed.
Lemma of_Z_rnd : forall z, finite (f32_of_Z z) -> f32_valid (f32_of_Z z) = true /\ real (f32_of_Z z) = rnd (IZR z).
Proof.
  intros z F. unfold f32_of_Z, prec, emax in *. rewrite normalize_equiv in *. split; [apply B_valid|]. rewrite real_B2R.
  pose proof (BinarySingleNaN.binary_normalize_correct 24 128 _ _ BinarySingleNaN.mode_NE z 0 false) as C. cbn zeta in C.
  replace (F2R (Float radix2 z 0)) with (IZR z) in C by (unfold F2R; cbn; ring). destruct (Rlt_bool _ _).
  - apply C.
  - rewrite C in F. destruct (overflow_inf _ F).
Qed.

(** No overflow: a rounded result below 2^128 is finite. *)
Lemma fadd_fin : forall x y, f32_valid x = true -> f32_valid y = true -> finite x -> finite y -> Rabs (rnd (real x + real y)) < bpow radix2 128 -> finite (fadd x y).
Proof.
  intros x y Vx Vy Fx Fy H. destruct (to_B x Vx) as [bx <-]. destruct (to_B y Vy) as [by' <-].
  rewrite fadd_B. rewrite !real_B2R in H. apply finite_B in Fx, Fy. apply finite_B.
  pose proof (BinarySingleNaN.Bplus_correct 24 128 _ _ BinarySingleNaN.mode_NE bx by' Fx Fy) as C.
  rewrite Rlt_bool_true in C by exact H. apply C.
Qed.
Lemma fsub_fin : forall x y, f32_valid x = true -> f32_valid y = true -> finite x -> finite y -> Rabs (rnd (real x - real y)) < bpow radix2 128 -> finite (fsub x y).
Proof.
  intros x y Vx Vy Fx Fy H. destruct (to_B x Vx) as [bx <-]. destruct (to_B y Vy) as [by' <-].
  rewrite fsub_B. rewrite !real_B2R in H. apply finite_B in Fx, Fy. apply finite_B.
  pose proof (BinarySingleNaN.Bminus_correct 24 128 _ _ BinarySingleNaN.mode_NE bx by' Fx Fy) as C.
  rewrite Rlt_bool_true in C by exact H. apply C.
Qed.
Lemma fmul_fin : forall x y, f32_valid x = true -> f32_valid y = true -> finite x -> finite y -> Rabs (rnd (real x * real y)) < bpow radix2 128 -> finite (fmul x y).
Proof.
  intros x y Vx Vy Fx Fy H. destruct (to_B x Vx) as [bx <-]. destruct (to_B y Vy) as [by' <-].
  rewrite fmul_B. rewrite !real_B2R in H. apply finite_B in Fx, Fy. apply finite_B.
  pose proof (BinarySingleNaN.Bmult_correct 24 128 _ _ BinarySingleNaN.mode_NE bx by') as C.
  rewrite Rlt_bool_true in C by exact H. destruct C as [_ [C _]]. rewrite C, Fx, Fy. reflexivity.
Qed.

(** The fused multiply-add. *)
Lemma ffma_norm : forall z e s, let x := SpecFloat.binary_normalize 24 128 z e s in
  (finite x -> f32_valid x = true /\ real x = rnd (IZR z * bpow radix2 e)) /\ (Rabs (rnd (IZR z * bpow radix2 e)) < bpow radix2 128 -> finite x).
Proof.
  intros z e s x. unfold x. rewrite normalize_equiv.
  pose proof (BinarySingleNaN.binary_normalize_correct 24 128 _ _ BinarySingleNaN.mode_NE z e s) as C. cbn zeta in C.
  change (F2R (Float radix2 z e)) with (IZR z * bpow radix2 e) in C.
  split.
  - intros F. split; [apply B_valid|]. rewrite real_B2R. destruct (Rlt_bool _ _); [apply C|]. rewrite C in F. destruct (overflow_inf _ F).
  - intros H. rewrite Rlt_bool_true in C by exact H. apply finite_B. apply C.
Qed.

Lemma f_int_real : forall x, finite x -> exists m e, f_int x = Some (m, e) /\ real x = IZR m * bpow radix2 e.
Proof.
  intros [s|s| |s m e] F; try (destruct F).
  - exists 0%Z, 0%Z. split; [reflexivity|]. cbn. ring.
  - exists (SpecFloat.cond_Zopp s (Zpos m)), e. split; [reflexivity|]. unfold real. rewrite <- (bpow_powerRZ radix2). destruct s; cbn [SpecFloat.cond_Zopp Z.opp]; [|ring].
    change (Z.neg m) with (- Z.pos m)%Z. rewrite opp_IZR. ring.
Qed.

Lemma pow_Z : forall z, (0 <= z)%Z -> IZR (2 ^ z) = bpow radix2 z.
Proof. intros z H. change 2%Z with (radix_val radix2). apply IZR_Zpower, H. Qed.

Lemma ffma_eq : forall x y z, finite x -> finite y -> finite z -> exists m e s,
  ffma x y z = SpecFloat.binary_normalize 24 128 m e s /\ IZR m * bpow radix2 e = real x * real y + real z.
Proof.
  intros x y z Fx Fy Fz. destruct (f_int_real x Fx) as [mx [ex [Ex Rx]]]. destruct (f_int_real y Fy) as [my [ey [Ey Ry]]]. destruct (f_int_real z Fz) as [mz [ez [Ez Rz]]].
  unfold ffma. rewrite Ex, Ey, Ez. eexists _, _, _. split; [reflexivity|].
  set (e := Z.min (ex + ey) ez). rewrite plus_IZR, !mult_IZR, !pow_Z by lia.
  rewrite Rmult_plus_distr_r, !Rmult_assoc, <- !bpow_plus. rewrite !Z.sub_add, bpow_plus. rewrite Rx, Ry, Rz. ring.
Qed.

Lemma ffma_rnd : forall x y z, finite x -> finite y -> finite z -> finite (ffma x y z) ->
  f32_valid (ffma x y z) = true /\ real (ffma x y z) = rnd (real x * real y + real z).
Proof.
  intros x y z Fx Fy Fz F. destruct (ffma_eq x y z Fx Fy Fz) as [m [e [s [E R]]]]. rewrite E in *. rewrite <- R. apply ffma_norm, F.
Qed.
Lemma ffma_fin : forall x y z, finite x -> finite y -> finite z -> Rabs (rnd (real x * real y + real z)) < bpow radix2 128 -> finite (ffma x y z).
Proof.
  intros x y z Fx Fy Fz H. destruct (ffma_eq x y z Fx Fy Fz) as [m [e [s [E R]]]]. rewrite E in *. rewrite <- R in H. apply ffma_norm, H.
Qed.

(** Doubles as real numbers. *)
From Coq Require Import ZArith Reals Lra Lia Bool Floats.SpecFloat.
From Flocq Require Import Core Relative Plus_error.
From Flocq Require BinarySingleNaN.
From Verif Require Import LloydModel DistSpec RealSpec.
Local Open Scope R_scope.

Lemma prec_pos64 : FLX.Prec_gt_0 53. Proof. reflexivity. Qed.
Lemma prec_emax64 : BinarySingleNaN.Prec_lt_emax 53 1024. Proof. reflexivity. Qed.
#[export] Existing Instance prec_pos64.
#[export] Existing Instance prec_emax64.
Notation b64 := (BinarySingleNaN.binary_float 53 1024).
Notation rnd64 := (round radix2 (FLT_exp (-1074) 53) ZnearestE).

Definition f64_valid (x : spec_float) : bool := valid_binary 53 1024 x.

Lemma real_B2R64 : forall b : b64, real (BinarySingleNaN.B2SF b) = BinarySingleNaN.B2R b.
Proof.
  intros [s|s| |s m e H]; try reflexivity. cbn [BinarySingleNaN.B2SF real BinarySingleNaN.B2R]. unfold F2R. cbn [Fnum Fexp].
  rewrite bpow_powerRZ. destruct s; cbn [cond_Zopp]; [rewrite opp_IZR|]; cbn; lra.
Qed.

Lemma finite_B64 : forall b : b64, finite (BinarySingleNaN.B2SF b) <-> BinarySingleNaN.is_finite b = true.
Proof. intros [s|s| |s m e H]; cbn; intuition congruence. Qed.

Lemma to_B64 : forall x, f64_valid x = true -> exists b : b64, BinarySingleNaN.B2SF b = x.
Proof. intros x H. exists (BinarySingleNaN.SF2B x H). apply BinarySingleNaN.B2SF_SF2B. Qed.

Lemma B_valid64 : forall b : b64, f64_valid (BinarySingleNaN.B2SF b) = true.
Proof. intros b. exact (BinarySingleNaN.valid_binary_B2SF 53 1024 b). Qed.

(** The operations of SpecFloat are those of Flocq. *)
Lemma rne_equiv64 : forall s m l, round_nearest_even m l = BinarySingleNaN.choice_mode BinarySingleNaN.mode_NE s m l.
Proof.
  intros s m l. case l; [reflexivity|intro c]. case c; [|reflexivity..]. cbn. unfold Round.cond_incr. now case Z.even.
Qed.
Lemma round_aux_equiv64 : forall s m e l, SpecFloat.binary_round_aux 53 1024 s m e l = BinarySingleNaN.binary_round_aux 53 1024 BinarySingleNaN.mode_NE s m e l.
Proof.
  intros s m e l. unfold SpecFloat.binary_round_aux, BinarySingleNaN.binary_round_aux. set (q := shr_fexp _ _ _). case q. intros mrs' e'. cbn.
  now rewrite (rne_equiv64 s).
Qed.
Lemma round_equiv64 : forall s m e, SpecFloat.binary_round 53 1024 s m e = BinarySingleNaN.binary_round 53 1024 BinarySingleNaN.mode_NE s m e.
Proof.
  intros s m e. unfold SpecFloat.binary_round, BinarySingleNaN.binary_round, BinarySingleNaN.shl_align_fexp. set (q := shl_align _ _ _). case q. intros mz ez. apply round_aux_equiv64.
Qed.
Lemma normalize_equiv64 : forall m e z, SpecFloat.binary_normalize 53 1024 m e z = BinarySingleNaN.B2SF (BinarySingleNaN.binary_normalize 53 1024 _ _ BinarySingleNaN.mode_NE m e z).
Proof.
  intros m e z. case m as [|p|p].
  - reflexivity.
  - cbn. rewrite BinarySingleNaN.B2SF_SF2B. apply round_equiv64.
  - cbn. rewrite BinarySingleNaN.B2SF_SF2B. apply round_equiv64.
Qed.

Lemma dadd_B : forall x y : b64, f64_add (BinarySingleNaN.B2SF x) (BinarySingleNaN.B2SF y) = BinarySingleNaN.B2SF (BinarySingleNaN.Bplus BinarySingleNaN.mode_NE x y).
Proof.
  intros [sx|sx| |sx mx ex Hx] [sy|sy| |sy my ey Hy]; try reflexivity; try (cbn; case Bool.eqb; reflexivity). apply normalize_equiv64.
Qed.
Lemma dmul_B : forall x y : b64, f64_mul (BinarySingleNaN.B2SF x) (BinarySingleNaN.B2SF y) = BinarySingleNaN.B2SF (BinarySingleNaN.Bmult BinarySingleNaN.mode_NE x y).
Proof.
  intros [sx|sx| |sx mx ex Hx] [sy|sy| |sy my ey Hy]; try reflexivity. cbn. rewrite BinarySingleNaN.B2SF_SF2B. apply round_aux_equiv64.
Qed.
Lemma ddiv_B : forall x y : b64, f64_div (BinarySingleNaN.B2SF x) (BinarySingleNaN.B2SF y) = BinarySingleNaN.B2SF (BinarySingleNaN.Bdiv BinarySingleNaN.mode_NE x y).
Proof.
  intros [sx|sx| |sx mx ex Hx] [sy|sy| |sy my ey Hy]; try reflexivity. unfold f64_div. cbn -[SFdiv_core_binary]. rewrite BinarySingleNaN.B2SF_SF2B.
  set (q := SFdiv_core_binary _ _ _ _ _ _). case q as [[mz ez] lz]. apply round_aux_equiv64.
Qed.

Lemma overflow_inf64 : forall s, ~ finite (BinarySingleNaN.binary_overflow 53 1024 BinarySingleNaN.mode_NE s).
Proof. intros s H. exact H. Qed.

Lemma fexp_FLT64 : forall z, SpecFloat.fexp 53 1024 z = FLT_exp (-1074) 53 z.
Proof. reflexivity. Qed.

Lemma B_format64 : forall b : b64, generic_format radix2 (FLT_exp (-1074) 53) (BinarySingleNaN.B2R b).
Proof. intros b. exact (BinarySingleNaN.generic_format_B2R 53 1024 b). Qed.

(** Results rounded to the nearest. *)
Lemma dadd_rnd : forall x y, f64_valid x = true -> f64_valid y = true -> finite x -> finite y -> finite (f64_add x y) ->
  f64_valid (f64_add x y) = true /\ real (f64_add x y) = rnd64 (real x + real y).
Proof.
  intros x y Vx Vy Fx Fy F. destruct (to_B64 x Vx) as [bx <-]. destruct (to_B64 y Vy) as [by' <-].
  rewrite dadd_B in *. split; [apply B_valid64|]. rewrite !real_B2R64. apply finite_B64 in Fx, Fy.
  pose proof (BinarySingleNaN.Bplus_correct 53 1024 _ _ BinarySingleNaN.mode_NE bx by' Fx Fy) as C. destruct (Rlt_bool _ _).
  - apply C.
  - destruct C as [C _]. rewrite C in F. destruct (overflow_inf64 _ F).
Qed.
Lemma dmul_rnd : forall x y, f64_valid x = true -> f64_valid y = true -> finite (f64_mul x y) ->
  f64_valid (f64_mul x y) = true /\ real (f64_mul x y) = rnd64 (real x * real y).
Proof.
  intros x y Vx Vy F. destruct (to_B64 x Vx) as [bx <-]. destruct (to_B64 y Vy) as [by' <-].
  rewrite dmul_B in *. split; [apply B_valid64|]. rewrite !real_B2R64.
  pose proof (BinarySingleNaN.Bmult_correct 53 1024 _ _ BinarySingleNaN.mode_NE bx by') as C. destruct (Rlt_bool _ _).
  - apply C.
  - rewrite C in F. destruct (overflow_inf64 _ F).
Qed.
Lemma ddiv_rnd : forall x y, f64_valid x = true -> f64_valid y = true -> real y <> 0 -> finite (f64_div x y) ->
  f64_valid (f64_div x y) = true /\ real (f64_div x y) = rnd64 (real x / real y).
Proof.
  intros x y Vx Vy N F. destruct (to_B64 x Vx) as [bx <-]. destruct (to_B64 y Vy) as [by' <-].
  rewrite ddiv_B in *. split; [apply B_valid64|]. rewrite !real_B2R64 in *.
  pose proof (BinarySingleNaN.Bdiv_correct 53 1024 _ _ BinarySingleNaN.mode_NE bx by' N) as C. destruct (Rlt_bool _ _).
  - apply C.
  - rewrite C in F. destruct (overflow_inf64 _ F).
Qed.

(** No overflow: a rounded result below 2^128 is finite. *)
Lemma dadd_fin : forall x y, f64_valid x = true -> f64_valid y = true -> finite x -> finite y -> Rabs (rnd64 (real x + real y)) < bpow radix2 1024 -> finite (f64_add x y).
Proof.
  intros x y Vx Vy Fx Fy H. destruct (to_B64 x Vx) as [bx <-]. destruct (to_B64 y Vy) as [by' <-].
  rewrite dadd_B. rewrite !real_B2R64 in H. apply finite_B64 in Fx, Fy. apply finite_B64.
  pose proof (BinarySingleNaN.Bplus_correct 53 1024 _ _ BinarySingleNaN.mode_NE bx by' Fx Fy) as C.
  rewrite Rlt_bool_true in C by exact H. apply C.
Qed.
Lemma dmul_fin : forall x y, f64_valid x = true -> f64_valid y = true -> finite x -> finite y -> Rabs (rnd64 (real x * real y)) < bpow radix2 1024 -> finite (f64_mul x y).
Proof.
  intros x y Vx Vy Fx Fy H. destruct (to_B64 x Vx) as [bx <-]. destruct (to_B64 y Vy) as [by' <-].
  rewrite dmul_B. rewrite !real_B2R64 in H. apply finite_B64 in Fx, Fy. apply finite_B64.
  pose proof (BinarySingleNaN.Bmult_correct 53 1024 _ _ BinarySingleNaN.mode_NE bx by') as C.
  rewrite Rlt_bool_true in C by exact H. destruct C as [_ [C _]]. rewrite C, Fx, Fy. reflexivity.
Qed.


Lemma dadd_valid : forall x y, f64_valid x = true -> f64_valid y = true -> f64_valid (f64_add x y) = true.
Proof. intros x y Vx Vy. destruct (to_B64 x Vx) as [bx <-]. destruct (to_B64 y Vy) as [by' <-]. rewrite dadd_B. apply B_valid64. Qed.
Lemma dmul_valid : forall x y, f64_valid x = true -> f64_valid y = true -> f64_valid (f64_mul x y) = true.
Proof. intros x y Vx Vy. destruct (to_B64 x Vx) as [bx <-]. destruct (to_B64 y Vy) as [by' <-]. rewrite dmul_B. apply B_valid64. Qed.
Lemma ddiv_valid : forall x y, f64_valid x = true -> f64_valid y = true -> f64_valid (f64_div x y) = true.
Proof. intros x y Vx Vy. destruct (to_B64 x Vx) as [bx <-]. destruct (to_B64 y Vy) as [by' <-]. rewrite ddiv_B. apply B_valid64. Qed.

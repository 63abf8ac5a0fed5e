(** Flushing subnormals: no negative distance, zero on itself. *)
From Coq Require Import ZArith Reals Lra Lia List Arith Bool Floats.SpecFloat.
From Flocq Require Import Core.
From Verif Require Import Base Float32 DivFacts DistSpec DistModel DistProofs2 FusedModel FusedProofs RealSpec FloatReal L2ErrorProofs RealDistProofs FlushModel FlushProofs FlushProofs2.
Import ListNotations.

Lemma may_not_neg : forall x y, may_flush x y -> not_neg x -> not_neg y.
Proof. intros x y [->|[_ ->]] H; [exact H|exact I]. Qed.

(** A number times itself, whichever of the two is flushed. *)
Lemma flushed_square : forall f x y, may_flush f x -> may_flush f y -> not_neg (fmul x y).
Proof.
  intros f x y [->|[A ->]] [->|[A' ->]]; [apply square_not_neg| | |exact I]; destruct f; try discriminate; exact I.
Qed.
Lemma int_not_neg : forall z m e, not_neg z -> f_int z = Some (m, e) -> (0 <= m)%Z.
Proof. intros [s|s| |[] p q] m e H E; try discriminate; try contradiction; injection E as <- <-; lia. Qed.
Lemma flushed_fma : forall f x y z, may_flush f x -> may_flush f y -> not_neg z -> not_neg (ffma x y z).
Proof.
  intros f x y z Mx My H.
  assert (G : (exists mx ex my ey, f_int x = Some (mx, ex) /\ f_int y = Some (my, ey) /\ (0 <= mx * my)%Z) \/ x = f /\ y = f).
  { destruct Mx as [->|[A ->]], My as [->|[A' ->]]; [right; auto| | |]; left; destruct f as [s|s| |s m e]; try discriminate; cbn [f_int]; eexists _, _, _, _; repeat split; lia. }
  destruct G as [[mx [ex [my [ey [Ex [Ey P]]]]]]|[-> ->]]; [|apply ffma_not_neg, H].
  unfold ffma. rewrite Ex, Ey. destruct (f_int z) as [[mz ez]|] eqn:Ez; [|exact H]. apply norm_not_neg.
  pose proof (int_not_neg z mz ez H Ez). apply Z.add_nonneg_nonneg; apply Z.mul_nonneg_nonneg; auto; apply Z.pow_nonneg; lia.
Qed.

Lemma l2_on_not_neg : forall u t a b r, fpu_ok u -> l2_on u t a b = Ok r -> flt r f32_zero = false.
Proof.
  intros u t a b r U. assert (G : forall r, l2_on u t a b = Ok r -> not_neg r).
  { clear r. unfold l2_on. induction t as [|i|l IHl r IHr|i r IHr]; cbn [ured_eval]; intros z H.
    - injection H as <-. exact I.
    - apply bind_ok in H. destruct H as [p [Hp H]]. apply bind_ok in Hp. destruct Hp as [x [_ Hp]]. apply bind_ok in Hp. destruct Hp as [y [_ Hp]]. injection Hp as <-. injection H as <-. cbn [fst snd].
      destruct (fo_mul u U (u_sub u x y) (u_sub u x y)) as [x' [y' [Mx [My M]]]]. eapply may_not_neg; [exact M|]. eapply flushed_square; eauto.
    - apply bind_ok in H. destruct H as [x [Hx H]]. apply bind_ok in H. destruct H as [y [Hy H]]. injection H as <-.
      destruct (fo_add u U x y) as [x' [y' [Mx [My M]]]]. eapply may_not_neg; [exact M|]. apply fadd_not_neg; eapply may_not_neg; eauto.
    - apply bind_ok in H. destruct H as [p [Hp H]]. apply bind_ok in Hp. destruct Hp as [x [_ Hp]]. apply bind_ok in Hp. destruct Hp as [y [_ Hp]]. injection Hp as <-. apply bind_ok in H. destruct H as [w [Hw H]]. injection H as <-. cbn [fst snd].
      destruct (fo_fma u U (u_sub u x y) (u_sub u x y) w) as [x' [y' [z' [Mx [My [Mz M]]]]]]. eapply may_not_neg; [exact M|]. eapply flushed_fma; eauto. eapply may_not_neg; eauto. }
  intros H. apply not_neg_flt, G, H.
Qed.

(** ** The distance of a vector to itself *)
Definition is_zero (x : f32) : Prop := exists s, x = S754_zero s.
Definition speck (x : f32) : Prop := is_zero x \/ at_most_normal x = true.

Lemma may_zero : forall x y, is_zero x -> may_flush x y -> is_zero y.
Proof. intros x y [s ->] [->|[A _]]; [exists s; reflexivity|discriminate]. Qed.
Lemma may_speck : forall x y, speck x -> may_flush x y -> speck y.
Proof. intros x y H [->|[A ->]]; [exact H|]. left. eexists. reflexivity. Qed.

Lemma at_most_valid : forall x, at_most_normal x = true -> f32_valid x = true \/ exists s m, x = S754_finite s m (-149) /\ (Zpos m < 8388608)%Z.
Proof.
  intros [s|s| |s m e] H; try discriminate. unfold at_most_normal in H. apply andb_true_iff in H. destruct H as [H E]. apply Z.leb_le in H. apply Z.eqb_eq in E. subst e.
  destruct (Z.eq_dec (Zpos m) 8388608) as [Q|Q]; [left|right; exists s, m; split; [reflexivity|lia]]. injection Q as ->. reflexivity.
Qed.

Local Open Scope R_scope.

Lemma speck_real : forall x, speck x -> finite x /\ Rabs (real x) <= bpow radix2 (-126).
Proof.
  intros x [[s ->]|A]; [|destruct (at_most_real x A) as [F [_ B]]; auto]. split; [exact I|]. cbn [real]. rewrite Rabs_R0. apply bpow_ge_0.
Qed.

Lemma u_sub_self : forall u x, fpu_ok u -> finite x -> speck (u_sub u x x).
Proof.
  intros u x U F. destruct (fo_sub u U x x) as [x' [y' [Mx [My M]]]]. eapply may_speck; [|exact M].
  destruct Mx as [->|[A ->]], My as [->|[A' ->]].
  - left. exact (fsub_self x F).
  - destruct x as [s|s| |s m e]; try discriminate. right. exact A'.
  - destruct x as [s|s| |s m e]; try discriminate. right. exact A.
  - left. destruct x as [s|s| |s m e]; try discriminate. cbn. destruct s; eexists; reflexivity.
Qed.

(** A valid float below the smallest positive one is zero. *)
Lemma vanish : forall x, finite x -> f32_valid x = true -> Rabs (real x) < bpow radix2 (-149) -> is_zero x.
Proof.
  intros x F V H. assert (Q : real x = 0).
  { destruct (Req_dec (real x) 0) as [|N]; [assumption|]. exfalso.
    assert (G : on_grid (-149) (real x)).
    { pose proof (real_format x V) as G. unfold generic_format in G. rewrite G. unfold F2R, Fnum, Fexp.
      apply (grid_weak (cexp radix2 (FLT_exp (-149) 24) (real x))); [unfold cexp, FLT_exp; lia|eexists; reflexivity]. }
    pose proof (grid_big _ _ G N). lra. }
  destruct x as [s|s| |s m e]; try destruct F; [exists s; reflexivity|]. exfalso. unfold real in Q.
  assert (0 < IZR (Zpos m) * powerRZ 2 e) by (apply Rmult_lt_0_compat; [apply IZR_lt; lia|apply powerRZ_lt; lra]). destruct s; lra.
Qed.

Lemma speck_square : forall x y, speck x -> speck y -> Rabs (real x * real y) <= bpow radix2 (-252).
Proof.
  intros x y Hx Hy. destruct (speck_real x Hx) as [_ Bx]. destruct (speck_real y Hy) as [_ By]. change (-252)%Z with (-126 + -126)%Z. rewrite bpow_plus. apply abs_mul; auto.
Qed.
Lemma small_sum : forall p d e, Rabs p <= bpow radix2 (-252) -> Rabs d <= ulp -> Rabs e <= tiny -> Rabs (p * (1 + d) + e) < bpow radix2 (-149).
Proof.
  intros p d e Hp Hd He. pose proof (abs_mul _ _ _ _ Hp (abs1 d Hd)) as Q. eapply Rle_lt_trans; [apply Rabs_triang|]. pose proof ulp_pos. rewrite tiny_bpow in He.
  assert (2 * bpow radix2 (-252) < / 2 * bpow radix2 (-149)).
  { change 2 with (bpow radix2 1) at 1. change (/ 2) with (bpow radix2 (-1)). rewrite <- !bpow_plus. apply bpow_lt. lia. }
  pose proof (bpow_gt_0 radix2 (-252)). nra.
Qed.

Lemma speck_fma : forall x y z, speck x -> speck y -> is_zero z -> is_zero (ffma x y z).
Proof.
  intros x y z Hx Hy [s ->]. destruct (speck_real x Hx) as [Fx _]. destruct (speck_real y Hy) as [Fy _]. pose proof (speck_square x y Hx Hy) as B.
  assert (F : finite (ffma x y (S754_zero s))).
  { apply ffma_fin; auto; [exact I|]. apply rnd_small. cbn [real]. rewrite Rplus_0_r. eapply Rle_trans; [exact B|]. apply bpow_le. lia. }
  destruct (ffma_real x y (S754_zero s) Fx Fy I F) as [V [d [e [Hd [He R]]]]]. apply vanish; auto. rewrite R. cbn [real]. rewrite Rplus_0_r. apply small_sum; auto.
Qed.

Lemma speck_valid : forall x, speck x -> f32_valid x = true.
Proof.
  intros x [[s ->]|A]; [reflexivity|]. destruct (at_most_valid x A) as [V|[s [m [-> H]]]]; [exact V|].
  unfold f32_valid, valid_binary, bounded, canonical_mantissa. apply andb_true_iff. split; [|reflexivity]. apply Zeq_is_eq_bool.
  unfold fexp, emin, prec, emax. assert (Z.pos (digits2_pos m) <= 23)%Z; [|match goal with |- (Z.max ?a ?b = _)%Z => assert (a <= b)%Z by lia; lia end].
  pose proof (Digits.Zpos_digits2_pos m) as D. change (SpecFloat.digits2_pos m) with (Digits.digits2_pos m).
  rewrite D. apply (Digits.Zdigits_le_Zpower radix2). rewrite Z.abs_eq by lia. change (radix2 ^ 23)%Z with 8388608%Z. exact H.
Qed.

Lemma speck_mul : forall x y, speck x -> speck y -> is_zero (fmul x y).
Proof.
  intros x y Hx Hy. destruct (speck_real x Hx) as [Fx _]. destruct (speck_real y Hy) as [Fy _]. pose proof (speck_square x y Hx Hy) as B.
  assert (F : finite (fmul x y)).
  { apply fmul_fin; auto using speck_valid. apply rnd_small. eapply Rle_trans; [exact B|]. apply bpow_le. lia. }
  destruct (fmul_real x y (speck_valid x Hx) (speck_valid y Hy) F) as [V [d [e [Hd [He R]]]]]. apply vanish; auto. rewrite R. apply small_sum; auto.
Qed.

Lemma l2_on_self : forall u t a, fpu_ok u -> (forall x, In x a -> finite x) -> (forall i, In i (fred_items t) -> (i < length a)%nat) -> exists s, l2_on u t a a = Ok (S754_zero s).
Proof.
  intros u t a U Hf. unfold l2_on. induction t as [|i|l IHl r IHr|i r IHr]; cbn [ured_eval]; intros Hi.
  - exists false. reflexivity.
  - destruct (rd_lt _ a i) as [x Hx]; [apply Hi; now left|]. rewrite Hx. cbn [bind fst snd]. apply rd_ok, nth_error_In in Hx. pose proof (u_sub_self u x U (Hf x Hx)) as S.
    destruct (fo_mul u U (u_sub u x x) (u_sub u x x)) as [x' [y' [Mx [My M]]]]. destruct (may_zero _ _ (speck_mul x' y' (may_speck _ _ S Mx) (may_speck _ _ S My)) M) as [s E]. rewrite E. eauto.
  - destruct IHl as [s El]; [intros; apply Hi; cbn; apply in_or_app; auto|]. destruct IHr as [s' Er]; [intros; apply Hi; cbn; apply in_or_app; auto|]. rewrite El, Er. cbn [bind].
    destruct (fo_add u U (S754_zero s) (S754_zero s')) as [x' [y' [Mx [My M]]]].
    assert (Z : is_zero (fadd x' y')). { destruct (may_zero _ _ (ex_intro _ s eq_refl) Mx) as [p ->]. destruct (may_zero _ _ (ex_intro _ s' eq_refl) My) as [q ->]. destruct p, q; cbn; eexists; reflexivity. }
    destruct (may_zero _ _ Z M) as [p E]. rewrite E. eauto.
  - destruct IHr as [s' Er]; [intros; apply Hi; cbn; auto|]. destruct (rd_lt _ a i) as [x Hx]; [apply Hi; now left|]. rewrite Hx. cbn [bind]. apply rd_ok, nth_error_In in Hx. pose proof (u_sub_self u x U (Hf x Hx)) as S. rewrite Er. cbn [bind fst snd].
    destruct (fo_fma u U (u_sub u x x) (u_sub u x x) (S754_zero s')) as [x' [y' [z' [Mx [My [Mz M]]]]]].
    destruct (may_zero _ _ (speck_fma x' y' z' (may_speck _ _ S Mx) (may_speck _ _ S My) (may_zero _ _ (ex_intro _ s' eq_refl) Mz)) M) as [s E]. rewrite E. eauto.
Qed.

(** ** What flushing loses *)
Definition two_m64 : f32 := S754_finite false 8388608 (-87).
Definition two_m65 : f32 := S754_finite false 8388608 (-88).
Lemma flush_loses : l2_on keeping (FItem 0) [f32_zero] [two_m64] = Ok (S754_finite false 2097152 (-149)) /\ l2_on keeping (FItem 0) [f32_zero] [two_m65] = Ok (S754_finite false 524288 (-149)) /\
  l2_on flushing (FItem 0) [f32_zero] [two_m64] = Ok f32_zero /\ l2_on flushing (FItem 0) [f32_zero] [two_m65] = Ok f32_zero.
Proof. repeat split; vm_compute; reflexivity. Qed.

Lemma flush_refuted : exists q a b ra rb, a <> q /\ flt f32_zero rb = true /\ flt rb ra = true /\
  l2_on keeping (FItem 0) q a = Ok ra /\ l2_on keeping (FItem 0) q b = Ok rb /\ l2_on flushing (FItem 0) q a = Ok f32_zero /\ l2_on flushing (FItem 0) q b = Ok f32_zero.
Proof.
  exists [f32_zero], [two_m64], [two_m65], (S754_finite false 2097152 (-149)), (S754_finite false 524288 (-149)). split; [discriminate|].
  destruct flush_loses as [A [B [C D]]]. repeat split; auto.
Qed.

Lemma keeping_eval : forall fac t, ured_eval keeping fac t = fred_eval fac t.
Proof. intros fac t. induction t as [|i|l IHl r IHr|i r IHr]; cbn; rewrite ?IHl, ?IHr; reflexivity. Qed.
Lemma l2_keeping : forall t a b, l2_on keeping t a b = l2_fused t a b.
Proof. intros t a b. unfold l2_on. rewrite keeping_eval. reflexivity. Qed.
Lemma ip_keeping : forall t a b, ip_on keeping t a b = ip_fused t a b.
Proof. intros t a b. unfold ip_on. rewrite keeping_eval. reflexivity. Qed.

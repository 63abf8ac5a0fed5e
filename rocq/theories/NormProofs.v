(** Scaling to unit norm: the floats against the reals. *)
From Coq Require Import ZArith Reals Lra Lia List Arith Bool Permutation Floats.SpecFloat.
From Flocq Require Import Core Relative Plus_error.
From Flocq Require BinarySingleNaN.
From Verif Require Import Base Float32 DivFacts DistSpec DistModel DistProofs2 FusedModel FusedProofs RealSpec FloatReal L2ErrorProofs RealDistProofs NormModel.
Import ListNotations.
Local Open Scope R_scope.

(** ** More on rounding *)
Lemma rnd_normal : forall x, bpow radix2 (-126) <= Rabs x -> exists d, Rabs d <= ulp /\ rnd x = x * (1 + d).
Proof.
  intros x H. destruct (relative_error_N_FLT_ex radix2 (-149) 24 prec_pos (fun z => negb (Z.even z)) x) as [d [Hd E]]; [exact H|].
  exists d. split; [|exact E]. rewrite ulp_bpow. exact Hd.
Qed.
Lemma rnd_any : forall x, exists d e, Rabs d <= ulp /\ Rabs e <= tiny /\ rnd x = x * (1 + d) + e.
Proof.
  intros x. destruct (relative_error_N_FLT'_ex radix2 (-149) 24 prec_pos (fun z => negb (Z.even z)) x) as [d [e [Hd [He [_ H]]]]].
  exists d, e. split; [pose proof ro_bound; lra|]. split; [rewrite tiny_bpow; exact He|exact H].
Qed.
Lemma rnd_le : forall x y, x <= y -> rnd x <= rnd y.
Proof. intros x y H. apply round_le; auto with typeclass_instances. Qed.
Lemma rnd_0 : rnd 0 = 0. Proof. apply round_0; auto with typeclass_instances. Qed.
Lemma rnd_1 : rnd 1 = 1.
Proof. destruct (int_rnd 1) as [H _]; [lia|exact H]. Qed.

Lemma fdiv_fin : forall x y, f32_valid x = true -> f32_valid y = true -> finite x -> real y <> 0 -> Rabs (rnd (real x / real y)) < bpow radix2 128 -> finite (fdiv x y).
Proof.
  intros x y Vx Vy Fx N H. destruct (to_B x Vx) as [bx <-]. destruct (to_B y Vy) as [by' <-].
  rewrite fdiv_B. rewrite !real_B2R in *. apply finite_B in Fx. apply finite_B.
  pose proof (BinarySingleNaN.Bdiv_correct 24 128 _ _ BinarySingleNaN.mode_NE bx by' N) as C.
  rewrite Rlt_bool_true in C by exact H. destruct C as [_ [C _]]. rewrite C. exact Fx.
Qed.

Lemma ulp_val : ulp <= / 1000000 /\ 0 < ulp.
Proof.
  pose proof ulp_pos. split; [|lra]. unfold ulp. change 2 with (IZR radix2) at 1. rewrite <- bpow_powerRZ.
  apply Rle_trans with (bpow radix2 (-20)); [apply bpow_le; lia|]. change (bpow radix2 (-20)) with (/ 1048576). lra.
Qed.
Lemma tiny_ulp : tiny <= ulp * ulp.
Proof.
  unfold tiny, ulp. change 2 with (IZR radix2) at 1 2 3. rewrite <- !bpow_powerRZ, <- bpow_plus. apply bpow_le. lia.
Qed.

(** ** The sum of squares *)
Lemma sum_sq_not_neg : forall f x r, sum_sq f x = Ok r -> not_neg r.
Proof.
  intros f x. unfold sum_sq, ip_fused. induction f as [|i|l IHl r IHr|i r IHr]; cbn [fred_eval]; intros z H.
  - injection H as <-. exact I.
  - apply bind_ok in H. destruct H as [p [Hp H]]. apply bind_ok in Hp. destruct Hp as [a [Ha Hp]]. apply bind_ok in Hp. destruct Hp as [b [Hb Hp]]. injection Hp as <-. injection H as <-.
    rewrite Ha in Hb. injection Hb as <-. apply square_not_neg.
  - apply bind_ok in H. destruct H as [a [Ha H]]. apply bind_ok in H. destruct H as [b [Hb H]]. injection H as <-. apply fadd_not_neg; eauto.
  - apply bind_ok in H. destruct H as [p [Hp H]]. apply bind_ok in Hp. destruct Hp as [a [Ha Hp]]. apply bind_ok in Hp. destruct Hp as [b [Hb Hp]]. injection Hp as <-. apply bind_ok in H. destruct H as [w [Hw H]]. injection H as <-.
    rewrite Ha in Hb. injection Hb as <-. apply ffma_not_neg; eauto.
Qed.
Lemma not_neg_real : forall x, not_neg x -> 0 <= real x.
Proof.
  intros [s|s| |[] m e] H; cbn [real]; try lra; [destruct H|]. assert (0 < powerRZ 2 e) by (apply powerRZ_lt; lra). assert (0 < IZR (Z.pos m)) by (apply IZR_lt; lia). nra.
Qed.

Lemma real_sum_app : forall l m, real_sum (l ++ m) = real_sum l + real_sum m.
Proof. intros l m. unfold real_sum. induction l as [|x l IH]; cbn; [lra|]. rewrite IH. lra. Qed.

Lemma self_ip : forall x, exact_ip x x = real_sum (map (fun c => real c * real c) x) /\ exact_abs_ip x x = exact_ip x x.
Proof.
  intros x. unfold exact_ip, exact_abs_ip. replace (combine x x) with (map (fun c => (c, c)) x) by (induction x as [|c x IH]; cbn; congruence).
  rewrite !map_map. cbn [fst snd]. split; [reflexivity|]. f_equal. apply map_ext. intros c. rewrite Rabs_pos_eq; [reflexivity|]. nra.
Qed.
Lemma self_ip_pos : forall x, 0 <= exact_ip x x.
Proof. intros x. rewrite (proj1 (self_ip x)). unfold real_sum. induction x as [|c x IH]; cbn; [lra|]. nra. Qed.
Lemma self_ip_coord : forall x c, In c x -> real c * real c <= exact_ip x x.
Proof.
  intros x c. rewrite (proj1 (self_ip x)). induction x as [|b x IH]; intros H; [destruct H|]. cbn [map]. unfold real_sum. cbn [fold_right]. fold (real_sum (map (fun c => real c * real c) x)).
  pose proof (self_ip_pos x) as P. rewrite (proj1 (self_ip x)) in P. destruct H as [->|H]; [nra|]. specialize (IH H). nra.
Qed.

Definition dim_ok (d : nat) : Prop := (Z.of_nat d <= 2 ^ 20)%Z.
Lemma dim_ulp : forall d, dim_ok d -> INR d * ulp <= / 16.
Proof. intros d H. apply Rle_trans with (bpow radix2 (20 - 24)); [apply INR_ulp; [lia|exact H]|]. change (bpow radix2 (20 - 24)) with (/ 16). lra. Qed.

Lemma norm_near : forall f x, dim_ok (length x) -> Permutation (fred_items f) (seq 0 (length x)) -> good x -> exact_ip x x <= powerRZ 2 125 ->
  exists N, sum_sq f x = Ok N /\ finite N /\ f32_valid N = true /\ 0 <= real N /\
    Rabs (real N - exact_ip x x) <= 2 * INR (length x) * ulp * exact_ip x x + 2 * INR (length x) * tiny.
Proof.
  intros f x Hd Hf G HS. set (d := length x) in *. pose proof (dim_ulp d Hd) as Du. pose proof ulp_val as [U1 U2]. pose proof tiny_pos as T. pose proof tiny_ulp as TU. pose proof (pos_INR d) as Pd.
  destruct (l2_sum_items f (pi x x) _ Hf) as [Hs Hl]. destruct (l2_sum_items f (fun i => Rabs (pi x x i)) _ Hf) as [Hs' _].
  assert (Ex : isum (fun i => Rabs (pi x x i)) (seq 0 d) = exact_ip x x) by (rewrite <- (proj2 (self_ip x)); symmetry; apply api_sum; reflexivity).
  assert (Ex' : isum (pi x x) (seq 0 d) = exact_ip x x) by (symmetry; apply pi_sum; reflexivity).
  pose proof (self_ip_pos x) as P.
  assert (Ed : E d - 1 <= 2 * INR d * ulp) by (apply E_lin; lra).
  assert (Ed1 : E (1 + d) <= 2). { assert (E (1 + d) - 1 <= 2 * INR (1 + d) * ulp) by (apply E_lin; rewrite plus_INR; cbn [INR]; lra). rewrite plus_INR in H. cbn [INR] in H. lra. }
  assert (Ed2 : E d <= 2) by lra.
  assert (Fac : forall i, In i (fred_items f) -> factors_ok (ip_fac x x) (pi x x) (fun i => Rabs (pi x x i)) 0 i) by (intros i _; apply ip_factors; auto).
  assert (Abs : forall i, In i (fred_items f) -> Rabs (pi x x i) <= (fun i => Rabs (pi x x i)) i) by (intros; cbn; lra).
  destruct (fred_finite (ip_fac x x) (pi x x) (fun i => Rabs (pi x x i)) 0 f Abs Fac) as [N [HN FN]].
  { intros i Hi. pose proof (Permutation_in _ Hf Hi) as Hi'. apply in_seq in Hi'. destruct (rd_lt _ x i) as [c Hc]; [unfold d in Hi'; lia|]. exists c, c. unfold ip_fac. rewrite Hc. cbn [bind]. destruct (good_rd _ _ _ G Hc). auto. }
  { rewrite Hs', Hl, Ex. assert (B : bpow radix2 127 = 4 * powerRZ 2 125) by (change 2 with (IZR radix2) at 1; rewrite <- bpow_powerRZ; change 127%Z with (2 + 125)%Z; rewrite bpow_plus; reflexivity).
    rewrite B. apply Rle_trans with (2 * exact_ip x x + INR d * tiny * 2).
    - apply Rplus_le_compat; [apply Rmult_le_compat_r; auto|]. apply Rmult_le_compat_l; [nra|exact Ed2].
    - assert (INR d * tiny <= INR d * ulp) by (apply Rmult_le_compat_l; nra). assert (1 <= powerRZ 2 125) by (change 2 with (IZR radix2) at 1; rewrite <- bpow_powerRZ; change 1 with (bpow radix2 0); apply bpow_le; lia). lra. }
  destruct (fred_error (ip_fac x x) (pi x x) (fun i => Rabs (pi x x i)) 0 f N Abs Fac HN FN) as [VN B].
  exists N. split; [exact HN|]. split; [exact FN|]. split; [exact VN|]. split; [apply not_neg_real, (sum_sq_not_neg f x), HN|].
  rewrite Hs, Hs', Hl, Ex, Ex' in B. apply err_bound in B; auto.
  - rewrite Nat.add_0_r in B. eapply Rle_trans; [exact B|]. apply Rplus_le_compat; [apply Rmult_le_compat_r; auto|].
    replace (2 * INR d * tiny) with (INR d * tiny * 2) by ring. apply Rmult_le_compat_l; [nra|exact Ed2].
  - subst d. clear. destruct x; [left; reflexivity|right; discriminate].
Qed.

(** ** The scale *)
Lemma scale_ok : forall Nm, f32_valid Nm = true -> finite Nm -> powerRZ 2 (-100) <= real Nm <= powerRZ 2 126 ->
  let M := fsqrt Nm in f32_valid M = true /\ finite M /\ 0 < real M /\ real Nm * (1 - 2 * ulp) <= real M * real M <= real Nm * (1 + 3 * ulp).
Proof.
  intros Nm V F [B1 B2] M. destruct (fsqrt_rnd Nm V) as [VM [RM FM]]. pose proof ulp_val as [U1 U2].
  assert (P : 0 < powerRZ 2 (-100)) by (apply powerRZ_lt; lra). assert (Pn : 0 < real Nm) by lra.
  split; [exact VM|]. split; [apply FM; auto; lra|].
  assert (Sq : bpow radix2 (-50) <= sqrt (real Nm)).
  { rewrite <- (sqrt_square (bpow radix2 (-50))) by apply bpow_ge_0. apply sqrt_le_1_alt. rewrite <- bpow_plus. change (-50 + -50)%Z with (-100)%Z. change 2 with (IZR radix2) in B1. rewrite <- bpow_powerRZ in B1. exact B1. }
  destruct (rnd_normal (sqrt (real Nm))) as [d [Hd R]].
  { rewrite Rabs_pos_eq by apply sqrt_pos. eapply Rle_trans; [|exact Sq]. apply bpow_le. lia. }
  unfold M. change (fsqrt Nm) with (SFsqrt prec emax Nm). rewrite RM, R. pose proof (sqrt_def (real Nm) ltac:(lra)) as SS. apply Rabs_le_inv in Hd.
  assert (0 < sqrt (real Nm)) by (pose proof (bpow_gt_0 radix2 (-50)); lra). split; [nra|].
  replace (sqrt (real Nm) * (1 + d) * (sqrt (real Nm) * (1 + d))) with (sqrt (real Nm) * sqrt (real Nm) * ((1 + d) * (1 + d))) by ring. rewrite SS. split; apply Rmult_le_compat_l; nra.
Qed.

(** ** One row *)
Definition row_sq (o : list f32) : R := real_sum (map (fun c => real c * real c) o).

Lemma scaled : forall M x, f32_valid M = true -> finite M -> 0 < real M -> good x -> exact_ip x x <= 2 * (real M * real M) ->
  let o := map (fun c => fdiv c M) x in
  good o /\ Forall2 (fun c q => Rabs (real q - real c / real M) <= ulp * Rabs (real c / real M) + tiny) x o /\
  Rabs (row_sq o - exact_ip x x / (real M * real M)) <= 3 * ulp * (exact_ip x x / (real M * real M)) + 3 * INR (length x) * tiny.
Proof.
  intros M x VM FM PM G HS. pose proof ulp_val as [U1 U2]. pose proof tiny_pos as T. pose proof tiny_ulp as TU.
  assert (PM2 : 0 < real M * real M) by nra.
  assert (Each : forall c, In c x -> finite (fdiv c M) /\ f32_valid (fdiv c M) = true /\ exists d e, Rabs d <= ulp /\ Rabs e <= tiny /\ real (fdiv c M) = real c / real M * (1 + d) + e).
  { intros c Hc. destruct (G c Hc) as [Fc Vc].
    assert (B : Rabs (real c / real M) <= 2).
    { pose proof (self_ip_coord x c Hc) as B. assert (Q : (real c / real M) * (real c / real M) <= 2).
      { replace ((real c / real M) * (real c / real M)) with (real c * real c / (real M * real M)) by (field; lra). apply Rmult_le_reg_r with (real M * real M); auto. unfold Rdiv. rewrite Rmult_assoc, Rinv_l by lra. lra. }
      apply Rabs_le. split; nra. }
    assert (F : finite (fdiv c M)).
    { apply fdiv_fin; auto; [lra|]. apply rnd_small. eapply Rle_trans; [exact B|]. change 2 with (bpow radix2 1). apply bpow_le. lia. }
    destruct (fdiv_rnd c M Vc VM ltac:(lra) F) as [V R]. split; [exact F|]. split; [exact V|]. rewrite R. apply rnd_any. }
  intros o. split. { intros q Hq. apply in_map_iff in Hq. destruct Hq as [c [<- Hc]]. destruct (Each c Hc) as [A [B _]]. auto. }
  split.
  - unfold o. clear HS o. induction x as [|c x IH]; cbn [map]; [constructor|]. apply Forall2_cons.
    + destruct (Each c (or_introl eq_refl)) as [_ [_ [d [e [Hd [He ->]]]]]]. replace (real c / real M * (1 + d) + e - real c / real M) with (d * (real c / real M) + e) by ring.
      eapply Rle_trans; [apply Rabs_triang|]. rewrite Rabs_mult. apply Rplus_le_compat; auto. apply Rmult_le_compat_r; auto using Rabs_pos.
    + apply IH; [intros q Hq; apply G; right; auto|intros q Hq; apply Each; right; auto].
  - unfold row_sq, o. rewrite (proj1 (self_ip x)). clear HS G o. induction x as [|c x IH].
    + cbn. unfold Rdiv. rewrite Rmult_0_l, Rminus_0_r, Rabs_R0. lra.
    + assert (IH' := IH (fun q H => Each q (or_intror H))). clear IH. destruct (Each c (or_introl eq_refl)) as [_ [_ [d [e [Hd [He R]]]]]].
      cbn [map]. unfold real_sum in *. cbn [fold_right]. rewrite R. set (y := real c / real M) in *.
      set (A := fold_right Rplus 0 (map (fun c => real c * real c) (map (fun c => fdiv c M) x))) in *. set (Q := fold_right Rplus 0 (map (fun c => real c * real c) x)) in *.
      assert (Hy : (real c * real c + Q) / (real M * real M) = y * y + Q / (real M * real M)) by (unfold y; field; lra). rewrite Hy. set (W := Q / (real M * real M)) in *.
      replace ((y * (1 + d) + e) * (y * (1 + d) + e) + A - (y * y + W)) with (((y * (1 + d) + e) * (y * (1 + d) + e) - y * y) + (A - W)) by ring.
      eapply Rle_trans; [apply Rabs_triang|]. cbn [length]. rewrite S_INR.
      assert (B : Rabs ((y * (1 + d) + e) * (y * (1 + d) + e) - y * y) <= 3 * ulp * (y * y) + 3 * tiny).
      { replace ((y * (1 + d) + e) * (y * (1 + d) + e) - y * y) with (y * y * (2 * d + d * d) + (2 * (1 + d) * (y * e) + e * e)) by ring.
        eapply Rle_trans; [apply Rabs_triang|].
        assert (B1 : Rabs (y * y * (2 * d + d * d)) <= y * y * (2 * ulp + ulp * ulp)).
        { rewrite Rabs_mult, (Rabs_pos_eq (y * y)) by nra. apply Rmult_le_compat_l; [nra|]. eapply Rle_trans; [apply Rabs_triang|]. rewrite !Rabs_mult, (Rabs_pos_eq 2) by lra.
          assert (Rabs d * Rabs d <= ulp * ulp) by (apply Rmult_le_compat; auto using Rabs_pos). lra. }
        assert (B2 : Rabs (2 * (1 + d) * (y * e) + e * e) <= (1 + ulp) * tiny * (1 + y * y) + tiny * tiny).
        { eapply Rle_trans; [apply Rabs_triang|]. rewrite !Rabs_mult, (Rabs_pos_eq 2) by lra.
          assert (C1 : Rabs (1 + d) <= 1 + ulp) by (eapply Rle_trans; [apply Rabs_triang|]; rewrite Rabs_R1; lra).
          assert (C2 : 2 * Rabs y <= 1 + y * y) by (pose proof (Rle_0_sqr (1 - y)) as S1; pose proof (Rle_0_sqr (1 + y)) as S2; unfold Rsqr in S1, S2; unfold Rabs; destruct (Rcase_abs y); lra).
          assert (C3 : Rabs e * Rabs e <= tiny * tiny) by (apply Rmult_le_compat; auto using Rabs_pos).
          assert (C4 : Rabs (1 + d) * Rabs e <= (1 + ulp) * tiny) by (apply Rmult_le_compat; auto using Rabs_pos).
          assert (C5 : Rabs (1 + d) * Rabs e * (2 * Rabs y) <= (1 + ulp) * tiny * (1 + y * y)).
          { apply Rmult_le_compat; auto; [apply Rmult_le_pos; apply Rabs_pos|pose proof (Rabs_pos y); lra]. }
          lra. }
        assert (0 <= y * y) by nra. assert (ulp * ulp <= ulp / 4) by nra. assert (tiny <= ulp / 4) by lra. assert (tiny * tiny <= tiny * (/ 4)) by (apply Rmult_le_compat_l; lra). assert ((1 + ulp) * tiny <= 2 * tiny) by (apply Rmult_le_compat_r; lra).
        assert ((1 + ulp) * tiny * (1 + y * y) <= 2 * tiny * (1 + y * y)) by (apply Rmult_le_compat_r; lra).
        assert (y * y * (ulp * ulp) <= y * y * (ulp / 4)) by (apply Rmult_le_compat_l; lra). assert (y * y * tiny <= y * y * (ulp / 4)) by (apply Rmult_le_compat_l; lra). assert (0 <= y * y * ulp) by (apply Rmult_le_pos; lra). lra. }
      lra.
Qed.

Lemma last_ok : forall M Nm N, f32_valid M = true -> finite M -> 0 < real M -> f32_valid N = true -> finite N -> 0 <= real N <= real Nm ->
  powerRZ 2 (-100) <= real Nm <= powerRZ 2 126 -> real Nm * (1 - 2 * ulp) <= real M * real M <= real Nm * (1 + 3 * ulp) ->
  let l := last_coord M N in finite l /\ f32_valid l = true /\ 0 <= real l <= 1 /\ Rabs (real l * real l + real N / (real M * real M) - 1) <= 12 * ulp.
Proof.
  intros M Nm N VM FM PM VN FN [N0 N1] [B1 B2] [M1 M2] l. pose proof ulp_val as [U1 U2]. pose proof tiny_pos as T. pose proof tiny_ulp as TU.
  assert (P100 : 0 < powerRZ 2 (-100)) by (apply powerRZ_lt; lra). set (m2 := real M * real M) in *.
  assert (Big : real Nm / 2 <= m2 <= 2 * real Nm) by nra.
  assert (Lo : bpow radix2 (-126) <= m2).
  { apply Rle_trans with (powerRZ 2 (-100) / 2); [|lra]. change 2 with (IZR radix2) at 1. rewrite <- bpow_powerRZ. replace (bpow radix2 (-100) / 2) with (bpow radix2 (-101)).
    - apply bpow_le. lia. - change (-101)%Z with (-100 + -1)%Z. rewrite bpow_plus. reflexivity. }
  assert (Hi : m2 <= bpow radix2 127).
  { replace (bpow radix2 127) with (2 * powerRZ 2 126); [lra|]. change 2 with (IZR radix2) at 2. rewrite <- bpow_powerRZ. change 127%Z with (1 + 126)%Z. rewrite bpow_plus. reflexivity. }
  assert (Fp : finite (fmul M M)). { apply fmul_fin; auto. apply rnd_small. fold m2. rewrite Rabs_pos_eq by (pose proof (bpow_gt_0 radix2 (-126)); lra). exact Hi. }
  destruct (fmul_rnd M M VM VM Fp) as [Vp Rp]. fold m2 in Rp. pose proof (bpow_gt_0 radix2 (-126)) as P126.
  destruct (rnd_normal m2) as [d2 [Hd2 R2]]; [rewrite Rabs_pos_eq by lra; exact Lo|]. rewrite R2 in Rp. apply Rabs_le_inv in Hd2.
  set (p := real (fmul M M)) in *. assert (Pp : m2 * (1 - ulp) <= p <= m2 * (1 + ulp)) by (rewrite Rp; split; apply Rmult_le_compat_l; lra).
  assert (Pm2 : 0 < m2) by lra. assert (Ppos : 0 < p) by nra.
  set (b := real N / m2). assert (Hb0 : 0 <= b) by (unfold b; apply Rmult_le_pos; [auto|apply Rlt_le, Rinv_0_lt_compat; lra]).
  assert (Hb : b <= 1 + 3 * ulp).
  { unfold b. apply Rmult_le_reg_r with m2; auto. unfold Rdiv. rewrite Rmult_assoc, Rinv_l by lra. nra. }
  (* the quotient *)
  assert (Qb : exists w, Rabs w <= 2 * ulp /\ real N / p = b * (1 + w)).
  { exists (m2 / p - 1). split.
    - assert (m2 / p <= 1 + 2 * ulp) by (apply Rmult_le_reg_r with p; auto; unfold Rdiv; rewrite Rmult_assoc, Rinv_l by lra; nra).
      assert (1 - 2 * ulp <= m2 / p) by (apply Rmult_le_reg_r with p; auto; unfold Rdiv; rewrite Rmult_assoc, Rinv_l by lra; nra). apply Rabs_le. lra.
    - unfold b. field. lra. }
  destruct Qb as [w [Hw Qb]]. apply Rabs_le_inv in Hw.
  assert (Np0 : 0 <= real N / p) by (rewrite Qb; nra). assert (Np2 : real N / p <= 2) by (rewrite Qb; nra).
  assert (Fq : finite (fdiv N (fmul M M))).
  { apply fdiv_fin; auto; [fold p; lra|]. apply rnd_small. fold p. rewrite Rabs_pos_eq by auto. eapply Rle_trans; [exact Np2|]. change 2 with (bpow radix2 1). apply bpow_le. lia. }
  destruct (fdiv_rnd N (fmul M M) VN Vp) as [Vq Rq]; [fold p; lra|exact Fq|]. fold p in Rq. set (q := real (fdiv N (fmul M M))) in *.
  assert (Q0 : 0 <= q) by (rewrite Rq, <- rnd_0; apply rnd_le; auto).
  assert (Qe : Rabs (q - b) <= 4 * ulp).
  { destruct (rnd_any (real N / p)) as [d3 [e3 [Hd3 [He3 R3]]]]. rewrite Rq, R3, Qb. apply Rabs_le_inv in Hd3. apply Rabs_le_inv in He3. apply Rabs_le. assert (tiny <= ulp / 4) by nra.
    replace (b * (1 + w) * (1 + d3) + e3 - b) with (b * (w + d3 + w * d3) + e3) by ring.
    assert (Wd : - (3.1 * ulp) <= w + d3 + w * d3 <= 3.1 * ulp) by (split; nra). split; nra. }
  apply Rabs_le_inv in Qe.
  assert (F1 : finite f32_one) by exact I. assert (V1 : f32_valid f32_one = true) by reflexivity.
  assert (R1 : real f32_one = 1). { change f32_one with (f32_of_Z 1). apply (of_Z_int 1). lia. }
  set (r := fsub f32_one (fdiv N (fmul M M))) in *.
  assert (Fr : finite r).
  { apply fsub_fin; auto. apply rnd_small. rewrite R1. fold q. apply Rle_trans with 2; [apply Rabs_le; lra|]. change 2 with (bpow radix2 1). apply bpow_le. lia. }
  destruct (fsub_rnd f32_one (fdiv N (fmul M M)) V1 Vq F1 Fq Fr) as [Vr Rr]. fold r in Vr, Rr. rewrite R1 in Rr. fold q in Rr.
  destruct (fsub_real f32_one (fdiv N (fmul M M)) V1 Vq F1 Fq Fr) as [_ [d4 [Hd4 R4]]]. fold r in R4. rewrite R1 in R4. fold q in R4. apply Rabs_le_inv in Hd4.
  assert (Rle : real r <= 1) by (rewrite Rr; replace 1 with (rnd 1) at 2 by exact rnd_1; apply rnd_le; lra).
  unfold l, last_coord. fold r. destruct (fle r f32_zero) eqn:C.
  - split; [exact I|]. split; [reflexivity|]. cbn [real f32_zero]. split; [lra|]. fold m2. fold b.
    assert (real r <= 0).
    { unfold fle in C. destruct r as [s|[]| |[] m e]; cbn in C; try discriminate; cbn [real]; try lra. assert (0 < powerRZ 2 e) by (apply powerRZ_lt; lra). assert (0 < IZR (Z.pos m)) by (apply IZR_lt; lia). nra. }
    rewrite R4 in H. assert (1 <= q) by (clear - H Hd4 U1 U2; nra). apply Rabs_le. lra.
  - assert (Hr : 0 < real r).
    { unfold fle in C. destruct r as [s|[]| |[] m e]; cbn in C; try discriminate; try (destruct Fr; fail). cbn [real]. assert (0 < powerRZ 2 e) by (apply powerRZ_lt; lra). assert (0 < IZR (Z.pos m)) by (apply IZR_lt; lia). nra. }
    destruct (fsqrt_rnd r Vr) as [Vs [Rs Fs]]. change (SFsqrt prec emax r) with (fsqrt r) in *. split; [apply Fs; auto; lra|]. split; [exact Vs|].
    assert (Sr : sqrt (real r) <= 1) by (rewrite <- sqrt_1; apply sqrt_le_1_alt; lra).
    split. { rewrite Rs. split; [rewrite <- rnd_0; apply rnd_le, sqrt_pos|rewrite <- rnd_1 at 1; apply rnd_le; exact Sr]. }
    assert (Sl : bpow radix2 (-75) <= sqrt (real r)).
    { rewrite <- (sqrt_square (bpow radix2 (-75))) by apply bpow_ge_0. apply sqrt_le_1_alt. rewrite <- bpow_plus. apply Rle_trans with (bpow radix2 (-149)); [apply bpow_le; lia|].
      destruct (to_B r Vr) as [br Hbr]. rewrite <- Hbr in Hr |- *. rewrite real_B2R in *. pose proof (BinarySingleNaN.abs_B2R_ge_emin 24 128 br) as G. rewrite Rabs_pos_eq in G by lra. apply G.
      destruct br; cbn in *; try lra; reflexivity. }
    destruct (rnd_normal (sqrt (real r))) as [d5 [Hd5 R5]]; [rewrite Rabs_pos_eq by apply sqrt_pos; eapply Rle_trans; [|exact Sl]; apply bpow_le; lia|]. apply Rabs_le_inv in Hd5.
    rewrite Rs, R5. replace (sqrt (real r) * (1 + d5) * (sqrt (real r) * (1 + d5))) with (sqrt (real r) * sqrt (real r) * ((1 + d5) * (1 + d5))) by ring. rewrite sqrt_def by lra.
    fold m2. fold b. rewrite R4.
    assert (Q1 : 0 < 1 - q) by (rewrite R4 in Hr; clear - Hr Hd4 U1 U2; nra).
    assert (Dd : 1 - 4 * ulp <= (1 + d4) * ((1 + d5) * (1 + d5)) <= 1 + 4 * ulp).
    { assert (A1 : 1 - 2 * ulp <= (1 + d5) * (1 + d5) <= 1 + 2.5 * ulp) by (clear - Hd5 U1 U2; split; nra). clear - Hd4 A1 U1 U2. set (a := (1 + d5) * (1 + d5)) in *.
      assert (A2 : (1 - ulp) * (1 - 2 * ulp) <= (1 + d4) * a) by (apply Rmult_le_compat; lra). assert (A3 : (1 + d4) * a <= (1 + ulp) * (1 + 2.5 * ulp)) by (apply Rmult_le_compat; lra).
      assert (A4 : 0 <= ulp * ulp <= ulp * / 1000000) by (split; [apply Rmult_le_pos|apply Rmult_le_compat_l]; lra). lra. }
    replace ((1 - q) * (1 + d4) * ((1 + d5) * (1 + d5))) with ((1 - q) * ((1 + d4) * ((1 + d5) * (1 + d5)))) by ring.
    set (z := (1 + d4) * ((1 + d5) * (1 + d5))) in *. clear - Dd Q1 Q0 Qe U1 U2. assert (Z1 : (1 - q) * (1 - 4 * ulp) <= (1 - q) * z) by (apply Rmult_le_compat_l; lra). assert (Z2 : (1 - q) * z <= (1 - q) * (1 + 4 * ulp)) by (apply Rmult_le_compat_l; lra).
    assert (Z3 : (1 - q) * ulp <= 1 * ulp) by (apply Rmult_le_compat_r; lra). assert (Z4 : 0 <= (1 - q) * ulp) by (apply Rmult_le_pos; lra). apply Rabs_le. split; lra.
Qed.

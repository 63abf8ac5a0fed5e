(** Sums and quotients in single precision. *)
From Coq Require Import NArith ZArith Reals Lra Lia List Arith Bool Permutation Floats.SpecFloat.
From Flocq Require Import Core.
From Verif Require Import Base Float32 DivFacts DistSpec DistModel FusedModel RealSpec FloatReal L2ErrorProofs RealDistProofs NormProofs StatsProofs4 PqModel NormModel NormSpec MeanModel MeanSpec.
Import ListNotations.
Local Open Scope R_scope.

(** ** A sum in any order *)
Lemma isum_abs_le : forall e l, Rabs (isum e l) <= isum (fun i => Rabs (e i)) l.
Proof. intros e l. apply isum_abs. intros i _. lra. Qed.

Lemma rnd_real : forall x, f32_valid x = true -> rnd (real x) = real x.
Proof. intros x V. apply round_generic; [auto with typeclass_instances|now apply real_format]. Qed.

Lemma sum_tree : forall (item : nat -> res f32) (e : nat -> R) t,
  (forall i, In i (red_items t) -> exists x, item i = Ok x /\ finite x /\ f32_valid x = true /\ real x = e i) ->
  E (length (red_items t)) * isum (fun i => Rabs (e i)) (red_items t) <= bpow radix2 127 ->
  exists r, red_eval f32_zero (fun x y => Ok (fadd x y)) item t = Ok r /\ finite r /\ f32_valid r = true /\
    Rabs (real r - isum e (red_items t)) <= (E (length (red_items t) - 1) - 1) * isum (fun i => Rabs (e i)) (red_items t).
Proof.
  intros item e. induction t as [|i|l IHl r IHr]; intros Hi Hb; cbn [red_items red_eval].
  - exists f32_zero. cbn. repeat split; try lra. rewrite Rminus_0_r, Rabs_R0. lra.
  - destruct (Hi i (or_introl eq_refl)) as [x [E1 [F [V E2]]]]. exists x. rewrite E1. repeat split; auto. cbn [length Nat.sub pow]. unfold isum. cbn [map real_sum fold_right]. rewrite E2.
    replace (e i - (e i + 0)) with 0 by ring. rewrite Rabs_R0. lra.
  - cbn [red_items] in Hb. rewrite app_length, isum_app in Hb. set (a := length (red_items l)) in *. set (b := length (red_items r)) in *.
    set (Ma := isum (fun i => Rabs (e i)) (red_items l)) in *. set (Mb := isum (fun i => Rabs (e i)) (red_items r)) in *.
    assert (Pa : 0 <= Ma) by (apply isum_nonneg; intros; apply Rabs_pos). assert (Pb : 0 <= Mb) by (apply isum_nonneg; intros; apply Rabs_pos).
    pose proof (E_ge (a + b)) as G0. pose proof (E_mono a (a + b) ltac:(lia)) as Ga. pose proof (E_mono b (a + b) ltac:(lia)) as Gb. pose proof (E_ge a) as G1. pose proof (E_ge b) as G2.
    destruct IHl as [x [-> [Fx [Vx Bx]]]]; [intros i H; apply Hi; cbn [red_items]; apply in_or_app; now left|fold a Ma; apply Rle_trans with (2 := Hb); apply Rmult_le_compat; lra|].
    destruct IHr as [y [-> [Fy [Vy By]]]]; [intros i H; apply Hi; cbn [red_items]; apply in_or_app; now right|fold b Mb; apply Rle_trans with (2 := Hb); apply Rmult_le_compat; lra|].
    fold a Ma in Bx. fold b Mb in By. cbn [bind]. set (Sa := isum e (red_items l)) in *. set (Sb := isum e (red_items r)) in *.
    pose proof (isum_abs_le e (red_items l)) as Aa. fold Sa Ma in Aa. pose proof (isum_abs_le e (red_items r)) as Ab. fold Sb Mb in Ab.
    pose proof (E_mono (a - 1) a ltac:(lia)) as Ga'. pose proof (E_mono (b - 1) b ltac:(lia)) as Gb'. pose proof (E_ge (a - 1)) as G1'. pose proof (E_ge (b - 1)) as G2'.
    assert (Ax : Rabs (real x) <= E a * Ma). { replace (real x) with ((real x - Sa) + Sa) by ring. eapply Rle_trans; [apply Rabs_triang|]. assert (E (a - 1) * Ma <= E a * Ma) by (apply Rmult_le_compat_r; lra). lra. }
    assert (Ay : Rabs (real y) <= E b * Mb). { replace (real y) with ((real y - Sb) + Sb) by ring. eapply Rle_trans; [apply Rabs_triang|]. assert (E (b - 1) * Mb <= E b * Mb) by (apply Rmult_le_compat_r; lra). lra. }
    assert (Fr : finite (fadd x y)).
    { apply fadd_fin; auto. apply rnd_small. eapply Rle_trans; [apply Rabs_triang|]. apply Rle_trans with (2 := Hb). assert (E a * Ma <= E (a + b) * Ma) by (apply Rmult_le_compat_r; lra). assert (E b * Mb <= E (a + b) * Mb) by (apply Rmult_le_compat_r; lra). lra. }
    destruct (fadd_rnd x y Vx Vy Fx Fy Fr) as [Vr Er]. exists (fadd x y). split; [reflexivity|]. split; [exact Fr|]. split; [exact Vr|].
    rewrite app_length, !isum_app. fold a b Sa Sb Ma Mb.
    destruct (Nat.eq_dec a 0) as [Za|Za].
    { assert (N1 : red_items l = []) by (apply length_zero_iff_nil; exact Za). assert (Sa = 0 /\ Ma = 0) as [S0 M0] by (unfold Sa, Ma; rewrite N1; split; reflexivity).
      assert (X0 : real x = 0). { rewrite S0, M0, Rmult_0_r, Rminus_0_r in Bx. pose proof (Rabs_pos (real x)). destruct (Req_dec (real x) 0) as [|Q]; [auto|]. pose proof (Rabs_pos_lt _ Q). lra. }
      rewrite Er, X0, Rplus_0_l, rnd_real, S0, M0, Za, !Rplus_0_l by exact Vy. exact By. }
    destruct (Nat.eq_dec b 0) as [Zb|Zb].
    { assert (N1 : red_items r = []) by (apply length_zero_iff_nil; exact Zb). assert (Sb = 0 /\ Mb = 0) as [S0 M0] by (unfold Sb, Mb; rewrite N1; split; reflexivity).
      assert (X0 : real y = 0). { rewrite S0, M0, Rmult_0_r, Rminus_0_r in By. pose proof (Rabs_pos (real y)). destruct (Req_dec (real y) 0) as [|Q]; [auto|]. pose proof (Rabs_pos_lt _ Q). lra. }
      rewrite Er, X0, Rplus_0_r, rnd_real, S0, M0, Zb, !Rplus_0_r, Nat.add_0_r by exact Vx. exact Bx. }
    destruct (fadd_real x y Vx Vy Fx Fy Fr) as [_ [d [Hd Ed]]]. rewrite Ed.
    pose proof (E_mono (a - 1) (a + b - 2) ltac:(lia)) as K1. pose proof (E_mono (b - 1) (a + b - 2) ltac:(lia)) as K2. pose proof ulp_pos as U.
    assert (Es : E (a + b - 1) = E (a + b - 2) * (1 + ulp)) by (replace (a + b - 1)%nat with (S (a + b - 2)) by lia; cbn [pow]; ring). rewrite Es. set (G := E (a + b - 2)) in *.
    replace ((real x + real y) * (1 + d) - (Sa + Sb)) with ((real x - Sa + (real y - Sb)) * (1 + d) + d * (Sa + Sb)) by ring.
    eapply Rle_trans; [apply Rabs_triang|]. rewrite !Rabs_mult.
    assert (Hd1 : Rabs (1 + d) <= 1 + ulp) by (eapply Rle_trans; [apply Rabs_triang|]; rewrite Rabs_R1; lra).
    assert (S1 : Rabs (Sa + Sb) <= Ma + Mb) by (eapply Rle_trans; [apply Rabs_triang|]; lra).
    assert (B1 : (E (a - 1) - 1) * Ma <= (G - 1) * Ma) by (apply Rmult_le_compat_r; lra). assert (B2 : (E (b - 1) - 1) * Mb <= (G - 1) * Mb) by (apply Rmult_le_compat_r; lra).
    assert (S2 : Rabs (real x - Sa + (real y - Sb)) <= (G - 1) * (Ma + Mb)) by (eapply Rle_trans; [apply Rabs_triang|]; lra).
    assert (Q1 : Rabs (real x - Sa + (real y - Sb)) * Rabs (1 + d) <= ((G - 1) * (Ma + Mb)) * (1 + ulp)) by (apply Rmult_le_compat; auto using Rabs_pos).
    assert (Q2 : Rabs d * Rabs (Sa + Sb) <= ulp * (Ma + Mb)) by (apply Rmult_le_compat; auto using Rabs_pos). lra.
Qed.

(** Integers whose magnitudes add up to at most 2^24. *)
Lemma sum_tree_exact : forall (item : nat -> res f32) (z : nat -> Z) t,
  (forall i, In i (red_items t) -> exists x, item i = Ok x /\ finite x /\ f32_valid x = true /\ real x = IZR (z i)) ->
  (isumZ (fun i => Z.abs (z i)) (red_items t) <= 2 ^ 24)%Z ->
  exists r, red_eval f32_zero (fun x y => Ok (fadd x y)) item t = Ok r /\ finite r /\ f32_valid r = true /\ real r = IZR (isumZ z (red_items t)).
Proof.
  intros item z. assert (Ab : forall l, (Z.abs (isumZ z l) <= isumZ (fun i => Z.abs (z i)) l)%Z).
  { unfold isumZ. induction l as [|i l IH]; cbn [map fold_right]; [lia|]. lia. }
  assert (Ap : forall l m, (isumZ z (l ++ m) = isumZ z l + isumZ z m)%Z /\ (isumZ (fun i => Z.abs (z i)) (l ++ m) = isumZ (fun i => Z.abs (z i)) l + isumZ (fun i => Z.abs (z i)) m)%Z).
  { intros l m. unfold isumZ. induction l as [|i l [IH1 IH2]]; cbn [app map fold_right]; lia. }
  assert (Ps : forall l, (0 <= isumZ (fun i => Z.abs (z i)) l)%Z) by (intro l; pose proof (Ab l); lia).
  induction t as [|i|l IHl r IHr]; intros Hi Hb; cbn [red_items red_eval] in *.
  - exists f32_zero. repeat split; auto.
  - destruct (Hi i (or_introl eq_refl)) as [x [E1 [F [V E2]]]]. exists x. rewrite E1. repeat split; auto. rewrite E2. f_equal. unfold isumZ. cbn. lia.
  - destruct (Ap (red_items l) (red_items r)) as [A1 A2]. rewrite A2 in Hb. pose proof (Ps (red_items l)). pose proof (Ps (red_items r)).
    destruct IHl as [x [-> [Fx [Vx Ex]]]]; [intros i H1; apply Hi; apply in_or_app; now left|lia|].
    destruct IHr as [y [-> [Fy [Vy Ey]]]]; [intros i H1; apply Hi; apply in_or_app; now right|lia|]. cbn [bind].
    pose proof (Ab (red_items l)). pose proof (Ab (red_items r)). destruct (int_rnd (isumZ z (red_items l) + isumZ z (red_items r))) as [R1 R2]; [lia|].
    assert (Fr : finite (fadd x y)) by (apply fadd_fin; auto; rewrite Ex, Ey, <- plus_IZR; exact R2).
    destruct (fadd_rnd x y Vx Vy Fx Fy Fr) as [Vr Er]. exists (fadd x y). repeat split; auto. rewrite Er, Ex, Ey, <- plus_IZR, A1. exact R1.
Qed.

(** ** Division by the number of points *)
Lemma E_prod : forall a b x y, Rabs (x - 1) <= E a - 1 -> Rabs (y - 1) <= E b - 1 -> Rabs (x * y - 1) <= E (a + b) - 1.
Proof.
  intros a b x y Hx Hy. replace (x * y - 1) with ((x - 1) * (y - 1) + (x - 1) + (y - 1)) by ring. rewrite pow_add.
  eapply Rle_trans; [apply Rabs_triang|]. eapply Rle_trans; [apply Rplus_le_compat_r, Rabs_triang|]. rewrite Rabs_mult.
  assert (Rabs (x - 1) * Rabs (y - 1) <= (E a - 1) * (E b - 1)) by (apply Rmult_le_compat; auto using Rabs_pos). lra.
Qed.
Lemma E_one : forall d, Rabs d <= ulp -> Rabs ((1 + d) - 1) <= E 1 - 1.
Proof. intros d H. cbn [pow]. replace (1 + d - 1) with d by ring. lra. Qed.
Lemma E_inv : forall d, Rabs d <= ulp -> Rabs (/ (1 + d) - 1) <= E 2 - 1.
Proof.
  intros d H. pose proof ulp_val as [U1 U2]. apply Rabs_le_inv in H. replace (/ (1 + d) - 1) with (- d * / (1 + d)) by (field; lra). cbn [pow].
  assert (I1 : / (1 + d) <= 2) by (apply Rmult_le_reg_r with (1 + d); [lra|]; rewrite Rinv_l by lra; lra). assert (I0 : 0 < / (1 + d)) by (apply Rinv_0_lt_compat; lra).
  rewrite Rabs_mult, (Rabs_pos_eq (/ (1 + d))) by lra. assert (Rabs (- d) <= ulp) by (rewrite Rabs_Ropp; apply Rabs_le; lra). pose proof (Rabs_pos (- d)). 
  assert (Rabs (- d) * / (1 + d) <= ulp * 2) by (apply Rmult_le_compat; lra). nra.
Qed.

Lemma div_by_ok : forall c s n, f32_valid s = true -> finite s -> Rabs (real s) <= bpow radix2 126 -> (1 <= n < 2 ^ 63)%Z ->
  let q := fdiv_by c s (f32_of_Z n) in finite q /\ f32_valid q = true /\ exists F e, Rabs (F - 1) <= E 4 - 1 /\ Rabs e <= tiny /\ real q = real s / IZR n * F + e.
Proof.
  intros c s n V Fs Bs Hn. destruct (of_Z_big n Hn) as [Fn [Vn [d0 [Hd0 En]]]]. pose proof ulp_val as [U1 U2]. cbv zeta.
  assert (N1 : 1 <= IZR n) by (apply IZR_le; lia). assert (N2 : IZR n <= bpow radix2 63) by (rewrite <- pow_Z by lia; apply IZR_le; lia).
  pose proof (Rabs_le_inv _ _ Hd0) as D0. assert (Pn : 0 < real (f32_of_Z n)) by (rewrite En; nra). pose proof (E_inv d0 Hd0) as K0.
  assert (B0 : Rabs (real s / IZR n) <= bpow radix2 126).
  { unfold Rdiv. rewrite Rabs_mult, (Rabs_pos_eq (/ IZR n)) by (apply Rlt_le, Rinv_0_lt_compat; lra). assert (/ IZR n <= 1) by (rewrite <- Rinv_1; apply Rinv_le; lra).
    assert (0 < / IZR n) by (apply Rinv_0_lt_compat; lra). pose proof (Rabs_pos (real s)). nra. }
  assert (BF : forall F, Rabs (F - 1) <= E 3 - 1 -> Rabs (real s / IZR n * F) <= bpow radix2 127).
  { intros F HF. rewrite Rabs_mult. assert (Rabs F <= 2). { apply Rabs_le_inv in HF. cbn [pow] in HF. apply Rabs_le. nra. }
    change (bpow radix2 127) with (bpow radix2 (126 + 1)). rewrite bpow_plus. change (bpow radix2 1) with 2. apply Rmult_le_compat; auto using Rabs_pos. }
  destruct c; cbn [fdiv_by].
  - assert (Q : real s / real (f32_of_Z n) = real s / IZR n * / (1 + d0)) by (rewrite En; field; lra).
    assert (Fq : finite (fdiv s (f32_of_Z n))).
    { apply fdiv_fin; auto; [lra|]. rewrite Q. apply rnd_small, BF. eapply Rle_trans; [exact K0|]. apply Rplus_le_compat_r, E_mono. lia. }
    destruct (fdiv_rnd s _ V Vn ltac:(lra) Fq) as [Vq Eq]. split; [exact Fq|]. split; [exact Vq|].
    destruct (rnd_any (real s / real (f32_of_Z n))) as [d [e [Hd [He Ed]]]]. exists (/ (1 + d0) * (1 + d)), e. split; [|split; [exact He|rewrite Eq, Ed, Q; ring]].
    eapply Rle_trans; [apply (E_prod 2 1); [exact K0|now apply E_one]|]. apply Rplus_le_compat_r, E_mono. lia.
  - assert (O1 : finite f32_one /\ f32_valid f32_one = true /\ real f32_one = 1).
    { repeat split. cbn [real f32_one]. change 2 with (IZR radix2). rewrite <- bpow_powerRZ. change (bpow radix2 (-23)) with (/ 8388608). lra. } destruct O1 as [F1 [V1 R1]].
    assert (Q : real f32_one / real (f32_of_Z n) = / IZR n * / (1 + d0)) by (rewrite En, R1; field; lra).
    assert (I1 : / IZR n <= 1) by (rewrite <- Rinv_1; apply Rinv_le; lra). assert (I0 : bpow radix2 (-63) <= / IZR n) by (change (-63)%Z with (- (63))%Z; rewrite bpow_opp; apply Rinv_le; lra).
    pose proof (bpow_gt_0 radix2 (-63)) as P63. apply Rabs_le_inv in K0. cbn [pow] in K0.
    assert (J1 : / 2 <= / (1 + d0) <= 2) by nra. assert (J2 : 0 < / IZR n) by lra. assert (J3 : / IZR n * / (1 + d0) <= 2) by (apply Rle_trans with (1 * 2); [apply Rmult_le_compat; lra|lra]).
    assert (J4 : bpow radix2 (-63) * / 2 <= / IZR n * / (1 + d0)) by (apply Rmult_le_compat; lra).
    assert (Fr : finite (fdiv f32_one (f32_of_Z n))).
    { apply fdiv_fin; auto; [lra|]. rewrite Q. apply rnd_small. rewrite Rabs_pos_eq by lra. apply Rle_trans with (1 := J3). change 2 with (bpow radix2 1). apply bpow_le. lia. }
    destruct (fdiv_rnd f32_one _ V1 Vn ltac:(lra) Fr) as [Vr Er].
    destruct (rnd_normal (/ IZR n * / (1 + d0))) as [d1 [Hd1 Ed1]].
    { rewrite Rabs_pos_eq by lra. apply Rle_trans with (2 := J4). change (/ 2) with (bpow radix2 (-1)). rewrite <- bpow_plus. apply bpow_le. lia. }
    set (r := fdiv f32_one (f32_of_Z n)) in *. assert (Rr : real r = / IZR n * (/ (1 + d0) * (1 + d1))) by (rewrite Er, Q, Ed1; ring).
    assert (K1 : Rabs (/ (1 + d0) * (1 + d1) - 1) <= E 3 - 1) by (apply (E_prod 2 1); [apply Rabs_le; cbn [pow]; lra|now apply E_one]).
    assert (P : real s * real r = real s / IZR n * (/ (1 + d0) * (1 + d1))) by (rewrite Rr; field; lra).
    assert (Fq : finite (fmul s r)) by (apply fmul_fin; auto; rewrite P; apply rnd_small, BF, K1).
    destruct (fmul_rnd s r V Vr Fq) as [Vq Eq]. split; [exact Fq|]. split; [exact Vq|].
    destruct (rnd_any (real s * real r)) as [d [e [Hd [He Ed]]]]. exists (/ (1 + d0) * (1 + d1) * (1 + d)), e. split; [|split; [exact He|rewrite Eq, Ed, P; ring]].
    apply (E_prod 3 1); [exact K1|now apply E_one].
Qed.

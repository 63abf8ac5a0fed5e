(** The numbers of the random data. *)
From Coq Require Import NArith ZArith Reals Lra Lia List Arith Bool Floats.SpecFloat.
From Flocq Require Import Core.
From Verif Require Import Base Bytes Float32 DivFacts FloatBits DistSpec FusedModel RealSpec FloatReal L2ErrorProofs RealDistProofs NormModel NormProofs NormProofs2 MeanProofs3 RandModel RandSpec RandProofs RandProofs2 RandDistModel RandDistSpec.
Import ListNotations.
Local Open Scope R_scope.

Lemma format_bp : forall k, (-149 <= k)%Z -> generic_format radix2 (FLT_exp (-149) 24) (bpow radix2 k).
Proof. intros k H. apply generic_format_bpow'; [auto with typeclass_instances|]. unfold FLT_exp. lia. Qed.
Lemma rnd_bp : forall k, (-149 <= k)%Z -> rnd (bpow radix2 k) = bpow radix2 k.
Proof. intros k H. apply round_generic; [auto with typeclass_instances|now apply format_bp]. Qed.
Lemma rnd_neg1 : rnd (-1) = -1.
Proof. apply round_generic; [auto with typeclass_instances|]. apply generic_format_opp. exact (format_bp 0 ltac:(lia)). Qed.
Lemma rnd_nbp : forall k, (-149 <= k)%Z -> rnd (- bpow radix2 k) = - bpow radix2 k.
Proof. intros k H. apply round_generic; [auto with typeclass_instances|]. apply generic_format_opp. now apply format_bp. Qed.
Lemma rnd_away : forall k x, (-149 <= k)%Z -> bpow radix2 k <= Rabs x -> bpow radix2 k <= Rabs (rnd x).
Proof.
  intros k x H B. assert (P : 0 < bpow radix2 k) by apply bpow_gt_0. destruct (Rle_or_lt 0 x) as [L|L].
  - rewrite Rabs_pos_eq in B by exact L. apply rnd_le in B. rewrite rnd_bp in B by exact H. rewrite Rabs_pos_eq by lra. exact B.
  - rewrite Rabs_left in B by exact L. assert (Q : rnd x <= - bpow radix2 k) by (rewrite <- rnd_nbp by exact H; apply rnd_le; lra). rewrite Rabs_left1 by lra. lra.
Qed.
Lemma rnd_within : forall k x, (-149 <= k)%Z -> Rabs x <= bpow radix2 k -> Rabs (rnd x) <= bpow radix2 k.
Proof.
  intros k x H B. apply Rabs_le_inv in B. apply Rabs_le. split; [rewrite <- rnd_nbp by exact H; apply rnd_le; lra|rewrite <- (rnd_bp k) by exact H; apply rnd_le; lra].
Qed.
Lemma two_ok : finite (f32_of_Z 2) /\ f32_valid (f32_of_Z 2) = true /\ real (f32_of_Z 2) = 2.
Proof. split; [exact I|]. split; [reflexivity|]. change (f32_of_Z 2) with (S754_finite false 8388608 (-22)). cbn [real]. rewrite pow_bp. change 8388608%Z with (radix2 ^ 23)%Z. rewrite IZR_Zpower by lia. rewrite Rmult_1_l, <- bpow_plus. reflexivity. Qed.
Lemma ntwo_ok : finite (f32_of_Z (-2)) /\ f32_valid (f32_of_Z (-2)) = true /\ real (f32_of_Z (-2)) = -2.
Proof. split; [exact I|]. split; [reflexivity|]. change (f32_of_Z (-2)) with (S754_finite true 8388608 (-22)). cbn [real]. rewrite pow_bp. change 8388608%Z with (radix2 ^ 23)%Z. rewrite IZR_Zpower by lia. rewrite Rmult_assoc, <- bpow_plus. change (bpow radix2 (23 + -22)) with 2. lra. Qed.

(** Twice a number of [0, 1), less one. *)
Lemma twice_less : forall w, (w < 2 ^ 32)%N -> let t := rnd (2 * real (canonical32 w)) in
  t = 2 * real (canonical32 w) /\ generic_format radix2 (FLT_exp (-149) 24) t /\ 0 <= t <= 2 - bpow radix2 (-23).
Proof.
  intros w Hw t. destruct (unit32 w Hw) as [F [V [B D]]]. pose proof (real_format _ V) as G.
  assert (E : t = 2 * real (canonical32 w)).
  { apply round_generic; [auto with typeclass_instances|]. apply FLT_format_generic in G; [|reflexivity]. destruct G as [[m e] Em Mm Me]. cbn [Fnum Fexp] in *. apply generic_format_FLT. exists (Float radix2 m (e + 1)); cbn [Fnum Fexp]; [|exact Mm|lia].
    rewrite Em. unfold F2R. cbn [Fnum Fexp]. rewrite bpow_plus. change (bpow radix2 1) with 2. ring. }
  split; [exact E|]. split; [apply generic_format_round; auto with typeclass_instances|]. rewrite E. change (-23)%Z with (-24 + 1)%Z. rewrite bpow_plus. change (bpow radix2 1) with 2. lra.
Qed.
Lemma less_one : forall t, generic_format radix2 (FLT_exp (-149) 24) t -> 0 <= t <= 2 - bpow radix2 (-23) -> let r := rnd (t - 1) in -1 <= r <= 1 - bpow radix2 (-23) /\ (r = 0 \/ bpow radix2 (-24) <= Rabs r).
Proof.
  intros t G B r. assert (B23 : 0 < bpow radix2 (-23)) by apply bpow_gt_0. assert (U : rnd (1 - bpow radix2 (-23)) = 1 - bpow radix2 (-23)).
  { apply round_generic; [auto with typeclass_instances|]. apply generic_format_FLT. exists (Float radix2 8388607 (-23)); cbn [Fnum Fexp]; [|reflexivity|lia]. unfold F2R. cbn [Fnum Fexp]. replace 8388607 with (IZR (radix2 ^ 23) - 1) by (change (radix2 ^ 23)%Z with 8388608%Z; lra). rewrite IZR_Zpower by lia. rewrite Rmult_minus_distr_r, <- bpow_plus. change (bpow radix2 (23 + -23)) with 1. ring. }
  split.
  - split; [rewrite <- rnd_neg1; apply rnd_le; lra|]. rewrite <- U. apply rnd_le. lra.
  - destruct (Rlt_or_le t (/ 2)) as [L|L].
    + right. apply Rle_trans with (bpow radix2 (-1)); [apply bpow_le; lia|]. apply rnd_away; [lia|]. rewrite Rabs_left by lra. change (bpow radix2 (-1)) with (/ 2). lra.
    + apply FLT_format_generic in G; [|reflexivity]. destruct G as [[m e] Em Mm Me]. cbn [Fnum Fexp] in *.
      assert (He : (-25 < e)%Z).
      { destruct (Z_lt_le_dec (-25) e) as [|Q]; auto. exfalso. assert (t < / 2); [|lra]. rewrite Em. unfold F2R. cbn [Fnum Fexp]. apply Rlt_le_trans with (bpow radix2 24 * bpow radix2 e).
        - apply Rmult_lt_compat_r; [apply bpow_gt_0|]. rewrite <- IZR_Zpower by lia. apply IZR_lt. lia.
        - rewrite <- bpow_plus. change (/ 2) with (bpow radix2 (-1)). apply bpow_le. lia. }
      assert (Ej : t - 1 = IZR (m * 2 ^ (e + 24) - 2 ^ 24) * bpow radix2 (-24)).
      { rewrite minus_IZR, mult_IZR, !(IZR_Zpower radix2) by lia. rewrite Rmult_minus_distr_r, Rmult_assoc, <- !bpow_plus. replace (e + 24 + -24)%Z with e by lia. change (bpow radix2 (24 + -24)) with 1. rewrite Em. unfold F2R. cbn [Fnum Fexp]. reflexivity. }
      destruct (Z.eq_dec (m * 2 ^ (e + 24) - 2 ^ 24) 0) as [Z0|Z0].
      * left. unfold r. rewrite Ej, Z0, Rmult_0_l. apply rnd_0.
      * right. apply rnd_away; [lia|]. rewrite Ej, Rabs_mult, (Rabs_pos_eq (bpow _ _)) by apply bpow_ge_0. rewrite <- (Rmult_1_l (bpow radix2 (-24))) at 1. apply Rmult_le_compat_r; [apply bpow_ge_0|]. rewrite <- abs_IZR. apply IZR_le. lia.
Qed.

Lemma twice_fin : forall w, (w < 2 ^ 32)%N -> let a := fmul (canonical32 w) (f32_of_Z 2) in let b := fmul (f32_of_Z 2) (canonical32 w) in
  (finite a /\ f32_valid a = true /\ real a = 2 * real (canonical32 w)) /\ (finite b /\ f32_valid b = true /\ real b = 2 * real (canonical32 w)).
Proof.
  intros w Hw a b. destruct (unit32 w Hw) as [F [V [B D]]]. destruct two_ok as [F2 [V2 R2]]. destruct (twice_less w Hw) as [E [G T]]. assert (S : Rabs (rnd (2 * real (canonical32 w))) < bpow radix2 128).
  { pose proof (bpow_gt_0 radix2 (-23)). apply rnd_small. rewrite Rabs_pos_eq by lra. apply Rle_trans with (bpow radix2 1); [change (bpow radix2 1) with 2; lra|apply bpow_le; lia]. }
  split.
  - assert (Fa : finite a) by (apply fmul_fin; auto; rewrite R2, Rmult_comm; exact S). destruct (fmul_rnd _ _ V V2 Fa) as [Va Ra]. split; [exact Fa|]. split; [exact Va|]. unfold a. rewrite Ra, R2, Rmult_comm. exact E.
  - assert (Fb : finite b) by (apply fmul_fin; auto; rewrite R2; exact S). destruct (fmul_rnd _ _ V2 V Fb) as [Vb Rb]. split; [exact Fb|]. split; [exact Vb|]. unfold b. rewrite Rb, R2. exact E.
Qed.

(** ** The cube *)
Lemma cube_range : forall w, (w < 2 ^ 32)%N -> finite (cube_value w) /\ -1 <= real (cube_value w) <= 1 - powerRZ 2 (-23) /\ Rabs (real (cube_value w) - (2 * fraction w - 1)) <= powerRZ 2 (-22).
Proof.
  intros w Hw. rewrite !pow_bp. unfold cube_value, uniform32. change (fsub f32_one (fneg f32_one)) with (f32_of_Z 2). destruct (twice_fin w Hw) as [[Fa [Va Ra]] _]. destruct (twice_less w Hw) as [E [G T]]. rewrite E in G, T.
  assert (N1 : real (fneg f32_one) = -1). { pose proof one_real as O. unfold f32_one in O. change (fneg f32_one) with (S754_finite true 8388608 (-23)). cbn [real] in O |- *. lra. }
  destruct (less_one _ G T) as [B _]. destruct (unit32 w Hw) as [_ [_ [Bc D]]]. set (c := real (canonical32 w)) in *. set (a := fmul _ _) in *.
  assert (B23 : 0 < bpow radix2 (-23)) by apply bpow_gt_0.
  assert (Fs : finite (fadd a (fneg f32_one))). { apply fadd_fin; [exact Va|reflexivity|exact Fa|exact I|]. rewrite Ra, N1. apply rnd_small. apply Rle_trans with 1; [apply Rabs_le; lra|]. change 1 with (bpow radix2 0). apply bpow_le. lia. }
  destruct (fadd_rnd a (fneg f32_one) Va eq_refl Fa I Fs) as [Vs Rs]. split; [exact Fs|]. rewrite Rs, Ra, N1. change (2 * c + -1) with (2 * c - 1). split; [exact B|].
  assert (Er : Rabs (rnd (2 * c - 1) - (2 * c - 1)) <= bpow radix2 (-24)).
  { assert (A1 : Rabs (2 * c - 1) <= 1) by (apply Rabs_le; lra). destruct (Rle_or_lt (bpow radix2 (-126)) (Rabs (2 * c - 1))) as [L|L].
    - destruct (rnd_normal _ L) as [d [Hd ->]]. replace ((2 * c - 1) * (1 + d) - (2 * c - 1)) with ((2 * c - 1) * d) by ring. rewrite Rabs_mult. rewrite <- (Rmult_1_l (bpow radix2 (-24))). apply Rmult_le_compat; try apply Rabs_pos; auto.
      rewrite ulp_bpow in Hd. replace (bpow radix2 (-24)) with (/ 2 * bpow radix2 (-24 + 1)); [exact Hd|]. change (/ 2) with (bpow radix2 (-1)). rewrite <- bpow_plus. reflexivity.
    - pose proof (rnd_within (-126) (2 * c - 1) ltac:(lia) ltac:(lra)) as W. eapply Rle_trans; [apply Rabs_triang|]. rewrite Rabs_Ropp. apply Rle_trans with (bpow radix2 (-126) * 2); [lra|]. change (bpow radix2 (-126) * bpow radix2 1 <= bpow radix2 (-24)). rewrite <- bpow_plus. apply bpow_le. lia. }
  unfold fraction. apply Rabs_le_inv in Er, D. apply Rabs_le. change (-22)%Z with (-24 + 2)%Z. rewrite bpow_plus. change (bpow radix2 2) with 4. rewrite pow_bp. lra.
Qed.

(** ** Points of the disc *)
Lemma coord_ok : forall w, (w < 2 ^ 32)%N -> let x := polar_coord w in finite x /\ f32_valid x = true /\ Rabs (real x) <= 1 /\ (real x = 0 \/ bpow radix2 (-24) <= Rabs (real x)).
Proof.
  intros w Hw x. unfold x, polar_coord. destruct (twice_fin w Hw) as [_ [Fa [Va Ra]]]. destruct (twice_less w Hw) as [E [G T]]. rewrite E in G, T. destruct (less_one _ G T) as [B Z]. set (a := fmul _ _) in *.
  assert (B23 : 0 < bpow radix2 (-23)) by apply bpow_gt_0.
  assert (Fs : finite (fsub a f32_one)). { apply fsub_fin; [exact Va|reflexivity|exact Fa|exact I|]. rewrite Ra, one_real. apply rnd_small. apply Rle_trans with 1; [apply Rabs_le; lra|]. change 1 with (bpow radix2 0). apply bpow_le. lia. }
  destruct (fsub_rnd a f32_one Va eq_refl Fa I Fs) as [Vs Rs]. split; [exact Fs|]. split; [exact Vs|]. rewrite Rs, Ra, one_real. split; [apply Rabs_le; lra|exact Z].
Qed.
Lemma square_ok : forall x, finite x -> f32_valid x = true -> Rabs (real x) <= 1 -> finite (fmul x x) /\ f32_valid (fmul x x) = true /\ real (fmul x x) = rnd (real x ^ 2) /\ 0 <= rnd (real x ^ 2) <= 1.
Proof.
  intros x F V B. assert (S : 0 <= real x ^ 2 <= 1). { split; [apply pow2_ge_0|]. rewrite <- (Rabs_pos_eq (real x ^ 2)) by apply pow2_ge_0. rewrite <- RPow_abs. pose proof (Rabs_pos (real x)). nra. }
  assert (P : real x * real x = real x ^ 2) by ring. assert (Fm : finite (fmul x x)). { apply fmul_fin; auto. rewrite P. apply rnd_small. rewrite Rabs_pos_eq by lra. apply Rle_trans with 1; [lra|]. change 1 with (bpow radix2 0). apply bpow_le. lia. }
  destruct (fmul_rnd x x V V Fm) as [Vm Rm]. rewrite P in Rm. split; [exact Fm|]. split; [exact Vm|]. split; [exact Rm|]. split; [rewrite <- rnd_0; apply rnd_le; lra|rewrite <- rnd_1; apply rnd_le; lra].
Qed.
Lemma half_of : forall x, bpow radix2 (-126) <= x -> / 2 * x <= rnd x <= 2 * x.
Proof.
  intros x H. assert (P : 0 < x) by (eapply Rlt_le_trans; [apply bpow_gt_0|exact H]). destruct (rnd_normal x) as [d [Hd ->]]; [now rewrite Rabs_pos_eq by lra|]. rewrite ulp_bpow in Hd.
  assert (U : bpow radix2 (-24 + 1) <= 1) by (change 1 with (bpow radix2 0); apply bpow_le; lia). apply Rabs_le_inv in Hd. split; nra.
Qed.

Lemma r2_ok : forall way x y, (forall z, z = x \/ z = y -> finite z /\ f32_valid z = true /\ Rabs (real z) <= 1 /\ (real z = 0 \/ bpow radix2 (-24) <= Rabs (real z))) ->
  let r := polar_r2 way x y in finite r /\ f32_valid r = true /\ (real r = 0 \/ bpow radix2 (-48) <= real r) /\ (forall z, z = x \/ z = y -> real z ^ 2 <= 2 * real r).
Proof.
  intros way x y H r. destruct (H x (or_introl eq_refl)) as [Fx [Vx [Bx Zx]]]. destruct (H y (or_intror eq_refl)) as [Fy [Vy [By Zy]]]. destruct (square_ok x Fx Vx Bx) as [Fxx [Vxx [Rx Sx]]]. destruct (square_ok y Fy Vy By) as [Fyy [Vyy [Ry Sy]]].
  assert (Px : 0 <= real x ^ 2 <= 1). { split; [apply pow2_ge_0|]. rewrite <- (Rabs_pos_eq (real x ^ 2)) by apply pow2_ge_0. rewrite <- RPow_abs. pose proof (Rabs_pos (real x)). nra. }
  assert (Py : 0 <= real y ^ 2 <= 1). { split; [apply pow2_ge_0|]. rewrite <- (Rabs_pos_eq (real y ^ 2)) by apply pow2_ge_0. rewrite <- RPow_abs. pose proof (Rabs_pos (real y)). nra. }
  assert (B2 : 2 <= bpow radix2 127) by (change 2 with (bpow radix2 1) at 1; apply bpow_le; lia).
  assert (E : exists s, finite r /\ f32_valid r = true /\ real r = rnd s /\ 0 <= s <= 2 /\ (real x = 0 -> real y = 0 -> s = 0) /\ (forall z, z = x \/ z = y -> rnd (real z ^ 2) <= rnd s)).
  { assert (G : forall s, 0 <= s <= 2 -> Rabs (rnd s) < bpow radix2 128) by (intros s Hs; apply rnd_small; rewrite Rabs_pos_eq by lra; lra).
    assert (Z0 : forall z : f32, real z = 0 -> real z ^ 2 = 0) by (intros z ->; ring). assert (Id : forall t, rnd (rnd t) = rnd t) by (intros t; apply round_generic; [auto with typeclass_instances|apply generic_format_round; auto with typeclass_instances]).
    destruct way; unfold r, polar_r2.
    - exists (rnd (real x ^ 2) + rnd (real y ^ 2)). assert (F : finite (fadd (fmul x x) (fmul y y))) by (apply fadd_fin; auto; rewrite Rx, Ry; apply G; lra). destruct (fadd_rnd _ _ Vxx Vyy Fxx Fyy F) as [V R]. rewrite Rx, Ry in R. split; [exact F|]. split; [exact V|]. split; [exact R|]. split; [lra|]. split.
      + intros A B. rewrite (Z0 x A), (Z0 y B), rnd_0. ring.
      + intros z [->| ->]; rewrite <- (Id (real _ ^ 2)) at 1; apply rnd_le; lra.
    - exists (real x ^ 2 + rnd (real y ^ 2)). assert (Q : real x * real x + real (fmul y y) = real x ^ 2 + rnd (real y ^ 2)) by (rewrite Ry; ring). assert (F : finite (ffma x x (fmul y y))) by (apply ffma_fin; auto; rewrite Q; apply G; lra). destruct (ffma_rnd _ _ _ Fx Fx Fyy F) as [V R]. rewrite Q in R. split; [exact F|]. split; [exact V|]. split; [exact R|]. split; [lra|]. split.
      + intros A B. rewrite (Z0 x A), (Z0 y B), rnd_0. ring.
      + intros z [->| ->]; [apply rnd_le; lra|]. rewrite <- (Id (real y ^ 2)) at 1; apply rnd_le; lra.
    - exists (real y ^ 2 + rnd (real x ^ 2)). assert (Q : real y * real y + real (fmul x x) = real y ^ 2 + rnd (real x ^ 2)) by (rewrite Rx; ring). assert (F : finite (ffma y y (fmul x x))) by (apply ffma_fin; auto; rewrite Q; apply G; lra). destruct (ffma_rnd _ _ _ Fy Fy Fxx F) as [V R]. rewrite Q in R. split; [exact F|]. split; [exact V|]. split; [exact R|]. split; [lra|]. split.
      + intros A B. rewrite (Z0 x A), (Z0 y B), rnd_0. ring.
      + intros z [->| ->]; [|apply rnd_le; lra]. rewrite <- (Id (real x ^ 2)) at 1; apply rnd_le; lra. }
  destruct E as [s [F [V [R [Hs [S0 Sz]]]]]]. split; [exact F|]. split; [exact V|]. rewrite R. assert (Pr : 0 <= rnd s) by (rewrite <- rnd_0; apply rnd_le; lra).
  assert (Sq : forall z, z = x \/ z = y -> real z = 0 \/ bpow radix2 (-48) <= real z ^ 2).
  { intros z Hz. destruct (H z Hz) as [_ [_ [_ [Q|Q]]]]; [now left|right]. rewrite <- (Rabs_pos_eq (real z ^ 2)) by apply pow2_ge_0. rewrite <- RPow_abs. change (-48)%Z with (-24 + -24)%Z. rewrite bpow_plus. pose proof (bpow_gt_0 radix2 (-24)). nra. }
  assert (Low : forall z, z = x \/ z = y -> bpow radix2 (-48) <= real z ^ 2 -> bpow radix2 (-48) <= rnd s).
  { intros z Hz Q. eapply Rle_trans; [|apply (Sz z Hz)]. rewrite <- (rnd_bp (-48)) at 1 by lia. now apply rnd_le. }
  split.
  - destruct (Sq x (or_introl eq_refl)) as [Qx|Qx]; [|right; apply (Low x); auto]. destruct (Sq y (or_intror eq_refl)) as [Qy|Qy]; [|right; apply (Low y); auto]. left. rewrite S0 by auto. apply rnd_0.
  - intros z Hz. destruct (Sq z Hz) as [Q|Q]; [rewrite Q; replace (0 ^ 2) with 0 by ring; lra|]. destruct (half_of (real z ^ 2)) as [A _]; [eapply Rle_trans; [|exact Q]; apply bpow_le; lia|]. specialize (Sz z Hz). lra.
Qed.

(** ** The factor *)
Lemma mult_ok : forall logf r, log_ok logf -> finite r -> f32_valid r = true -> bpow radix2 (-48) <= real r <= 1 ->
  let m := polar_mult logf r in finite m /\ f32_valid m = true /\ 0 <= real m /\ real m ^ 2 * real r <= 544 /\ real m <= bpow radix2 60.
Proof.
  intros logf r HL F V B m. unfold log_ok in HL. rewrite pow_bp in HL. destruct (HL r F V B) as [Fl [Vl Bl]]. destruct ntwo_ok as [F2 [V2 R2]]. assert (Pr : 0 < real r) by (eapply Rlt_le_trans; [apply bpow_gt_0|apply B]).
  assert (Pb : 0 < bpow radix2 (-48)) by apply bpow_gt_0.
  assert (B127 : bpow radix2 60 <= bpow radix2 127) by (apply bpow_le; lia). assert (B60 : 1000000 <= bpow radix2 60) by (rewrite <- IZR_Zpower by lia; apply IZR_le; cbn; lia).
  set (l := logf r) in *. assert (Fa : finite (fmul (f32_of_Z (-2)) l)). { apply fmul_fin; auto. rewrite R2. apply rnd_small. apply Rabs_le. lra. }
  destruct (fmul_rnd _ _ V2 Vl Fa) as [Va Ra]. rewrite R2 in Ra. set (a := fmul _ l) in *.
  assert (E68 : rnd 68 = 68) by (destruct (int_rnd 68) as [H _]; [lia|exact H]). assert (Ba : 0 <= real a <= 68). { rewrite Ra. split; [rewrite <- rnd_0; apply rnd_le; lra|rewrite <- E68; apply rnd_le; lra]. }
  assert (Ir : 1 <= / real r) by (rewrite <- Rinv_1; apply Rinv_le; lra).
  assert (Ir2 : / real r <= bpow radix2 48). { replace (bpow radix2 48) with (/ bpow radix2 (-48)) by (rewrite <- bpow_opp; reflexivity). apply Rinv_le; [apply bpow_gt_0|apply B]. }
  assert (Q68 : 0 <= real a / real r <= 68 / real r). { unfold Rdiv. split; [apply Rmult_le_pos; lra|apply Rmult_le_compat_r; lra]. }
  assert (U68 : 68 <= 68 / real r <= bpow radix2 55). { unfold Rdiv. split; [lra|]. apply Rle_trans with (bpow radix2 7 * bpow radix2 48); [apply Rmult_le_compat; try lra; change (bpow radix2 7) with 128; lra|rewrite <- bpow_plus; apply Rle_refl]. }
  assert (B55 : bpow radix2 55 <= bpow radix2 59) by (apply bpow_le; lia). assert (B59 : bpow radix2 59 * 2 = bpow radix2 60) by (change 2 with (bpow radix2 1); rewrite <- bpow_plus; reflexivity).
  assert (Fq : finite (fdiv a r)). { apply fdiv_fin; auto; [lra|]. apply rnd_small. rewrite Rabs_pos_eq by lra. lra. }
  destruct (fdiv_rnd a r Va V ltac:(lra) Fq) as [Vq Rq]. set (q := fdiv a r) in *.
  assert (Bq : 0 <= real q <= 136 / real r). { rewrite Rq. split; [rewrite <- rnd_0; apply rnd_le; lra|]. destruct (half_of (68 / real r)) as [_ H]; [apply Rle_trans with 1; [change 1 with (bpow radix2 0); apply bpow_le; lia|lra]|]. apply Rle_trans with (rnd (68 / real r)); [apply rnd_le; lra|]. unfold Rdiv in *. lra. }
  destruct (fsqrt_rnd q Vq) as [Vm [Rm Fm]]. change (SFsqrt prec emax q) with m in *. split; [apply Fm; auto; lra|]. split; [exact Vm|].
  assert (S1 : 1 <= 136 / real r) by (unfold Rdiv; lra). assert (Sq1 : 1 <= sqrt (136 / real r)) by (rewrite <- sqrt_1; apply sqrt_le_1; lra).
  assert (Bm : 0 <= real m <= 2 * sqrt (136 / real r)).
  { rewrite Rm. split; [rewrite <- rnd_0; apply rnd_le, sqrt_pos|]. destruct (half_of (sqrt (136 / real r))) as [_ H]; [apply Rle_trans with 1; [change 1 with (bpow radix2 0); apply bpow_le; lia|lra]|]. apply Rle_trans with (rnd (sqrt (136 / real r))); [apply rnd_le, sqrt_le_1; lra|exact H]. }
  split; [apply Bm|]. assert (Sq : sqrt (136 / real r) ^ 2 = 136 / real r) by (rewrite pow2_sqrt; lra). assert (M2 : real m ^ 2 <= 544 / real r).
  { apply Rle_trans with ((2 * sqrt (136 / real r)) ^ 2); [apply pow_incr; lra|]. rewrite Rpow_mult_distr, Sq. unfold Rdiv. lra. }
  split.
  - apply Rle_trans with (544 / real r * real r); [apply Rmult_le_compat_r; lra|]. right. field. lra.
  - assert (W : sqrt (136 / real r) <= 136 / real r). { rewrite <- Sq at 2. nra. } assert (F55 : 4 * bpow radix2 55 <= bpow radix2 60) by (change (bpow radix2 2 * bpow radix2 55 <= bpow radix2 60); rewrite <- bpow_plus; apply bpow_le; lia). assert (D4 : 136 / real r = 2 * (68 / real r)) by (unfold Rdiv; ring). lra.
Qed.

(** ** The numbers *)
Lemma scaled_ok : forall logf r z, log_ok logf -> finite r -> f32_valid r = true -> bpow radix2 (-48) <= real r <= 1 -> finite z -> f32_valid z = true -> Rabs (real z) <= 1 -> real z ^ 2 <= 2 * real r ->
  let v := normal_param (fmul z (polar_mult logf r)) in finite v /\ f32_valid v = true /\ Rabs (real v) <= 64.
Proof.
  intros logf r z HL F V B Fz Vz Bz Hz v. destruct (mult_ok logf r HL F V B) as [Fm [Vm [Pm [M2 M60]]]]. set (m := polar_mult logf r) in *. assert (Pr : 0 < real r) by (eapply Rlt_le_trans; [apply bpow_gt_0|apply B]).
  assert (P : Rabs (real z * real m) <= 64).
  { assert (S : (real z * real m) ^ 2 <= 64 ^ 2). { rewrite Rpow_mult_distr. apply Rle_trans with (2 * real r * real m ^ 2); [apply Rmult_le_compat_r; [apply pow2_ge_0|exact Hz]|]. nra. } apply Rabs_le. split; nra. }
  assert (B64 : 64 = bpow radix2 6) by reflexivity. rewrite B64 in P. assert (Lt : bpow radix2 6 <= bpow radix2 127) by (apply bpow_le; lia). pose proof (rnd_within 6 _ ltac:(lia) P) as W.
  assert (F1 : finite (fmul z m)) by (apply fmul_fin; auto; apply rnd_small; lra). destruct (fmul_rnd z m Vz Vm F1) as [V1 R1]. set (u := fmul z m) in *. rewrite <- R1 in W.
  assert (F2 : finite (fmul u f32_one)). { apply fmul_fin; [exact V1|reflexivity|exact F1|exact I|]. rewrite one_real, Rmult_1_r. apply rnd_small. lra. }
  destruct (fmul_rnd u f32_one V1 eq_refl F2) as [V2 R2]. rewrite one_real, Rmult_1_r, rnd_fmt in R2 by exact V1.
  assert (F3 : finite (fadd (fmul u f32_one) f32_zero)). { apply fadd_fin; [exact V2|reflexivity|exact F2|exact I|]. cbn [real f32_zero]. rewrite R2, Rplus_0_r. apply rnd_small. lra. }
  destruct (fadd_rnd _ f32_zero V2 eq_refl F2 I F3) as [V3 R3]. cbn [real f32_zero] in R3. rewrite R2, Rplus_0_r, rnd_fmt in R3 by exact V1. unfold v, normal_param. split; [exact F3|]. split; [exact V3|]. rewrite R3, B64. exact W.
Qed.
Lemma kept_range : forall r, finite r -> f32_valid r = true -> (real r = 0 \/ bpow radix2 (-48) <= real r) -> rejected r = false -> bpow radix2 (-48) <= real r <= 1.
Proof.
  intros r F V Z H. unfold rejected in H. apply orb_false_iff in H as [H1 H2]. split.
  - destruct Z as [Z|Z]; auto. exfalso. destruct r as [s|s| |s m e]; try (destruct F); [discriminate H2|]. cbn [real] in Z. rewrite pow_bp in Z. pose proof (bpow_gt_0 radix2 e) as P. assert (Pm : 0 < IZR (Zpos m)) by now apply IZR_lt. destruct s; nra.
  - destruct (Rle_or_lt (real r) 1) as [|L]; auto. exfalso. rewrite <- one_real in L. apply (proj2 (flt_real f32_one r eq_refl V I F)) in L. congruence.
Qed.
Lemma polar_numbers : forall logf way w1 w2, log_ok logf -> (w1 < 2 ^ 32)%N -> (w2 < 2 ^ 32)%N -> let x := polar_coord w1 in let y := polar_coord w2 in let r := polar_r2 way x y in rejected r = false ->
  forall z, z = x \/ z = y -> let v := normal_param (fmul z (polar_mult logf r)) in finite v /\ f32_valid v = true /\ Rabs (real v) <= 64.
Proof.
  intros logf way w1 w2 HL H1 H2 x y r Hr z Hz. assert (C : forall z, z = x \/ z = y -> finite z /\ f32_valid z = true /\ Rabs (real z) <= 1 /\ (real z = 0 \/ bpow radix2 (-24) <= Rabs (real z))) by (intros c [->| ->]; now apply coord_ok).
  destruct (r2_ok way x y C) as [F [V [Z S]]]. fold r in F, V, Z, S. pose proof (kept_range r F V Z Hr) as B. destruct (C z Hz) as [Fz [Vz [Bz _]]]. apply scaled_ok; auto.
Qed.

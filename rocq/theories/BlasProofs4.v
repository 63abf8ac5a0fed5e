(** The distance of one point and one query, as computed by three matrix products: error and
    exactness. *)
From Coq Require Import ZArith Reals Lra Lia List Arith Bool Permutation Floats.SpecFloat.
From Flocq Require Import Core.
From Verif Require Import Base Float32 DivFacts DistSpec DistModel FusedModel RealSpec FloatReal L2ErrorProofs RealDistProofs NormProofs PqModel BlasModel BlasSpec BlasProofs BlasProofs2 BlasProofs3.
Import ListNotations.
Local Open Scope R_scope.

Lemma E_mul : forall a b, E a * E b = E (a + b).
Proof. intros. unfold E. now rewrite pow_add. Qed.
Lemma bp_le : forall a b c, (a <= b)%Z -> c <= bpow radix2 a -> c <= bpow radix2 b.
Proof. intros a b c H L. eapply Rle_trans; [exact L|apply bpow_le, H]. Qed.
Lemma bp_two : forall a c d, c <= bpow radix2 a -> d <= bpow radix2 a -> c + d <= bpow radix2 (a + 1).
Proof. intros a c d H L. rewrite bpow_plus. change (bpow radix2 1) with 2. lra. Qed.
Lemma one_le : forall a, (0 <= a)%Z -> 1 <= bpow radix2 a.
Proof. intros a H. change 1 with (bpow radix2 0). apply bpow_le, H. Qed.
Lemma abs_near : forall x y d, Rabs (x - y) <= d -> Rabs x <= Rabs y + d.
Proof. intros x y d H. replace x with ((x - y) + y) by ring. eapply Rle_trans; [apply Rabs_triang|]. lra. Qed.
Lemma tiny_scale : forall a b m n, (0 <= a <= b)%R -> (m <= n)%nat -> a * tiny * E m <= b * tiny * E n.
Proof.
  intros a b m n H L. pose proof tiny_pos. pose proof (E_ge m). apply Rmult_le_compat; [apply Rmult_le_pos; lra|lra| |apply E_mono, L]. apply Rmult_le_compat_r; lra.
Qed.

Lemma dot_entry : forall w p q c fa fb, way_ok (length p) (has c) w -> length p = length q -> good p -> good q -> lim (length p) -> sq p <= bpow radix2 100 -> sq q <= bpow radix2 100 ->
  (forall l, (l < length p)%nat -> fa l = Ok (at_ p l)) -> (forall l, (l < length p)%nat -> fb l = Ok (at_ q l)) -> (forall v, c = Some v -> num v) -> Rabs (val c) <= bpow radix2 108 ->
  exists r, gemm_entry w (length p) f32_m2 fa fb c = Ok r /\ num r /\
    Rabs (real r - (-2 * ip p q + val c)) <= (E (length p + 2) - 1) * (2 * aip p q + Rabs (val c)) + INR (2 * length p + 3) * tiny * E (length p + 2).
Proof.
  intros w p q c fa fb W L Gp Gq Lm Bp Bq Fa Fb Nc Bc.
  assert (A2 : Rabs (-2) = 2) by (rewrite Rabs_left by lra; ring).
  destruct (entry_ok w (length p) f32_m2 (-2) fa fb (at_ p) (at_ q) c) as [r [Hr [Nr D]]].
  - exact scales_m2.
  - rewrite A2. lra.
  - exact W.
  - intros l Hl. split; [apply Fa, Hl|]. split; [apply Fb, Hl|]. split; [apply num_at; auto|]. split; [apply num_at; auto; lia|]. apply abs_100. eapply Rle_trans; [apply coord_le, Hl|exact Bp].
  - exact Nc.
  - rewrite A2. fold (aip p q). apply room; [exact Lm|]. pose proof (aip_pos p q). pose proof (aip_le p q L). pose proof (Rabs_pos (val c)). split; [lra|].
    apply Rle_trans with (bpow radix2 108 + bpow radix2 108); [apply Rplus_le_compat; [|exact Bc]|].
    + eapply Rle_trans; [exact H0|]. apply bp_le with (100 + 1)%Z; [lia|]. apply bp_two; auto.
    + apply bp_le with (108 + 1)%Z; [lia|]. apply bp_two; lra.
  - rewrite A2 in D. exists r. auto.
Qed.

Lemma gt_num : forall w0 w1 w2 p q pn qn f0 g0 f1 g1 f2 g2, way_ok (length p) false w0 -> way_ok 1 true w1 -> way_ok 1 true w2 -> length p = length q -> good p -> good q -> lim (length p) -> sq p <= bpow radix2 100 -> sq q <= bpow radix2 100 ->
  num pn -> num qn -> Rabs (real pn - sq p) <= (E (length p) - 1) * sq p + INR (length p) * tiny * E (length p) -> Rabs (real qn - sq q) <= (E (length p) - 1) * sq q + INR (length p) * tiny * E (length p) ->
  (forall l, (l < length p)%nat -> f0 l = Ok (at_ p l)) -> (forall l, (l < length p)%nat -> g0 l = Ok (at_ q l)) -> f1 O = Ok pn -> g1 O = Ok f32_one -> f2 O = Ok f32_one -> g2 O = Ok qn ->
  exists r0 r1 r2, gemm_entry w0 (length p) f32_m2 f0 g0 None = Ok r0 /\ gemm_entry w1 1 f32_one f1 g1 (Some r0) = Ok r1 /\ gemm_entry w2 1 f32_one f2 g2 (Some r1) = Ok r2 /\ num r2 /\
    Rabs (real r2 - exact_l2 p q) <= (E (length p + 8) - 1) * (sq p + sq q + 2 * aip p q) + (4 * INR (length p) + 13) * tiny * E (length p + 8).
Proof.
  intros w0 w1 w2 p q pn qn f0 g0 f1 g1 f2 g2 W0 W1 W2 L Gp Gq Lm Bp Bq Np Nq Dp Dq F0 G0 F1 G1 F2 G2. set (d := length p) in *.
  pose proof (sq_pos p) as Pp. pose proof (sq_pos q) as Pq. pose proof (aip_pos p q) as Pa. pose proof (aip_le p q L) as La. pose proof (pos_INR d) as Pd. pose proof tiny_pos as PT. pose proof (ip_le p q) as Li.
  destruct scales_one as [N1 [R1 _]].
  destruct (dot_entry w0 p q None f0 g0) as [r0 [H0 [Nr0 D0]]]; auto; [discriminate|cbn [val]; rewrite Rabs_R0; apply bpow_ge_0|].
  fold d in H0, D0. cbn [val] in D0. rewrite Rplus_0_r, Rabs_R0, Rplus_0_r in D0.
  exists r0.
  (* sizes *)
  assert (Lm' : lim d) by exact Lm. unfold lim in Lm'.
  assert (Sn : (E d - 1) * sq p + INR d * tiny * E d <= sq p + 1 /\ (E d - 1) * sq q + INR d * tiny * E d <= sq q + 1).
  { destruct (E_two d ltac:(lia)) as [E1 E2]. pose proof (E_ge d). pose proof (few_tiny d ltac:(lia)) as T.
    assert (INR d * tiny * E d <= / 4 * 2) by (apply Rmult_le_compat; try lra; apply Rmult_le_pos; lra). assert (0 <= INR d * tiny) by (apply Rmult_le_pos; lra).
    assert ((E d - 1) * sq p <= 1 * sq p) by (apply Rmult_le_compat_r; lra). assert ((E d - 1) * sq q <= 1 * sq q) by (apply Rmult_le_compat_r; lra). lra. }
  assert (Spn : Rabs (real pn) <= bpow radix2 103).
  { pose proof (abs_near _ _ _ Dp). rewrite (Rabs_pos_eq (sq p)) in H by auto. apply Rle_trans with (2 * sq p + 1); [lra|]. pose proof (one_le 100 ltac:(lia)).
    apply Rle_trans with (8 * bpow radix2 100); [lra|]. change 8 with (bpow radix2 3). rewrite <- bpow_plus. apply bpow_le. lia. }
  assert (Sqn : Rabs (real qn) <= bpow radix2 103).
  { pose proof (abs_near _ _ _ Dq). rewrite (Rabs_pos_eq (sq q)) in H by auto. apply Rle_trans with (2 * sq q + 1); [lra|]. pose proof (one_le 100 ltac:(lia)).
    apply Rle_trans with (8 * bpow radix2 100); [lra|]. change 8 with (bpow radix2 3). rewrite <- bpow_plus. apply bpow_le. lia. }
  assert (Si : Rabs (-2 * ip p q) <= 2 * aip p q) by (rewrite Rabs_mult, (Rabs_left (-2)) by lra; lra).
  assert (Sr0 : Rabs (real r0) <= bpow radix2 104).
  { pose proof (abs_near _ _ _ D0) as H. pose proof (err_small d (2 * aip p q) Lm ltac:(lra)) as S1. apply Rle_trans with (4 * aip p q + 1); [lra|]. pose proof (one_le 100 ltac:(lia)).
    apply Rle_trans with (16 * bpow radix2 100); [lra|]. change 16 with (bpow radix2 4). rewrite <- bpow_plus. apply bpow_le. lia. }
  destruct (plus_ok w1 pn r0 f32_one f1 g1 W1 Np N1 Nr0 F1 G1) as [r1 [H1 [Nr1 D1]]].
  { rewrite R1, Rmult_1_r. apply bp_le with 103%Z; [lia|auto]. } { apply bp_le with 103%Z; [lia|auto]. } { apply bp_le with 104%Z; [lia|auto]. }
  rewrite R1, Rmult_1_r in D1. exists r1.
  assert (Ed : E d - 1 <= E (d + 2) - 1) by (assert (E d <= E (d + 2)) by (apply E_mono; lia); lra).
  assert (C1 : Rabs (real r1 - (sq p + -2 * ip p q)) <= (E (d + 5) - 1) * (sq p + 2 * aip p q) + (3 * INR d + 8) * tiny * E (d + 5)).
  { eapply Rle_trans; [apply (chain (E (d + 2)) (E 3) (sq p) (sq p) (-2 * ip p q) (2 * aip p q) (real pn) (real r0) (real r1) (INR d * tiny * E d) (INR (2 * d + 3) * tiny * E (d + 2)) (5 * tiny * E 3))|]; auto; try apply E_ge.
    - rewrite Rabs_pos_eq; lra.
    - eapply Rle_trans; [exact Dp|]. apply Rplus_le_compat_r, Rmult_le_compat_r; auto.
    - rewrite E_mul. replace (d + 2 + 3)%nat with (d + 5)%nat by lia. rewrite Rplus_assoc. apply Rplus_le_compat_l.
      assert (Q0 : INR (2 * d + 3) = 2 * INR d + 3) by (rewrite plus_INR, mult_INR; cbn; ring). rewrite Q0.
      assert (Q1 : E 3 * (INR d * tiny * E d) <= INR d * tiny * E (d + 5)) by (replace (E 3 * (INR d * tiny * E d)) with (INR d * tiny * (E 3 * E d)) by ring; rewrite E_mul; apply tiny_scale; [lra|lia]).
      assert (Q2 : E 3 * ((2 * INR d + 3) * tiny * E (d + 2)) <= (2 * INR d + 3) * tiny * E (d + 5)) by (replace (E 3 * ((2 * INR d + 3) * tiny * E (d + 2))) with ((2 * INR d + 3) * tiny * (E 3 * E (d + 2))) by ring; rewrite E_mul; apply tiny_scale; [lra|lia]).
      assert (Q3 : 5 * tiny * E 3 <= 5 * tiny * E (d + 5)) by (apply tiny_scale; [lra|lia]).
      replace ((3 * INR d + 8) * tiny * E (d + 5)) with (INR d * tiny * E (d + 5) + (2 * INR d + 3) * tiny * E (d + 5) + 5 * tiny * E (d + 5)) by ring. lra. }
  assert (Sr1 : Rabs (real r1) <= bpow radix2 107).
  { pose proof (abs_near _ _ _ C1) as H. destruct (E_two (d + 5) ltac:(lia)) as [E1 E2]. pose proof (E_ge (d + 5)).
    assert (T : (3 * INR d + 8) * tiny * E (d + 5) <= 1).
    { replace (3 * INR d + 8) with (INR (3 * d + 8)) by (rewrite plus_INR, mult_INR; cbn; ring). pose proof (few_tiny (3 * d + 8) ltac:(lia)). apply Rle_trans with (/ 4 * 2); [|lra]. apply Rmult_le_compat; try lra. apply Rmult_le_pos; [apply pos_INR|lra]. }
    assert (T2 : (E (d + 5) - 1) * (sq p + 2 * aip p q) <= 1 * (sq p + 2 * aip p q)) by (apply Rmult_le_compat_r; lra).
    pose proof (Rabs_triang (sq p) (-2 * ip p q)) as T3. rewrite (Rabs_pos_eq (sq p)) in T3 by auto. pose proof (one_le 100 ltac:(lia)).
    apply Rle_trans with (64 * bpow radix2 100); [lra|]. change 64 with (bpow radix2 6). rewrite <- bpow_plus. apply bpow_le. lia. }
  destruct (plus_ok w2 f32_one r1 qn f2 g2 W2 N1 Nq Nr1 F2 G2) as [r2 [H2 [Nr2 D2]]].
  { rewrite R1, Rmult_1_l. apply bp_le with 103%Z; [lia|auto]. } { rewrite R1, Rabs_R1. apply one_le. lia. } { apply bp_le with 107%Z; [lia|auto]. }
  rewrite R1, Rmult_1_l in D2. exists r2. split; [exact H0|]. split; [exact H1|]. split; [exact H2|]. split; [exact Nr2|].
  rewrite (l2_expand p q L). replace (sq p + sq q - 2 * ip p q) with (sq q + (sq p + -2 * ip p q)) by ring. replace (sq p + sq q + 2 * aip p q) with (sq q + (sq p + 2 * aip p q)) by ring.
  assert (Ed5 : E d - 1 <= E (d + 5) - 1) by (assert (E d <= E (d + 5)) by (apply E_mono; lia); lra).
  eapply Rle_trans; [apply (chain (E (d + 5)) (E 3) (sq q) (sq q) (sq p + -2 * ip p q) (sq p + 2 * aip p q) (real qn) (real r1) (real r2) (INR d * tiny * E d) ((3 * INR d + 8) * tiny * E (d + 5)) (5 * tiny * E 3))|]; auto; try apply E_ge.
  - rewrite Rabs_pos_eq; lra.
  - eapply Rle_trans; [apply Rabs_triang|]. rewrite (Rabs_pos_eq (sq p)) by auto. lra.
  - eapply Rle_trans; [exact Dq|]. apply Rplus_le_compat_r, Rmult_le_compat_r; auto.
  - rewrite E_mul. replace (d + 5 + 3)%nat with (d + 8)%nat by lia. rewrite Rplus_assoc. apply Rplus_le_compat_l.
    assert (Q1 : E 3 * (INR d * tiny * E d) <= INR d * tiny * E (d + 8)) by (replace (E 3 * (INR d * tiny * E d)) with (INR d * tiny * (E 3 * E d)) by ring; rewrite E_mul; apply tiny_scale; [lra|lia]).
    assert (Q2 : E 3 * ((3 * INR d + 8) * tiny * E (d + 5)) <= (3 * INR d + 8) * tiny * E (d + 8)) by (replace (E 3 * ((3 * INR d + 8) * tiny * E (d + 5))) with ((3 * INR d + 8) * tiny * (E 3 * E (d + 5))) by ring; rewrite E_mul; apply tiny_scale; [lra|lia]).
    assert (Q3 : 5 * tiny * E 3 <= 5 * tiny * E (d + 8)) by (apply tiny_scale; [lra|lia]).
    replace ((4 * INR d + 13) * tiny * E (d + 8)) with (INR d * tiny * E (d + 8) + (3 * INR d + 8) * tiny * E (d + 8) + 5 * tiny * E (d + 8)) by ring. lra.
Qed.

(** The bound in plain numbers. *)
Lemma gt_bound : forall d P Q A r D, lim d -> 0 <= P -> 0 <= Q -> 0 <= A -> 2 * A <= P + Q ->
  Rabs (r - D) <= (E (d + 8) - 1) * (P + Q + 2 * A) + (4 * INR d + 13) * tiny * E (d + 8) ->
  Rabs (r - D) <= (INR d + 8) * powerRZ 2 (-22) * (P + Q) + (INR d + 4) * powerRZ 2 (-147).
Proof.
  intros d P Q A r D L HP HQ HA HA2 H. unfold lim in L. eapply Rle_trans; [exact H|]. pose proof (pos_INR d) as Pd. pose proof tiny_pos as PT. pose proof ulp_pos as U.
  assert (U22 : powerRZ 2 (-22) = 4 * ulp) by (unfold ulp; replace (-22)%Z with (2 + -24)%Z by reflexivity; rewrite powerRZ_add by lra; f_equal; change (powerRZ 2 2) with (2 ^ 2); ring).
  assert (T47 : powerRZ 2 (-147) = 8 * tiny) by (unfold tiny; replace (-147)%Z with (3 + -150)%Z by reflexivity; rewrite powerRZ_add by lra; f_equal; change (powerRZ 2 3) with (2 ^ 3); ring).
  assert (El : E (d + 8) - 1 <= 2 * (INR d + 8) * ulp).
  { replace (INR d + 8) with (INR (d + 8)) by (rewrite plus_INR; cbn; ring). apply E_lin. eapply Rle_trans; [apply (INR_ulp (d + 8) 21); lia|]. change (21 - 24)%Z with (-3)%Z. cbn. lra. }
  destruct (E_two (d + 8) ltac:(lia)) as [_ E2]. pose proof (E_ge (d + 8)) as E1. apply Rplus_le_compat.
  - rewrite U22. apply Rle_trans with (2 * (INR d + 8) * ulp * (2 * (P + Q))); [apply Rmult_le_compat; lra|]. right. ring.
  - rewrite T47. apply Rle_trans with ((4 * INR d + 13) * tiny * 2); [apply Rmult_le_compat_l; [apply Rmult_le_pos; lra|lra]|].
    replace ((4 * INR d + 13) * tiny * 2) with ((8 * INR d + 26) * tiny) by ring. replace ((INR d + 4) * (8 * tiny)) with ((8 * INR d + 32) * tiny) by ring. apply Rmult_le_compat_r; lra.
Qed.

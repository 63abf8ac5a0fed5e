(** Distances to centres by matrix products. *)
From Coq Require Import ZArith Reals Lra Lia List Arith Bool Sorting.Sorted Permutation Floats.SpecFloat.
From Flocq Require Import Core.
From Verif Require Import Base Float32 DivFacts DistSpec DistModel FusedModel RealSpec FloatReal L2ErrorProofs RealDistProofs NormProofs PqModel MeanProofs3
  BlasModel BlasSpec BlasProofs BlasProofs2 BlasProofs3 BlasProofs4 BlasProofs5 BlasProofs6 BlasProofs7.
Import ListNotations.
Local Open Scope R_scope.

(** A number times one, into an empty entry. *)
Lemma copy_exact : forall w x fa fb, way_ok 1 false w -> num x -> fa O = Ok x -> fb O = Ok f32_one -> Rabs (real x) <= bpow radix2 127 -> exists r, gemm_entry w 1 f32_one fa fb None = Ok r /\ num r /\ real r = real x.
Proof.
  intros w x fa fb Hw Nx Fa Fb Bx. destruct scales_one as [N1 [R1 Sc]]. destruct (Sc x Nx) as [Nf Rf]; [rewrite Rmult_1_l; exact Bx|]. rewrite Rmult_1_l in Rf.
  assert (Ep : exact (real x)) by (split; [apply round_generic; [auto with typeclass_instances|apply real_format, Nx]|exact Bx]).
  assert (Sub : forall t l, Permutation (fred_items t) (seq 0 1) -> NoDup l -> incl l (fred_items t) -> exact (isum (fun _ => real x) l)).
  { intros t l P NDl I. assert (I2 : incl l [0]%nat) by (intros z Hz; apply (Permutation_in _ P), I, Hz).
    assert (L2 : (length l <= 1)%nat) by (apply (NoDup_incl_length NDl I2)). destruct l as [|a [|? ?]]; cbn [length] in L2; [| |lia]; unfold isum, real_sum; cbn [map fold_right].
    - change 0 with (IZR 0). apply exact_int. lia.
    - rewrite Rplus_0_r. exact Ep. }
  destruct w as [t|t fused]; cbn [gemm_entry way_ok] in *; (assert (ND : NoDup (fred_items t)) by (apply (Permutation_NoDup (Permutation_sym Hw)), seq_NoDup)).
  - destruct (fred_exact_sub (fun l => do x <- fa l; do y <- fb l; Ok (fmul f32_one x, y)) (fun _ => real x) t ND) as [s [Hs [Ns Rs]]].
    + intros i Hi. pose proof (Permutation_in _ Hw Hi) as Q. apply in_seq in Q. assert (i = O) by lia. subst i. rewrite Fa, Fb. cbn [bind]. eexists _, _. split; [reflexivity|]. split; [exact Nf|]. split; [exact N1|]. rewrite Rf, R1. ring.
    + intros l NDl I. eapply Sub; eauto.
    + exists s. split; [exact Hs|]. split; [exact Ns|]. rewrite Rs, (isum_perm _ _ _ Hw). unfold isum, real_sum. cbn. ring.
  - destruct (fred_exact_sub (fun l => do x <- fa l; do y <- fb l; Ok (x, y)) (fun _ => real x) t ND) as [s [Hs [Ns Rs]]].
    + intros i Hi. pose proof (Permutation_in _ Hw Hi) as Q. apply in_seq in Q. assert (i = O) by lia. subst i. rewrite Fa, Fb. cbn [bind]. eexists _, _. split; [reflexivity|]. split; [exact Nx|]. split; [exact N1|]. rewrite R1. ring.
    + intros l NDl I. eapply Sub; eauto.
    + rewrite Hs. cbn [bind]. rewrite (isum_perm _ _ _ Hw) in Rs. unfold isum, real_sum in Rs. cbn [seq map fold_right] in Rs. rewrite Rplus_0_r in Rs.
      eexists. split; [reflexivity|]. destruct (Sc s Ns) as [Ng Rg]; [rewrite Rmult_1_l, Rs; exact Bx|]. split; [exact Ng|]. rewrite Rg, Rs. ring.
Qed.

(** ** The norm, squared *)
Definition gee (d : nat) : R := 1 + 8 * (INR d + 4) * ulp.

Lemma u_bound : forall d, lim d -> (INR d + 4) * ulp <= / 15.
Proof.
  intros d L. unfold lim in L. rewrite INR_IZR_INZ. apply IZR_le in L. assert (U : ulp = / IZR (2 ^ 24)) by (unfold ulp; rewrite <- pw, (IZR_Zpower radix2) by lia; rewrite <- bpow_opp; reflexivity). rewrite U.
  apply Rmult_le_reg_r with (IZR (2 ^ 24)); [apply IZR_lt; lia|]. rewrite Rmult_assoc, Rinv_l by (apply IZR_neq; lia). rewrite Rmult_1_r. eapply Rle_trans; [apply Rplus_le_compat_r, L|]. cbn. lra.
Qed.
Lemma p23 : powerRZ 2 (-23) = 2 * ulp.
Proof. unfold ulp. replace (-23)%Z with (1 + -24)%Z by reflexivity. rewrite powerRZ_add by lra. rewrite powerRZ_1. reflexivity. Qed.
Lemma p149 : powerRZ 2 (-149) = 2 * tiny.
Proof. unfold tiny. replace (-149)%Z with (1 + -150)%Z by reflexivity. rewrite powerRZ_add by lra. rewrite powerRZ_1. reflexivity. Qed.
Lemma tiny_ulp : tiny <= ulp * / 1024.
Proof.
  unfold ulp, tiny. replace (/ 1024) with (powerRZ 2 (-10)) by (rewrite <- pw; cbn; lra). rewrite <- powerRZ_add by lra. rewrite <- !pw. apply bpow_le. lia.
Qed.

Lemma norm2_ok : forall v x, norm_near v x -> good v -> lim (length v) -> sq v <= bpow radix2 100 -> num (fmul x x) /\ Rabs (real (fmul x x) - sq v) <= (gee (length v) - 1) * sq v + 8 * tiny.
Proof.
  intros v x [Vx [Fx D]] G L B. rewrite sq_sum in D. pose proof (sq_pos v) as Pp. set (S := sq v) in *. set (s := sqrt S) in *. assert (Ps : 0 <= s) by apply sqrt_pos. assert (Ss : s * s = S) by (apply sqrt_sqrt, Pp).
  rewrite p23, p149 in D. pose proof (u_bound (length v) L) as Ub. pose proof ulp_pos as U. pose proof tiny_pos as T. pose proof tiny_ulp as TU. pose proof (pos_INR (length v)) as Pd.
  set (u := (INR (length v) + 4) * ulp) in *. replace ((INR (length v) + 4) * (2 * ulp) * s) with (2 * u * s) in D by (unfold u; ring). assert (U4 : 4 * ulp <= u) by (unfold u; nra).
  set (n := real x) in *.
  assert (Bn : 0 <= 2 * u * s + 2 * tiny) by nra.
  assert (D2 : Rabs (n * n - S) <= 5 * u * S + 4 * tiny).
  { replace (n * n - S) with ((n - s) * (n + s)) by (rewrite <- Ss; ring). rewrite Rabs_mult.
    assert (Dn : Rabs (n + s) <= 2 * s + (2 * u * s + 2 * tiny)).
    { replace (n + s) with ((n - s) + 2 * s) by ring. eapply Rle_trans; [apply Rabs_triang|]. rewrite (Rabs_pos_eq (2 * s)) by lra. lra. }
    eapply Rle_trans; [apply Rmult_le_compat; [apply Rabs_pos|apply Rabs_pos|exact D|exact Dn]|]. rewrite <- Ss.
    assert (St : s * tiny <= tiny * / 2 + (s * s) * (tiny * / 2)) by (pose proof (Rle_0_sqr (s - 1)) as Q; unfold Rsqr in Q; nra).
    assert (A1 : (2 * u * s + 2 * tiny) * (2 * s + (2 * u * s + 2 * tiny)) = (4 * u + 4 * (u * u)) * (s * s) + (4 + 8 * u) * (s * tiny) + 4 * (tiny * tiny)) by ring. rewrite A1.
    assert (P2 : 0 <= s * s) by nra. assert (Uu : u * u <= / 15 * u) by (apply Rmult_le_compat_r; lra).
    assert (B1 : (4 + 8 * u) * (s * tiny) <= 5 * (tiny * / 2 + (s * s) * (tiny * / 2))) by (apply Rmult_le_compat; try lra; apply Rmult_le_pos; lra).
    assert (B2 : (4 * u + 4 * (u * u)) * (s * s) <= (4 * u + 4 * (/ 15 * u)) * (s * s)) by (apply Rmult_le_compat_r; lra).
    assert (B3 : (s * s) * (tiny * / 2) <= (s * s) * (u * / 1000)) by (apply Rmult_le_compat_l; lra).
    assert (B4 : tiny * tiny <= / 100 * tiny) by (apply Rmult_le_compat_r; [lra|]; assert (ulp <= 1) by (unfold u in *; nra); lra).
    assert (B5 : 0 <= u * (s * s)) by (apply Rmult_le_pos; lra).
    replace (s * s * (u * / 1000)) with (/ 1000 * (u * (s * s))) in B3 by ring. replace ((4 * u + 4 * (/ 15 * u)) * (s * s)) with ((4 + 4 / 15) * (u * (s * s))) in B2 by field. lra. }
  assert (Bnn : Rabs (n * n) <= bpow radix2 102).
  { pose proof (abs_near _ _ _ D2) as Q. rewrite (Rabs_pos_eq S) in Q by auto. pose proof (one_le 100 ltac:(lia)) as O1. assert (5 * u * S <= 1 * S) by (apply Rmult_le_compat_r; lra). assert (tiny <= / 4) by (assert (ulp <= 1) by (unfold u in *; nra); lra).
    apply Rle_trans with (4 * bpow radix2 100); [lra|]. change 4 with (bpow radix2 2). rewrite <- bpow_plus. apply bpow_le. lia. }
  assert (Fx' : finite x) by exact Fx.
  assert (F : finite (fmul x x)) by (apply fmul_fin; auto; apply rnd_small; eapply Rle_trans; [exact Bnn|apply bpow_le; lia]).
  destruct (fmul_real x x Vx Vx F) as [V [dd [e [Hd [He R]]]]]. split; [split; auto|]. rewrite R. fold n.
  replace (n * n * (1 + dd) + e - S) with ((n * n - S) * (1 + dd) + (S * dd + e)) by ring.
  eapply Rle_trans; [apply Rabs_triang|]. rewrite Rabs_mult.
  assert (U1 : ulp <= / 60) by lra.
  assert (Q1 : Rabs (1 + dd) <= 1 + ulp) by (eapply Rle_trans; [apply Rabs_triang|]; rewrite Rabs_R1; lra).
  assert (Q2 : Rabs (n * n - S) * Rabs (1 + dd) <= (5 * u * S + 4 * tiny) * (1 + ulp)) by (apply Rmult_le_compat; try apply Rabs_pos; auto).
  assert (Q3 : Rabs (S * dd + e) <= S * ulp + tiny).
  { eapply Rle_trans; [apply Rabs_triang|]. rewrite Rabs_mult, (Rabs_pos_eq S) by auto. apply Rplus_le_compat; auto. apply Rmult_le_compat_l; auto. }
  unfold gee. replace (1 + 8 * (INR (length v) + 4) * ulp - 1) with (8 * u) by (unfold u; ring).
  assert (Q4 : S * ulp <= S * (u * / 4)) by (apply Rmult_le_compat_l; lra). assert (Q5 : 0 <= u * S) by (apply Rmult_le_pos; lra).
  assert (Q6 : (5 * u * S + 4 * tiny) * (1 + ulp) <= (5 * u * S + 4 * tiny) * (1 + / 60)) by (apply Rmult_le_compat_l; lra). lra.
Qed.

(** ** The three products *)
Lemma centre_num : forall w0 w1 w2 p c pn cn f0 g0 f1 g1 f2 g2, way_ok 1 false w0 -> way_ok 1 true w1 -> way_ok (length p) true w2 -> length p = length c -> good p -> good c -> lim (length p) -> sq p <= bpow radix2 100 -> sq c <= bpow radix2 100 ->
  num pn -> num cn -> Rabs (real pn - sq p) <= (gee (length p) - 1) * sq p + 8 * tiny -> Rabs (real cn - sq c) <= (gee (length p) - 1) * sq c + 8 * tiny ->
  f0 O = Ok pn -> g0 O = Ok f32_one -> f1 O = Ok f32_one -> g1 O = Ok cn -> (forall l, (l < length p)%nat -> f2 l = Ok (at_ p l)) -> (forall l, (l < length p)%nat -> g2 l = Ok (at_ c l)) ->
  exists r0 r1 r2, gemm_entry w0 1 f32_one f0 g0 None = Ok r0 /\ gemm_entry w1 1 f32_one f1 g1 (Some r0) = Ok r1 /\ gemm_entry w2 (length p) f32_m2 f2 g2 (Some r1) = Ok r2 /\ num r2 /\
    Rabs (real r2 - exact_l2 p c) <= (INR (length p) + 4) * powerRZ 2 (-20) * (sq p + sq c) + (INR (length p) + 4) * powerRZ 2 (-147).
Proof.
  intros w0 w1 w2 p c pn cn f0 g0 f1 g1 f2 g2 W0 W1 W2 L Gp Gc Lm Bp Bc Np Nc Dp Dc F0 G0 F1 G1 F2 G2. set (d := length p) in *.
  pose proof (sq_pos p) as Pp. pose proof (sq_pos c) as Pc. pose proof (aip_pos p c) as Pa. pose proof (aip_le p c L) as La. pose proof (pos_INR d) as Pd. pose proof tiny_pos as PT. pose proof ulp_pos as PU. pose proof (ip_le p c) as Li.
  destruct scales_one as [N1 [R1 _]]. pose proof (u_bound d Lm) as Ub. set (P := sq p) in *. set (C := sq c) in *. set (A := aip p c) in *.
  assert (U1 : ulp <= / 1024) by (unfold ulp; replace (/ 1024) with (powerRZ 2 (-10)) by (rewrite <- pw; cbn; lra); rewrite <- !pw; apply bpow_le; lia). pose proof tiny_ulp as TU.
  assert (Gd : gee d - 1 = 8 * ((INR d + 4) * ulp)) by (unfold gee; ring). assert (Ge : 1 <= gee d) by nra.
  assert (O1 : 1 <= bpow radix2 100) by (apply one_le; lia).
  assert (Spn : Rabs (real pn) <= bpow radix2 103).
  { pose proof (abs_near _ _ _ Dp) as H. rewrite (Rabs_pos_eq P) in H by auto. assert ((gee d - 1) * P <= 1 * P) by (apply Rmult_le_compat_r; lra).
    apply Rle_trans with (8 * bpow radix2 100); [lra|]. change 8 with (bpow radix2 3). rewrite <- bpow_plus. apply bpow_le. lia. }
  assert (Scn : Rabs (real cn) <= bpow radix2 103).
  { pose proof (abs_near _ _ _ Dc) as H. rewrite (Rabs_pos_eq C) in H by auto. assert ((gee d - 1) * C <= 1 * C) by (apply Rmult_le_compat_r; lra).
    apply Rle_trans with (8 * bpow radix2 100); [lra|]. change 8 with (bpow radix2 3). rewrite <- bpow_plus. apply bpow_le. lia. }
  destruct (copy_exact w0 pn f0 g0 W0 Np F0 G0) as [r0 [H0 [Nr0 E0]]]; [apply bp_le with 103%Z; [lia|auto]|].
  destruct (plus_ok w1 f32_one r0 cn f1 g1 W1 N1 Nc Nr0 F1 G1) as [r1 [H1 [Nr1 D1]]].
  { rewrite R1, Rmult_1_l. apply bp_le with 103%Z; [lia|auto]. } { rewrite R1, Rabs_R1. apply one_le. lia. } { rewrite E0. apply bp_le with 103%Z; [lia|auto]. }
  rewrite R1, Rmult_1_l, E0 in D1.
  assert (E3 : E 3 - 1 <= 4 * ulp) by (unfold E; cbn [pow]; nra). pose proof (E_ge 3) as E3'.
  assert (C1 : Rabs (real r1 - (C + P)) <= (gee d * E 3 - 1) * (C + P) + 22 * tiny).
  { eapply Rle_trans; [apply (chain (gee d) (E 3) C C P P (real cn) (real pn) (real r1) (8 * tiny) (8 * tiny) (5 * tiny * E 3))|]; auto; try lra; try (rewrite Rabs_pos_eq; lra).
    assert (tiny * E 3 <= tiny * (1 + / 256)) by (apply Rmult_le_compat_l; lra). lra. }
  assert (GE : gee d * E 3 - 1 <= (8 * (INR d + 4) + 7) * ulp).
  { replace (gee d * E 3 - 1) with ((gee d - 1) + gee d * (E 3 - 1)) by ring. assert (gee d * (E 3 - 1) <= (1 + 8 * / 15) * (4 * ulp)) by (apply Rmult_le_compat; lra). lra. }
  assert (GE2 : gee d * E 3 <= 2) by (assert ((8 * (INR d + 4) + 7) * ulp <= 8 * / 15 + 7 * / 60) by lra; lra).
  assert (GE0 : 1 <= gee d * E 3) by nra.
  assert (Sr1a : Rabs (real r1) <= 2 * (C + P) + 22 * tiny).
  { pose proof (abs_near _ _ _ C1) as H. rewrite (Rabs_pos_eq (C + P)) in H by lra. assert ((gee d * E 3 - 1) * (C + P) <= 1 * (C + P)) by (apply Rmult_le_compat_r; lra). lra. }
  assert (Sr1 : Rabs (real r1) <= bpow radix2 108).
  { apply Rle_trans with (8 * bpow radix2 100); [lra|]. change 8 with (bpow radix2 3). rewrite <- bpow_plus. apply bpow_le. lia. }
  destruct (dot_entry w2 p c (Some r1) f2 g2) as [r2 [H2 [Nr2 D2]]]; auto.
  { intros v [= <-]. exact Nr1. }
  fold d in H2, D2. cbn [val] in D2. fold A in D2. exists r0, r1, r2. split; [exact H0|]. split; [exact H1|]. split; [exact H2|]. split; [exact Nr2|].
  rewrite (l2_expand p c L). fold P C.
  replace (real r2 - (P + C - 2 * ip p c)) with ((real r2 - (-2 * ip p c + real r1)) + (real r1 - (C + P))) by ring. eapply Rle_trans; [apply Rabs_triang|].
  eapply Rle_trans; [apply Rplus_le_compat; [exact D2|exact C1]|].
  unfold lim in Lm. assert (Ed : E (d + 2) - 1 <= 2 * (INR d + 2) * ulp).
  { replace (INR d + 2) with (INR (d + 2)) by (rewrite plus_INR; cbn; ring). apply E_lin. eapply Rle_trans; [apply (INR_ulp (d + 2) 21); lia|]. change (21 - 24)%Z with (-3)%Z. cbn. lra. }
  destruct (E_two (d + 2) ltac:(lia)) as [Ee Ee2]. pose proof (E_ge (d + 2)) as Ee0.
  replace (INR (2 * d + 3)) with (2 * INR d + 3) by (rewrite plus_INR, mult_INR; cbn; ring).
  assert (P20 : powerRZ 2 (-20) = 16 * ulp) by (unfold ulp; replace (-20)%Z with (4 + -24)%Z by reflexivity; rewrite powerRZ_add by lra; f_equal; change (powerRZ 2 4) with (2 ^ 4); ring).
  assert (T47 : powerRZ 2 (-147) = 8 * tiny) by (unfold tiny; replace (-147)%Z with (3 + -150)%Z by reflexivity; rewrite powerRZ_add by lra; f_equal; change (powerRZ 2 3) with (2 ^ 3); ring).
  rewrite P20, T47.
  assert (X1 : (E (d + 2) - 1) * (2 * A + Rabs (real r1)) <= 2 * (INR d + 2) * ulp * (3 * (P + C)) + / 4 * (22 * tiny)).
  { apply Rle_trans with ((E (d + 2) - 1) * (3 * (P + C)) + (E (d + 2) - 1) * (22 * tiny)).
    - rewrite <- Rmult_plus_distr_l. apply Rmult_le_compat_l; lra.
    - apply Rplus_le_compat; apply Rmult_le_compat_r; lra. }
  assert (X2 : (gee d * E 3 - 1) * (C + P) <= (8 * (INR d + 4) + 7) * ulp * (P + C)) by (rewrite (Rplus_comm C P); apply Rmult_le_compat_r; lra).
  assert (X3 : (2 * INR d + 3) * tiny * E (d + 2) <= (2 * INR d + 3) * tiny * (5 / 4)) by (apply Rmult_le_compat_l; [apply Rmult_le_pos; lra|lra]).
  assert (X4 : 0 <= ulp * (P + C)) by (apply Rmult_le_pos; lra). assert (X5 : 0 <= INR d * (ulp * (P + C))) by (apply Rmult_le_pos; lra). assert (X6 : 0 <= INR d * tiny) by (apply Rmult_le_pos; lra).
  replace (2 * (INR d + 2) * ulp * (3 * (P + C))) with (6 * (INR d * (ulp * (P + C))) + 12 * (ulp * (P + C))) in X1 by ring.
  replace ((8 * (INR d + 4) + 7) * ulp * (P + C)) with (8 * (INR d * (ulp * (P + C))) + 39 * (ulp * (P + C))) in X2 by ring.
  replace ((2 * INR d + 3) * tiny * (5 / 4)) with (5 / 2 * (INR d * tiny) + 15 / 4 * tiny) in X3 by field.
  replace ((INR d + 4) * (16 * ulp) * (P + C)) with (16 * (INR d * (ulp * (P + C))) + 64 * (ulp * (P + C))) by ring. replace ((INR d + 4) * (8 * tiny)) with (8 * (INR d * tiny) + 32 * tiny) by ring. lra.
Qed.

(** Means in double precision. *)
From Coq Require Import NArith ZArith Reals Lra Lia List Arith Bool Permutation Floats.SpecFloat.
From Flocq Require Import Core Relative Plus_error.
From Flocq Require BinarySingleNaN.
From Verif Require Import Base Float32 DivFacts DistSpec RecallModel LloydModel LloydSpec LloydProofs RealSpec FloatReal L2ErrorProofs RealDistProofs NormProofs Float64Real StatsProofs StatsProofs4 MeanSpec MeanProofs2 MeanProofs4.
Import ListNotations.
Local Open Scope R_scope.

Lemma format_64 : forall x, generic_format radix2 (FLT_exp (-149) 24) x -> generic_format radix2 (FLT_exp (-1074) 53) x.
Proof. intros x H. apply (generic_inclusion_mag radix2 (FLT_exp (-149) 24) (FLT_exp (-1074) 53) x); [|exact H]. intros _. unfold FLT_exp. lia. Qed.

Lemma of_f32_ok : forall x, f32_valid x = true -> finite x -> Rabs (real x) <= bpow radix2 127 -> finite (f64_of_f32 x) /\ f64_valid (f64_of_f32 x) = true /\ real (f64_of_f32 x) = real x.
Proof.
  intros [s|s| |s m e] V F B; try (destruct F); [repeat split|]. cbn [f64_of_f32].
  assert (R : F2R (Float radix2 (SpecFloat.cond_Zopp s (Z.pos m)) e) = real (S754_finite s m e)).
  { unfold F2R. cbn [real Fnum Fexp]. change 2 with (IZR radix2). rewrite <- bpow_powerRZ. destruct s; cbn [SpecFloat.cond_Zopp]; [change (Z.opp (Z.pos m)) with (Z.neg m); change (Z.neg m) with (- Z.pos m)%Z; rewrite opp_IZR|]; ring. }
  rewrite normalize_equiv64. pose proof (BinarySingleNaN.binary_normalize_correct 53 1024 _ _ BinarySingleNaN.mode_NE (SpecFloat.cond_Zopp s (Z.pos m)) e s) as C. cbn zeta in C. rewrite R in C.
  rewrite Rlt_bool_true in C by (apply small64; apply Rle_trans with (1 := B), bpow_le; lia).
  destruct C as [C1 [C2 _]]. split; [apply finite_B64, C2|]. split; [apply B_valid64|]. rewrite real_B2R64, C1. apply round_generic; [auto with typeclass_instances|]. apply format_64, real_format, V.
Qed.

Lemma real_format64 : forall x, f64_valid x = true -> generic_format radix2 (FLT_exp (-1074) 53) (real x).
Proof. intros x V. destruct (to_B64 x V) as [b <-]. rewrite real_B2R64. apply B_format64. Qed.
Lemma dadd_real : forall x y, f64_valid x = true -> f64_valid y = true -> finite x -> finite y -> Rabs (real x + real y) <= bpow radix2 1000 ->
  finite (f64_add x y) /\ f64_valid (f64_add x y) = true /\ exists d, Rabs d <= ulp64 /\ real (f64_add x y) = (real x + real y) * (1 + d).
Proof.
  intros x y Vx Vy Fx Fy B. assert (F : finite (f64_add x y)) by (apply dadd_fin; auto; now apply small64). destruct (dadd_rnd x y Vx Vy Fx Fy F) as [V E]. split; [exact F|]. split; [exact V|].
  destruct (FLT_plus_error_N_ex radix2 (-1074) 53 (fun z => negb (Z.even z)) (real x) (real y) (real_format64 x Vx) (real_format64 y Vy)) as [d [Hd H]].
  exists d. split; [|rewrite E; exact H]. apply Rle_trans with (1 := Hd). rewrite ulp64_bpow. unfold u_ro.
  assert (Q : / 2 * bpow radix2 (- (53) + 1) = bpow radix2 (-53)) by (change (/ 2) with (bpow radix2 (-1)); rewrite <- bpow_plus; reflexivity). rewrite Q. pose proof (bpow_gt_0 radix2 (-53)).
  apply Rmult_le_reg_r with (1 + bpow radix2 (-53)); [lra|]. unfold Rdiv. rewrite Rmult_assoc, Rinv_l by lra. nra.
Qed.

Lemma D_ge : forall n, 1 <= (1 + ulp64) ^ n.
Proof. intros n. apply pow_R1_Rle. pose proof ulp64_val. lra. Qed.
Lemma D_lin : forall n, INR n * ulp64 <= / 2 -> (1 + ulp64) ^ n - 1 <= 2 * INR n * ulp64.
Proof.
  intros n H. pose proof ulp64_val as [U1 U2]. pose proof (pos_INR n) as P. assert (G : forall k, INR k <= INR n -> (1 + ulp64) ^ k - 1 <= 2 * INR k * ulp64).
  { induction k as [|k IH]; intros Hk; [cbn; lra|]. rewrite S_INR in *. cbn [pow]. specialize (IH ltac:(lra)). pose proof (pos_INR k).
    assert (INR k * ulp64 <= / 2) by (apply Rle_trans with (2 := H), Rmult_le_compat_r; lra).
    assert (ulp64 * ((1 + ulp64) ^ k - 1) <= ulp64 * 1) by (apply Rmult_le_compat_l; lra). lra. }
  apply G. lra.
Qed.

(** The sum in double precision, from left to right. *)
Lemma sum64_ok : forall xs s S0 M0 m, (forall x, In x xs -> finite x /\ f32_valid x = true /\ Rabs (real x) <= bpow radix2 126) ->
  finite s -> f64_valid s = true -> Rabs (real s - S0) <= ((1 + ulp64) ^ m - 1) * M0 -> Rabs S0 <= M0 ->
  (1 + ulp64) ^ (m + length xs) * (M0 + real_sum (map (fun x => Rabs (real x)) xs)) <= bpow radix2 999 ->
  let r := fold_left f64_add (map f64_of_f32 xs) s in finite r /\ f64_valid r = true /\
    Rabs (real r - (S0 + real_sum (map real xs))) <= ((1 + ulp64) ^ (m + length xs) - 1) * (M0 + real_sum (map (fun x => Rabs (real x)) xs)).
Proof.
  induction xs as [|x xs IH]; intros s S0 M0 m Hx Fs Vs Bs A B; cbv zeta.
  - cbn [map real_sum fold_right fold_left length]. rewrite !Rplus_0_r, Nat.add_0_r. auto.
  - destruct (Hx x (or_introl eq_refl)) as [Fx [Vx Bx]]. pose proof ulp64_val as [U1 U2].
    change (fold_left f64_add (map f64_of_f32 (x :: xs)) s) with (fold_left f64_add (map f64_of_f32 xs) (f64_add s (f64_of_f32 x))).
    destruct (of_f32_ok x Vx Fx) as [Fd [Vd Rd]]; [apply Rle_trans with (1 := Bx), bpow_le; lia|].
    set (Ms := real_sum (map (fun y => Rabs (real y)) xs)) in *. assert (PM : 0 <= Ms) by (apply real_sum_pos; intros y Hy; apply in_map_iff in Hy; destruct Hy as [z [<- _]]; apply Rabs_pos).
    change (real_sum (map (fun y => Rabs (real y)) (x :: xs))) with (Rabs (real x) + Ms) in *. change (real_sum (map real (x :: xs))) with (real x + real_sum (map real xs)).
    pose proof (D_ge m) as D1. pose proof (Rabs_pos S0) as PS. pose proof (Rabs_pos (real x)) as Px. set (g := (1 + ulp64) ^ m) in *.
    assert (As : Rabs (real s) <= g * M0) by (replace (real s) with (real s - S0 + S0) by ring; eapply Rle_trans; [apply Rabs_triang|]; lra).
    assert (Mon : g <= (1 + ulp64) ^ (m + length (x :: xs))) by (unfold g; apply Rle_pow; [lra|lia]). set (G := (1 + ulp64) ^ (m + length (x :: xs))) in *.
    assert (K1 : g * M0 + Rabs (real x) <= G * (M0 + (Rabs (real x) + Ms))).
    { assert (g * M0 <= G * M0) by (apply Rmult_le_compat_r; lra). assert (1 * Rabs (real x) <= G * Rabs (real x)) by (apply Rmult_le_compat_r; lra). assert (0 <= G * Ms) by (apply Rmult_le_pos; lra). lra. }
    destruct (dadd_real s (f64_of_f32 x) Vs Vd Fs Fd) as [Fa [Va [d [Hd Ea]]]].
    { rewrite Rd. eapply Rle_trans; [apply Rabs_triang|]. apply Rle_trans with (bpow radix2 999); [|apply bpow_le; lia]. lra. }
    rewrite Rd in Ea. unfold G. replace (m + length (x :: xs))%nat with (S m + length xs)%nat by (cbn; lia). rewrite <- !Rplus_assoc. apply IH; auto.
    + intros y Hy. apply Hx. now right.
    + rewrite Ea. cbn [pow]. fold g. replace ((real s + real x) * (1 + d) - (S0 + real x)) with ((real s - S0) * (1 + d) + d * (S0 + real x)) by ring.
      eapply Rle_trans; [apply Rabs_triang|]. rewrite !Rabs_mult.
      assert (H1 : Rabs (1 + d) <= 1 + ulp64) by (eapply Rle_trans; [apply Rabs_triang|]; rewrite Rabs_R1; lra).
      assert (H2 : Rabs (S0 + real x) <= M0 + Rabs (real x)) by (eapply Rle_trans; [apply Rabs_triang|]; lra).
      assert (Q1 : Rabs (real s - S0) * Rabs (1 + d) <= ((g - 1) * M0) * (1 + ulp64)) by (apply Rmult_le_compat; auto using Rabs_pos).
      assert (Q2 : Rabs d * Rabs (S0 + real x) <= ulp64 * (M0 + Rabs (real x))) by (apply Rmult_le_compat; auto using Rabs_pos).
      assert (Q3 : 0 <= (g - 1) * Rabs (real x)) by (apply Rmult_le_pos; lra). assert (Q4 : 0 <= ulp64 * ((g - 1) * Rabs (real x))) by (apply Rmult_le_pos; lra). lra.
    + eapply Rle_trans; [apply Rabs_triang|]. lra.
    + replace (S m + length xs)%nat with (m + length (x :: xs))%nat by (cbn; lia). fold G. rewrite Rplus_assoc. exact B.
Qed.

Lemma rnd64_any : forall x, exists d e, Rabs d <= ulp64 /\ Rabs e <= bpow radix2 (-1000) /\ rnd64 x = x * (1 + d) + e.
Proof.
  intros x. destruct (relative_error_N_FLT'_ex radix2 (-1074) 53 prec_pos64 (fun z => negb (Z.even z)) x) as [d [e [Hd [He [_ H]]]]].
  exists d, e. split; [|split; [|exact H]].
  - apply Rle_trans with (1 := Hd). rewrite ulp64_bpow. unfold u_ro. assert (Q : / 2 * bpow radix2 (- (53) + 1) = bpow radix2 (-53)) by (change (/ 2) with (bpow radix2 (-1)); rewrite <- bpow_plus; reflexivity). rewrite Q. pose proof (bpow_gt_0 radix2 (-53)).
    apply Rmult_le_reg_r with (1 + bpow radix2 (-53)); [lra|]. unfold Rdiv. rewrite Rmult_assoc, Rinv_l by lra. nra.
  - apply Rle_trans with (1 := He). change (/ 2) with (bpow radix2 (-1)). rewrite <- bpow_plus. apply bpow_le. lia.
Qed.

Lemma mean_of_ok : forall xs, (1 <= length xs)%nat -> (Z.of_nat (length xs) <= 2 ^ 28)%Z -> (forall x, In x xs -> finite x /\ f32_valid x = true /\ Rabs (real x) <= powerRZ 2 126) ->
  finite (mean_of xs) /\ Rabs (real (mean_of xs) - mean (map real xs)) <= powerRZ 2 (-24) * Rabs (mean (map real xs)) + (INR (length xs) + 1) * powerRZ 2 (-51) * mean_abs (map real xs) + powerRZ 2 (-149).
Proof.
  intros xs L1 L2 H. assert (H' : forall x, In x xs -> finite x /\ f32_valid x = true /\ Rabs (real x) <= bpow radix2 126) by (intros x Hx; rewrite bpow_powerRZ; now apply H).
  set (n := length xs) in *. pose proof ulp64_val as [U1 U2]. pose proof ulp_val as [V1 V2]. assert (P1 : 1 <= INR n) by (change 1 with (INR 1); apply le_INR; lia).
  assert (P2 : INR n <= bpow radix2 28) by (rewrite INR_IZR_INZ, <- pow_Z by lia; apply IZR_le; exact L2).
  assert (NU : INR n * ulp64 <= / 1000000). { rewrite ulp64_bpow. apply Rle_trans with (bpow radix2 28 * bpow radix2 (-53)); [apply Rmult_le_compat_r; [apply bpow_ge_0|exact P2]|]. rewrite <- bpow_plus. change (bpow radix2 (28 + -53)) with (/ 33554432). lra. }
  pose proof (D_lin n ltac:(lra)) as DL. pose proof (D_ge n) as DG. set (g := (1 + ulp64) ^ n) in *.
  assert (MA : mean_abs (map real xs) <= bpow radix2 126) by (apply mean_abs_le; [apply bpow_ge_0|]; intros y Hy; apply in_map_iff in Hy; destruct Hy as [x [<- Hx]]; apply H', Hx).
  set (M := real_sum (map (fun x => Rabs (real x)) xs)). set (S := real_sum (map real xs)).
  assert (EM : mean_abs (map real xs) = M / INR n) by (unfold mean_abs, mean; rewrite !map_length, map_map; reflexivity). assert (ES : mean (map real xs) = S / INR n) by (unfold mean; rewrite map_length; reflexivity).
  pose proof (mean_abs_pos (map real xs)) as MP. pose proof (mean_abs_ge (map real xs)) as MG. set (mu := mean (map real xs)) in *. set (ma := mean_abs (map real xs)) in *.
  assert (EM' : M = ma * INR n) by (rewrite EM; field; lra). assert (ES' : S = mu * INR n) by (rewrite ES; field; lra).
  assert (BM : M <= bpow radix2 154). { rewrite EM'. change 154%Z with (126 + 28)%Z. rewrite bpow_plus. apply Rmult_le_compat; lra. }
  assert (PM : 0 <= M) by (rewrite EM'; apply Rmult_le_pos; lra).
  destruct (sum64_ok xs f64_zero 0 0 0 H' Logic.I eq_refl) as [Fr [Vr Br]].
  { cbn [real f64_zero pow]. rewrite Rminus_0_r, Rabs_R0. lra. } { rewrite Rabs_R0. lra. }
  { cbn [Nat.add]. fold n g M. rewrite Rplus_0_l. apply Rle_trans with (2 * bpow radix2 154); [apply Rmult_le_compat; lra|]. change 2 with (bpow radix2 1). rewrite <- bpow_plus. apply bpow_le. lia. }
  cbn [Nat.add] in Br. fold n g M S in Br. rewrite !Rplus_0_l in Br. unfold mean_of. fold n. set (r := fold_left f64_add (map f64_of_f32 xs) f64_zero) in *.
  destruct (of_nat64 n) as [Fn [Vn Rn]]; [lia|].
  assert (Bq : Rabs (real r / INR n - mu) <= (g - 1) * ma).
  { replace (real r / INR n - mu) with ((real r - S) / INR n) by (rewrite ES'; field; lra). unfold Rdiv. rewrite Rabs_mult, (Rabs_pos_eq (/ INR n)) by (apply Rlt_le, Rinv_0_lt_compat; lra).
    apply Rle_trans with (((g - 1) * M) * / INR n); [apply Rmult_le_compat_r; [apply Rlt_le, Rinv_0_lt_compat; lra|exact Br]|]. right. rewrite EM'. field. lra. }
  assert (B126 : Rabs (real r / INR n) <= 2 * bpow radix2 126).
  { replace (real r / INR n) with (real r / INR n - mu + mu) by ring. eapply Rle_trans; [apply Rabs_triang|]. assert ((g - 1) * ma <= / 2 * ma) by (apply Rmult_le_compat_r; lra). lra. }
  assert (B127 : 2 * bpow radix2 126 = bpow radix2 127) by (change 2 with (bpow radix2 1); rewrite <- bpow_plus; reflexivity).
  assert (Fq : finite (f64_div r (f64_of_nat n))) by (apply ddiv_fin; auto; rewrite Rn; [lra|]; apply small64; apply Rle_trans with (1 := B126); rewrite B127; apply bpow_le; lia).
  destruct (ddiv_rnd r (f64_of_nat n) Vr Vn) as [Vq Rq]; [rewrite Rn; lra|exact Fq|]. rewrite Rn in Rq. set (q := f64_div r (f64_of_nat n)) in *.
  destruct (rnd64_any (real r / INR n)) as [d [e [Hd [He Ed]]]]. rewrite Ed in Rq. set (a := real r / INR n) in *.
  assert (T : bpow radix2 (-1000) <= bpow radix2 (-155)) by (apply bpow_le; lia).
  assert (Aa : Rabs a <= 1.5 * bpow radix2 126).
  { replace a with (a - mu + mu) by ring. eapply Rle_trans; [apply Rabs_triang|]. assert ((g - 1) * ma <= / 2 * ma) by (apply Rmult_le_compat_r; lra). lra. }
  assert (Hd1 : Rabs (1 + d) <= 1 + / 1000) by (eapply Rle_trans; [apply Rabs_triang|]; rewrite Rabs_R1; lra).
  assert (O1 : bpow radix2 (-155) <= / 1000) by (apply Rle_trans with (bpow radix2 (-10)); [apply bpow_le; lia|]; change (bpow radix2 (-10)) with (/ 1024); lra).
  assert (O2 : 1 <= bpow radix2 126) by (change 1 with (bpow radix2 0); apply bpow_le; lia).
  assert (Bq2 : Rabs (real q) <= bpow radix2 127).
  { rewrite Rq. eapply Rle_trans; [apply Rabs_triang|]. rewrite Rabs_mult, <- B127. assert (Rabs a * Rabs (1 + d) <= (1.5 * bpow radix2 126) * (1 + / 1000)) by (apply Rmult_le_compat; auto using Rabs_pos). lra. }
  destruct (f32_of_f64_real q Fq Bq2) as [Fz [Vz Rz]]. split; [exact Fz|]. rewrite Rz. destruct (rnd_any (real q)) as [d2 [e2 [Hd2 [He2 Ed2]]]]. rewrite Ed2, Rq.
  replace ((a * (1 + d) + e) * (1 + d2) + e2 - mu) with (d2 * mu + (d * (1 + d2) * mu + ((a - mu) * ((1 + d) * (1 + d2)))) + (e * (1 + d2) + e2)) by ring.
  fold ulp. assert (Hd3 : Rabs (1 + d2) <= 1 + / 1000) by (eapply Rle_trans; [apply Rabs_triang|]; rewrite Rabs_R1; lra).
  eapply Rle_trans; [apply Rabs_triang|]. apply Rplus_le_compat.
  - eapply Rle_trans; [apply Rabs_triang|]. apply Rplus_le_compat; [rewrite Rabs_mult; apply Rmult_le_compat_r; [apply Rabs_pos|exact Hd2]|].
    eapply Rle_trans; [apply Rabs_triang|]. rewrite !Rabs_mult.
    assert (X1 : Rabs d * Rabs (1 + d2) * Rabs mu <= ulp64 * (1 + / 1000) * ma) by (apply Rmult_le_compat; [apply Rmult_le_pos; apply Rabs_pos|apply Rabs_pos|apply Rmult_le_compat; auto using Rabs_pos|exact MG]).
    assert (X2 : Rabs (a - mu) * (Rabs (1 + d) * Rabs (1 + d2)) <= ((g - 1) * ma) * ((1 + / 1000) * (1 + / 1000))) by (apply Rmult_le_compat; [apply Rabs_pos|apply Rmult_le_pos; apply Rabs_pos|exact Bq|apply Rmult_le_compat; auto using Rabs_pos]).
    assert (X3 : (g - 1) * ma <= (2 * INR n * ulp64) * ma) by (apply Rmult_le_compat_r; auto).
    assert (W : powerRZ 2 (-51) = 4 * ulp64) by (unfold ulp64; change (-51)%Z with (2 + -53)%Z; rewrite powerRZ_add by lra; rewrite p2_2; reflexivity). rewrite W.
    assert (Pu : 0 <= ulp64 * ma) by (apply Rmult_le_pos; lra). assert (Pn : 0 <= INR n * (ulp64 * ma)) by (apply Rmult_le_pos; lra). lra.
  - eapply Rle_trans; [apply Rabs_triang|]. rewrite Rabs_mult. assert (X : Rabs e * Rabs (1 + d2) <= bpow radix2 (-155) * (1 + / 1000)) by (apply Rmult_le_compat; auto using Rabs_pos; lra).
    assert (W1 : powerRZ 2 (-149) = 2 * tiny) by (unfold tiny; change (-149)%Z with (1 + -150)%Z; rewrite powerRZ_add by lra; rewrite powerRZ_1; reflexivity).
    assert (W2 : bpow radix2 (-155) <= / 2 * tiny). { unfold tiny. change 2 with (IZR radix2) at 2. rewrite <- bpow_powerRZ. change (/ 2) with (bpow radix2 (-1)). rewrite <- bpow_plus. apply bpow_le. lia. } pose proof (bpow_gt_0 radix2 (-155)). lra.
Qed.

(** The new centre of a cluster. *)
Lemma lloyd_centre : forall dim data docs, docs <> [] -> (Z.of_nat (length docs) <= 2 ^ 28)%Z ->
  (forall p, In p docs -> exists row, nth_error data p = Some row /\ length row = dim /\ forall x, In x row -> finite x /\ f32_valid x = true /\ Rabs (real x) <= powerRZ 2 126) ->
  exists ctr, new_center dim data docs = Ok ctr /\ length ctr = dim /\ forall j, (j < dim)%nat -> exists x, nth_error ctr j = Some x /\ finite x /\
    let col := map (fun p => real (nth j (nth p data []) f32_zero)) docs in
    Rabs (real x - mean col) <= powerRZ 2 (-24) * Rabs (mean col) + (INR (length docs) + 1) * powerRZ 2 (-51) * mean_abs col + powerRZ 2 (-149).
Proof.
  intros dim data docs Hn Hl H. exists (centroid_of dim data docs). split; [apply new_center_ok; intros p Hp; destruct (H p Hp) as [row [E1 [E2 _]]]; eauto|].
  destruct docs as [|p0 docs]; [congruence|]. set (ds := p0 :: docs) in *. cbn [centroid_of]. change (centroid_of dim data ds) with (map (fun i => mean_of (map (fun p => nth i (nth p data []) f32_zero) ds)) (seq 0 dim)).
  split; [rewrite map_length, seq_length; reflexivity|]. intros j Hj. exists (mean_of (map (fun p => nth j (nth p data []) f32_zero) ds)).
  split; [rewrite nth_error_map; rewrite (nth_error_nth' _ 0%nat) by (rewrite seq_length; exact Hj); rewrite seq_nth by exact Hj; reflexivity|].
  pose proof (mean_of_ok (map (fun p => nth j (nth p data []) f32_zero) ds)) as Q. rewrite !map_length, !map_map in Q. cbv zeta. apply Q; [cbn; lia|exact Hl|].
  intros x Hx. apply in_map_iff in Hx. destruct Hx as [p [<- Hp]]. destruct (H p Hp) as [row [E1 [E2 E3]]]. rewrite (nth_error_nth _ _ _ E1). apply E3, nth_In. lia.
Qed.

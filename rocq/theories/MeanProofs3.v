(** The entry point is nearly the point nearest to the mean. *)
From Coq Require Import NArith ZArith Reals Lra Lia List Arith Bool Permutation Floats.SpecFloat.
From Flocq Require Import Core.
From Verif Require Import Base Float32 DivFacts DistSpec DistModel FusedModel RealSpec FloatReal L2ErrorProofs RealDistProofs NormProofs NormProofs2 StatsProofs4 PqModel PqProofs2 NormModel NormSpec EntryModel EntrySpec EntryProofs MeanModel MeanSpec MeanProofs MeanProofs2.
Import ListNotations.
Local Open Scope R_scope.

Fixpoint unc (f : fred) : red := match f with FZero => RZero | FItem i => RItem i | FAdd l r => RAdd (unc l) (unc r) | FFma i r => RAdd (RItem i) (unc r) end.
Lemma unc_contracts : forall f, contracts (unc f) f.
Proof. induction f; cbn; now constructor. Qed.
Lemma unc_perm : forall f l, Permutation (fred_items f) l -> Permutation (red_items (unc f)) l.
Proof. intros f l H. etransitivity; [symmetry; apply contracts_items, unc_contracts|exact H]. Qed.

Lemma collect_ex : forall (A B : Type) (f : A -> res B) (P : A -> B -> Prop) l, (forall x, In x l -> exists y, f x = Ok y /\ P x y) -> exists ys, collect f l = Ok ys /\ Forall2 P l ys.
Proof.
  intros A B f P. induction l as [|x l IH]; intros H; cbn; [exists []; split; [reflexivity|constructor]|]. destruct (H x (or_introl eq_refl)) as [y [-> Py]]. destruct IH as [ys [-> F]]; [intros; apply H; now right|].
  exists (y :: ys). split; [reflexivity|now constructor].
Qed.
Lemma Forall2_len : forall (A B : Type) (P : A -> B -> Prop) l m, Forall2 P l m -> length l = length m.
Proof. induction 1; cbn; congruence. Qed.
Lemma Forall2_seq : forall (B : Type) (P : nat -> B -> Prop) n m, Forall2 P (seq 0 n) m -> length m = n /\ forall i, (i < n)%nat -> exists y, nth_error m i = Some y /\ P i y.
Proof.
  intros B P n m H. pose proof (Forall2_len _ _ _ _ _ H) as L. rewrite seq_length in L. split; [auto|]. intros i Hi.
  apply (NormProofs2.Forall2_nth _ _ _ _ _ H). rewrite (nth_error_nth' _ 0%nat) by (rewrite seq_length; exact Hi). rewrite seq_nth by exact Hi. reflexivity.
Qed.
Lemma finite_nan : forall x, finite x -> is_nan x = false.
Proof. intros []; cbn; auto; contradiction. Qed.
Lemma fle_real : forall x y, f32_valid x = true -> f32_valid y = true -> finite x -> finite y -> fle x y = true -> real x <= real y.
Proof. intros x y Vx Vy Fx Fy H. apply fle_flt_false in H. destruct (Rle_or_lt (real x) (real y)) as [|Q]; [auto|]. apply flt_real in Q; auto. congruence. Qed.

Lemma sqs_isum : forall (a b : list f32), length a = length b -> exact_l2 a b = sqs (length a) (fun j => real (nth j a f32_zero) - real (nth j b f32_zero)).
Proof. intros a b H. rewrite ei_sum by exact H. reflexivity. Qed.

(** From squares to distances. *)
Lemma root_step : forall e h x y, 0 <= e <= / 4 -> 0 <= h -> 0 <= x -> 0 <= y -> x * x * (1 - e) - h * h <= y * y * (1 + e) + h * h -> x <= (1 + 2 * e) * y + 2 * h.
Proof.
  intros e h x y He Hh Hx Hy H. destruct (Rle_or_lt x ((1 + 2 * e) * y + 2 * h)) as [|Q]; [auto|exfalso].
  set (z := (1 + 2 * e) * y + 2 * h) in *. assert (Pz : 0 <= z) by (unfold z; apply Rplus_le_le_0_compat; nra).
  assert (S1 : z * z < x * x) by nra. assert (S2 : z * z * (1 - e) < x * x * (1 - e)) by nra.
  assert (S3 : y * y * (1 + e) + 2 * (h * h) <= z * z * (1 - e)).
  { assert (Ez : z * z = (1 + 2 * e) * (1 + 2 * e) * (y * y) + 4 * (1 + 2 * e) * (y * h) + 4 * (h * h)) by (unfold z; ring).
    assert (P1 : 0 <= y * y) by nra. assert (P2 : 0 <= y * h) by nra. assert (P3 : 0 <= h * h) by nra.
    assert (G1 : 1 + e <= (1 + 2 * e) * (1 + 2 * e) * (1 - e)) by nra.
    assert (K1 : (1 + e) * (y * y) <= (1 + 2 * e) * (1 + 2 * e) * (1 - e) * (y * y)) by (apply Rmult_le_compat_r; auto).
    assert (K2 : 0 <= (4 * (1 + 2 * e) * (1 - e)) * (y * h)) by (apply Rmult_le_pos; [nra|auto]).
    assert (K3 : 2 * (h * h) <= (4 * (1 - e)) * (h * h)) by (apply Rmult_le_compat_r; [auto|lra]).
    rewrite Ez. lra. }
  lra.
Qed.

Lemma nearest : forall fs dim data ctr, (1 <= length data)%nat -> dim_ok dim -> (forall row, In row data -> length row = dim /\ good row /\ forall x, In x row -> Rabs (real x) <= bpow radix2 50) ->
  length ctr = dim -> good ctr -> (forall x, In x ctr -> Rabs (real x) <= bpow radix2 51) -> (forall i, (i < length data)%nat -> Permutation (fred_items (fs i)) (seq 0 dim)) ->
  exists ds p, collect (fun i => do row <- rd data i; l2_fused (fs i) ctr row) (seq 0 (length data)) = Ok ds /\ calculate_medoid (length data) ds = Ok p /\ (p < length data)%nat /\
    forall q, (q < length data)%nat -> distance dim (fun j => real (nth j ctr f32_zero)) (fun j => at_ data j p) <=
      (1 + (INR dim + 2) * powerRZ 2 (-22)) * distance dim (fun j => real (nth j ctr f32_zero)) (fun j => at_ data j q) + powerRZ 2 (-62).
Proof.
  intros fs dim data ctr L1 Hd Hr Lc Gc Bc Hf. set (n := length data) in *. set (D := fun i => sqs dim (fun j => real (nth j ctr f32_zero) - at_ data j i)).
  pose proof ulp_val as [U1 U2]. pose proof (dim_ulp dim Hd) as DU. pose proof (pos_INR dim) as Pd.
  assert (Ex : exists ds, collect (fun i => do row <- rd data i; l2_fused (fs i) ctr row) (seq 0 n) = Ok ds /\
    Forall2 (fun i r => finite r /\ f32_valid r = true /\ Rabs (real r - D i) <= (INR dim + 2) * powerRZ 2 (-23) * D i + INR dim * powerRZ 2 (-149)) (seq 0 n) ds).
  { apply collect_ex. intros i Hi. apply in_seq in Hi. destruct (rd_lt _ data i) as [row Er]; [fold n; lia|]. rewrite Er. cbn [bind]. apply rd_ok in Er. destruct (Hr row (nth_error_In _ _ Er)) as [Lr [Gr Br]].
    assert (Di : exact_l2 ctr row = D i) by (rewrite sqs_isum by congruence; unfold D, at_; rewrite Lc, (nth_error_nth _ _ _ Er); reflexivity).
    assert (Pt : Permutation (red_items (unc (fs i))) (seq 0 (length ctr))) by (rewrite Lc; apply unc_perm, Hf; fold n; lia).
    assert (Bd : D i <= INR dim * (bpow radix2 52 * bpow radix2 52)).
    { unfold D. apply Rle_trans with (sqs dim (fun _ => bpow radix2 52)); [|rewrite sqs_const; cbn; lra]. apply sqs_mono. intros j Hj. rewrite (Rabs_pos_eq (bpow _ _)) by apply bpow_ge_0.
      assert (A1 : Rabs (real (nth j ctr f32_zero)) <= bpow radix2 51) by (apply Bc, nth_In; lia).
      assert (A2 : Rabs (at_ data j i) <= bpow radix2 50) by (unfold at_; rewrite (nth_error_nth _ _ _ Er); apply Br, nth_In; lia).
      eapply Rle_trans; [apply Rabs_triang|]. rewrite Rabs_Ropp. change (bpow radix2 52) with (bpow radix2 (51 + 1)). rewrite bpow_plus. change (bpow radix2 1) with 2. assert (bpow radix2 50 <= bpow radix2 51) by (apply bpow_le; lia). lra. }
    assert (PD : 0 <= D i) by apply sqs_pos.
    destruct (l2_finite (unc (fs i)) (fs i) ctr row) as [r [Hr1 Fr]]; auto using unc_contracts; try congruence.
    { rewrite Di, Lc. assert (E3 : E (dim + 3) <= 2). { assert (Q : INR (dim + 3) * ulp <= 1) by (rewrite plus_INR; change (INR 3) with (1 + 1 + 1); lra). pose proof (E_lin _ Q). assert (INR (dim + 3) * ulp <= / 2) by (rewrite plus_INR; change (INR 3) with (1 + 1 + 1); lra). lra. }
      pose proof (E_mono dim (dim + 3) ltac:(lia)) as E4. pose proof (E_ge dim) as E5.
      assert (Id : INR dim <= bpow radix2 20) by (rewrite INR_IZR_INZ, <- pow_Z by lia; apply IZR_le; exact Hd).
      assert (T1 : tiny <= 1) by (pose proof tiny_ulp; nra). assert (T0 : 0 <= tiny) by (unfold tiny; apply powerRZ_le; lra).
      assert (D1 : D i <= bpow radix2 20 * bpow radix2 104) by (apply Rle_trans with (1 := Bd); rewrite <- bpow_plus; apply Rmult_le_compat; [lra|apply bpow_ge_0|exact Id|apply Rle_refl]).
      assert (X1 : E (dim + 3) * D i <= 2 * (bpow radix2 20 * bpow radix2 104)) by (apply Rmult_le_compat; lra).
      assert (X2 : INR dim * tiny * E dim <= bpow radix2 20 * 1 * 2) by (apply Rmult_le_compat; [apply Rmult_le_pos; lra|lra|apply Rmult_le_compat; lra|lra]).
      replace (powerRZ 2 127) with (bpow radix2 127) by (rewrite bpow_powerRZ; reflexivity). rewrite <- bpow_plus in X1. change 2 with (bpow radix2 1) in X1 at 1. rewrite <- bpow_plus in X1.
      assert (Y1 : bpow radix2 (1 + (20 + 104)) <= bpow radix2 126) by (apply bpow_le; lia).
      assert (Y2 : bpow radix2 20 * 1 * 2 <= bpow radix2 126) by (rewrite Rmult_1_r; change 2 with (bpow radix2 1); rewrite <- bpow_plus; apply bpow_le; lia).
      change (bpow radix2 127) with (bpow radix2 (126 + 1)). rewrite bpow_plus. change (bpow radix2 1) with 2. lra. }
    exists r. split; [exact Hr1|]. split; [exact Fr|]. split; [exact (l2_valid (fs i) ctr row r Gc Gr Hr1 Fr)|]. rewrite <- Di, <- Lc. eapply (l2_error_simple (unc (fs i))); eauto using unc_contracts; try congruence. rewrite Lc. unfold dim_ok in Hd. lia. }
  destruct Ex as [ds [Eds F2]]. destruct (Forall2_seq _ _ _ _ F2) as [Ld Fd].
  destruct (calculate_medoid_ok n ds) as [p [Ep [Hp [dp [Np [Hmin _]]]]]]; auto.
  { intros d Hin. apply In_nth_error in Hin. destruct Hin as [i Hi]. destruct (Fd i) as [y [Ny [Fy _]]]; [rewrite <- Ld; apply nth_error_Some; congruence|]. replace d with y by congruence. now apply finite_nan. }
  exists ds, p. split; [exact Eds|]. split; [exact Ep|]. split; [exact Hp|]. intros q Hq.
  destruct (Fd p Hp) as [rp [Np' [Fp [Vp Bp]]]]. destruct (Fd q Hq) as [rq [Nq [Fq [Vq Bq]]]]. replace rp with dp in * by congruence.
  pose proof (fle_real dp rq Vp Vq Fp Fq (Hmin q rq Nq)) as Lpq. apply Rabs_le_inv in Bp, Bq.
  pose proof (root_step ((INR dim + 2) * powerRZ 2 (-23)) (powerRZ 2 (-63)) (distance dim (fun j => real (nth j ctr f32_zero)) (fun j => at_ data j p)) (distance dim (fun j => real (nth j ctr f32_zero)) (fun j => at_ data j q))) as RS.
  assert (W : powerRZ 2 (-22) = 2 * powerRZ 2 (-23)) by (change (-22)%Z with (1 + -23)%Z; rewrite powerRZ_add by lra; rewrite powerRZ_1; reflexivity).
  assert (W2 : powerRZ 2 (-62) = 2 * powerRZ 2 (-63)) by (change (-62)%Z with (1 + -63)%Z; rewrite powerRZ_add by lra; rewrite powerRZ_1; reflexivity).
  assert (W3 : powerRZ 2 (-23) = 2 * ulp) by (unfold ulp; change (-23)%Z with (1 + -24)%Z; rewrite powerRZ_add by lra; rewrite powerRZ_1; reflexivity).
  rewrite W, W2. replace (1 + (INR dim + 2) * (2 * powerRZ 2 (-23))) with (1 + 2 * ((INR dim + 2) * powerRZ 2 (-23))) by ring. apply RS; clear RS.
  - rewrite W3. split; [apply Rmult_le_pos; lra|lra].
  - apply powerRZ_le. lra.
  - apply distance_pos.
  - apply distance_pos.
  - rewrite !distance_sq. fold (D p) (D q).
    assert (Sm : INR dim * powerRZ 2 (-149) <= powerRZ 2 (-63) * powerRZ 2 (-63)).
    { rewrite <- powerRZ_add by lra. assert (Id : INR dim <= bpow radix2 20) by (rewrite INR_IZR_INZ, <- pow_Z by lia; apply IZR_le; exact Hd).
      change 2 with (IZR radix2). rewrite <- !bpow_powerRZ. apply Rle_trans with (bpow radix2 20 * bpow radix2 (-149)); [apply Rmult_le_compat_r; [apply bpow_ge_0|exact Id]|]. rewrite <- bpow_plus. apply bpow_le. lia. }
    lra.
Qed.

(** A sum that stops growing. *)
From Coq Require Import NArith ZArith Reals Lra Lia List Arith Bool Permutation Floats.SpecFloat.
From Flocq Require Import Core Mult_error.
From Verif Require Import Base Float32 DivFacts DistSpec DistModel FusedModel RealSpec FloatReal L2ErrorProofs RealDistProofs NormProofs NormProofs2 StatsProofs4 PqModel PqProofs2 NormModel NormSpec EntryModel EntrySpec EntryProofs MeanModel MeanSpec MeanProofs MeanProofs2 MeanProofs3 MeanProofs4.
Import ListNotations.
Local Open Scope R_scope.

Lemma in_order_items : forall n, red_items (in_order n) = seq 0 n.
Proof. induction n as [|n IH]; [reflexivity|]. cbn [in_order red_items]. rewrite IH, seq_S. reflexivity. Qed.

Lemma of_Z_25 : f32_of_Z (2 ^ 25) = S754_finite false 8388608 2. Proof. vm_compute. reflexivity. Qed.
Lemma real_25 : real (S754_finite false 8388608 2) = IZR (2 ^ 25).
Proof. cbn [real]. change (powerRZ 2 2) with (2 ^ 2). change (2 ^ 25)%Z with 33554432%Z. lra. Qed.
Lemma two_ok : finite (f32_of_Z 2) /\ f32_valid (f32_of_Z 2) = true /\ real (f32_of_Z 2) = 2.
Proof. apply (of_Z_int 2). lia. Qed.
Lemma one_ok : finite (f32_of_Z 1) /\ f32_valid (f32_of_Z 1) = true /\ real (f32_of_Z 1) = 1.
Proof. apply (of_Z_int 1). lia. Qed.
Lemma stuck_2 : rnd (IZR (2 ^ 25) + 2) = IZR (2 ^ 25).
Proof.
  destruct two_ok as [F [V R]]. rewrite <- real_25, <- R. destruct (fadd_rnd (S754_finite false 8388608 2) (f32_of_Z 2) eq_refl V Logic.I F Logic.I) as [_ E].
  assert (A : fadd (S754_finite false 8388608 2) (f32_of_Z 2) = S754_finite false 8388608 2) by (vm_compute; reflexivity). rewrite A in E. symmetry. exact E.
Qed.
Lemma stuck_1 : rnd (IZR (2 ^ 25) + 1) = IZR (2 ^ 25).
Proof.
  destruct one_ok as [F [V R]]. rewrite <- real_25, <- R. destruct (fadd_rnd (S754_finite false 8388608 2) (f32_of_Z 1) eq_refl V Logic.I F Logic.I) as [_ E].
  assert (A : fadd (S754_finite false 8388608 2) (f32_of_Z 1) = S754_finite false 8388608 2) by (vm_compute; reflexivity). rewrite A in E. symmetry. exact E.
Qed.

Lemma even_rnd : forall m, (0 <= m <= 2 ^ 24)%Z -> rnd (IZR (2 * m)) = IZR (2 * m).
Proof.
  intros m H. apply round_generic; [auto with typeclass_instances|]. destruct (int_rnd m) as [R1 _]; [lia|].
  assert (G : generic_format radix2 (FLT_exp (-149) 24) (IZR m)) by (rewrite <- R1; apply generic_format_round; auto with typeclass_instances).
  rewrite mult_IZR, Rmult_comm. change (IZR 2) with (bpow radix2 1). apply mult_bpow_pos_exact_FLT; [exact G|lia].
Qed.

Lemma stuck_sum : forall (item : nat -> res f32) K, (forall i, (i < K)%nat -> item i = Ok (f32_of_Z 2)) ->
  forall m, (m <= K)%nat -> exists s, red_eval f32_zero (fun x y => Ok (fadd x y)) item (in_order m) = Ok s /\ finite s /\ f32_valid s = true /\ real s = IZR (Z.min (2 * Z.of_nat m) (2 ^ 25)).
Proof.
  intros item K Hi. destruct two_ok as [F2 [V2 R2]]. induction m as [|m IH]; intros Hm.
  - exists f32_zero. repeat split.
  - destruct IH as [s [Es [Fs [Vs Rs]]]]; [lia|]. cbn [in_order red_eval]. rewrite Es, Hi by lia. cbn [bind]. exists (fadd s (f32_of_Z 2)). split; [reflexivity|].
    assert (Q : rnd (real s + real (f32_of_Z 2)) = IZR (Z.min (2 * Z.of_nat (S m)) (2 ^ 25))).
    { rewrite Rs, R2. destruct (Z_lt_le_dec (2 * Z.of_nat m) (2 ^ 25)) as [L|L].
      - rewrite !Z.min_l by lia. rewrite <- plus_IZR. replace (2 * Z.of_nat m + 2)%Z with (2 * (Z.of_nat m + 1))%Z by lia. replace (2 * Z.of_nat (S m))%Z with (2 * (Z.of_nat m + 1))%Z by lia. apply even_rnd. lia.
      - rewrite !Z.min_r by lia. apply stuck_2. }
    assert (F : finite (fadd s (f32_of_Z 2))).
    { apply fadd_fin; auto. rewrite Q, Rabs_pos_eq by (apply IZR_le; lia). rewrite <- pow_Z by lia. apply IZR_lt. lia. }
    split; [exact F|]. destruct (fadd_rnd s (f32_of_Z 2) Vs V2 Fs F2 F) as [V R]. split; [exact V|]. rewrite R. exact Q.
Qed.

Lemma div_one : forall c s, f32_valid s = true -> finite s -> real s = IZR (2 ^ 25) -> let x := fdiv_by c s (f32_of_Z (2 ^ 25)) in finite x /\ f32_valid x = true /\ real x = 1.
Proof.
  intros c s V F R. cbv zeta. rewrite of_Z_25. set (n := S754_finite false 8388608 2) in *. assert (Rn : real n = IZR (2 ^ 25)) by apply real_25. assert (Nz : IZR (2 ^ 25) <> 0) by (apply IZR_neq; lia).
  assert (S1 : Rabs (rnd 1) < bpow radix2 128) by (apply rnd_small; rewrite Rabs_R1; change 1 with (bpow radix2 0); apply bpow_le; lia).
  destruct c; cbn [fdiv_by].
  - assert (Q : real s / real n = 1) by (rewrite R, Rn; field; exact Nz). assert (Fd : finite (fdiv s n)) by (apply fdiv_fin; auto; [rewrite Rn; exact Nz|rewrite Q; exact S1]).
    destruct (fdiv_rnd s n V eq_refl ltac:(rewrite Rn; exact Nz) Fd) as [Vd Rd]. split; [exact Fd|]. split; [exact Vd|]. rewrite Rd, Q. apply rnd_1.
  - assert (I : fdiv f32_one n = S754_finite false 8388608 (-48)) by (vm_compute; reflexivity). rewrite I. set (m := S754_finite false 8388608 (-48)).
    assert (Rm : real s * real m = 1). { rewrite R. unfold m. cbn [real]. change (Z.pos 8388608) with (2 ^ 23)%Z. rewrite !pow_Z by lia. change 2 with (IZR radix2) at 1. rewrite <- bpow_powerRZ, Rmult_1_l, <- !bpow_plus. reflexivity. }
    assert (Fd : finite (fmul s m)) by (apply fmul_fin; auto; try exact Logic.I; rewrite Rm; exact S1). destruct (fmul_rnd s m V eq_refl Fd) as [Vd Rd]. split; [exact Fd|]. split; [exact Vd|]. rewrite Rd, Rm. apply rnd_1.
Qed.

Definition stuck_rows (K : nat) : list (list N) := repeat [2%N] K ++ [[1%N]].
Lemma stuck_length : forall K, length (stuck_rows K) = S K.
Proof. intros K. unfold stuck_rows. rewrite app_length, repeat_length. cbn. lia. Qed.
Lemma stuck_nth : forall K i, (i < K)%nat -> nth_error (stuck_rows K) i = Some [2%N].
Proof. intros K i H. unfold stuck_rows. rewrite nth_error_app1 by (rewrite repeat_length; exact H). apply nth_error_repeat, H. Qed.
Lemma stuck_last : forall K, nth_error (stuck_rows K) K = Some [1%N].
Proof. intros K. unfold stuck_rows. rewrite nth_error_app2 by (rewrite repeat_length; lia). rewrite repeat_length, Nat.sub_diag. reflexivity. Qed.

Lemma stuck_medoid : forall c fs K, Z.of_nat K = (2 ^ 25)%Z -> (forall i, Permutation (fred_items (fs i)) [0%nat]) ->
  medoid_of_data c (fun _ => in_order (S K)) fs KUint8 1 (stuck_rows K) = Ok K.
Proof.
  intros c fs K HK Hf. set (data := map (map (kval KUint8)) (stuck_rows K)). assert (Ld : length data = S K) by (unfold data; rewrite map_length; apply stuck_length).
  assert (N2 : forall i, (i < K)%nat -> nth_error data i = Some [f32_of_Z 2]) by (intros i Hi; unfold data; rewrite nth_error_map, stuck_nth by exact Hi; reflexivity).
  assert (N1 : nth_error data K = Some [f32_of_Z 1]) by (unfold data; rewrite nth_error_map, stuck_last; reflexivity).
  destruct two_ok as [F2 [V2 R2]]. destruct one_ok as [F1 [V1 R1]].
  assert (Cc : exists x, centre_coord c (in_order (S K)) data 0 = Ok x /\ finite x /\ f32_valid x = true /\ real x = 1).
  { unfold centre_coord. destruct (stuck_sum (fun i => do row <- rd data i; rd row 0) K) with (m := K) as [s [Es [Fs [Vs Rs]]]]; [|apply le_n|].
    { intros i Hi. rewrite (proj2 (rd_ok _ data i [f32_of_Z 2]) (N2 i Hi)). reflexivity. }
    cbn [in_order red_eval]. rewrite Es. rewrite (proj2 (rd_ok _ data K [f32_of_Z 1]) N1). cbn [bind]. change (rd [f32_of_Z 1] 0) with (Ok (f32_of_Z 1)). cbn [bind].
    rewrite HK, Z.min_r in Rs by lia.
    assert (Q : rnd (real s + real (f32_of_Z 1)) = IZR (2 ^ 25)) by (rewrite Rs, R1; apply stuck_1).
    assert (F : finite (fadd s (f32_of_Z 1))) by (apply fadd_fin; auto; rewrite Q, Rabs_pos_eq by (apply IZR_le; lia); rewrite <- pow_Z by lia; apply IZR_lt; lia).
    destruct (fadd_rnd s (f32_of_Z 1) Vs V1 Fs F1 F) as [V R]. rewrite Q in R.
    assert (En : f32_of_Z (Z.of_nat (length data)) = f32_of_Z (2 ^ 25)) by (rewrite Ld, Nat2Z.inj_succ, HK; vm_compute; reflexivity). rewrite En.
    eexists. split; [reflexivity|]. apply div_one; auto. }
  destruct Cc as [x [Ex [Fx [Vx Rx]]]]. unfold medoid_of_data. fold data. unfold centre. cbn [seq collect]. rewrite Ex. cbn [bind].
  assert (Hx : holds_ints [x] [1%Z]) by (constructor; [|constructor]; destruct x; try (destruct Fx); exact Rx).
  assert (L2 : forall i row z, nth_error data i = Some row -> length row = 1%nat -> holds_ints row [z] -> (forall y, In y row -> f32_valid y = true) -> (0 <= z <= 2)%Z ->
    exists r, l2_fused (fs i) [x] row = Ok r /\ finite r /\ f32_valid r = true /\ real r = IZR ((1 - z) * (1 - z))).
  { intros i row z Hr Lr Hz Vr Bz. assert (Sq : sq_dist [1%Z] [z] = ((1 - z) * (1 - z))%Z) by (unfold sq_dist; cbn; lia). rewrite <- Sq. apply (l2_exact (unc (fs i)) (fs i)); auto using unc_contracts.
    - apply unc_perm. exact (Hf i).
    - intros y [<-|[]]. exact Vx.
    - rewrite Sq. nia. }
  assert (H2 : holds_ints [f32_of_Z 2] [2%Z]) by (constructor; [|constructor]; destruct (f32_of_Z 2); try (destruct F2); exact R2).
  assert (H1 : holds_ints [f32_of_Z 1] [1%Z]) by (constructor; [|constructor]; destruct (f32_of_Z 1); try (destruct F1); exact R1).
  destruct (collect_ex _ _ (fun i => do row <- rd data i; l2_fused (fs i) [x] row) (fun i r => finite r /\ f32_valid r = true /\ real r = if (i <? K)%nat then 1 else 0) (seq 0 (length data))) as [ds [Ed Fd]].
  { intros i Hi. apply in_seq in Hi. rewrite Ld in Hi. destruct (Nat.ltb_spec i K) as [L|L].
    - rewrite (proj2 (rd_ok _ data i [f32_of_Z 2]) (N2 i L)). cbn [bind]. apply (L2 i [f32_of_Z 2] 2%Z); auto; [|lia]. intros y [<-|[]]. exact V2.
    - replace i with K by lia. rewrite (proj2 (rd_ok _ data K [f32_of_Z 1]) N1). cbn [bind]. apply (L2 K [f32_of_Z 1] 1%Z); auto; [|lia]. intros y [<-|[]]. exact V1. }
  rewrite Ed. cbn [bind]. destruct (Forall2_seq _ _ _ _ Fd) as [Lds Hds]. rewrite Ld in *.
  destruct (calculate_medoid_ok (S K) ds) as [p [Ep [Hp [dp [Np [Hmin _]]]]]]; auto; [lia| |].
  { intros d Hin. apply In_nth_error in Hin. destruct Hin as [i Hi]. destruct (Hds i) as [y [Ny [Fy _]]]; [rewrite <- Lds; apply nth_error_Some; congruence|]. replace d with y by congruence. now apply finite_nan. }
  rewrite Ep. f_equal. destruct (Nat.eq_dec p K) as [|Ne]; [auto|exfalso].
  destruct (Hds p Hp) as [y [Ny [Fy [Vy Ry]]]]. destruct (Hds K ltac:(lia)) as [z [Nz [Fz [Vz Rz]]]]. replace dp with y in * by congruence.
  pose proof (fle_real y z Vy Vz Fy Fz (Hmin K z Nz)) as Q. rewrite Ry, Rz in Q. rewrite Nat.ltb_irrefl in Q. destruct (Nat.ltb_spec p K); [lra|lia].
Qed.

Lemma real_sum_repeat : forall n x, real_sum (repeat x n) = INR n * x.
Proof. induction n as [|n IH]; intros x; [cbn; ring|]. cbn [repeat real_sum fold_right]. unfold real_sum in IH. rewrite IH, S_INR. ring. Qed.
Lemma map_rep : forall (A B : Type) (f : A -> B) x n, map f (repeat x n) = repeat (f x) n.
Proof. intros A B f x. induction n as [|n IH]; [reflexivity|]. cbn. now rewrite IH. Qed.

Lemma saturation : exists rows p q, rows_ok KUint8 1 2 rows /\ (p < length rows)%nat /\ (q < length rows)%nat /\ Z.of_nat (length rows) = (2 ^ 25 + 1)%Z /\
  (forall c fs, (forall i, Permutation (fred_items (fs i)) (seq 0 1)) -> medoid_of_data c (fun _ => in_order (length rows)) fs KUint8 1 rows = Ok p) /\
  distance 1 (coord KUint8 (nth q rows [])) (fun j => mean (column KUint8 rows j)) <= powerRZ 2 (-25) /\
  distance 1 (coord KUint8 (nth p rows [])) (fun j => mean (column KUint8 rows j)) >= 1 - powerRZ 2 (-25).
Proof.
  assert (G : forall K, Z.of_nat K = (2 ^ 25)%Z -> exists rows p q, rows_ok KUint8 1 2 rows /\ (p < length rows)%nat /\ (q < length rows)%nat /\ Z.of_nat (length rows) = (2 ^ 25 + 1)%Z /\
    (forall c fs, (forall i, Permutation (fred_items (fs i)) (seq 0 1)) -> medoid_of_data c (fun _ => in_order (length rows)) fs KUint8 1 rows = Ok p) /\
    distance 1 (coord KUint8 (nth q rows [])) (fun j => mean (column KUint8 rows j)) <= powerRZ 2 (-25) /\
    distance 1 (coord KUint8 (nth p rows [])) (fun j => mean (column KUint8 rows j)) >= 1 - powerRZ 2 (-25)).
  2: { apply (G (Z.to_nat (2 ^ 25))). apply Z2Nat.id. lia. }
  intros K HK. exists (stuck_rows K), K, 0%nat. assert (K0 : (0 < K)%nat) by lia. rewrite stuck_length. split; [|split; [lia|split; [lia|split; [lia|split]]]].
  - intros row Hr. apply in_app_or in Hr. assert (Q : row = [2%N] \/ row = [1%N]) by (destruct Hr as [Hr|[<-|[]]]; [left; apply repeat_spec in Hr; auto|right; auto]).
    destruct Q as [-> | ->]; (split; [reflexivity|]); intros e [<-|[]]; (split; [cbn; lia|]); cbn [elem_real Z.of_N]; rewrite Rabs_pos_eq; lra.
  - intros c fs Hf. apply stuck_medoid; auto.
  - assert (M : mean (column KUint8 (stuck_rows K) 0) = 2 - / (INR K + 1)).
    { unfold mean, column. rewrite map_length, stuck_length, S_INR. unfold stuck_rows. rewrite map_app, map_rep, real_sum_app, real_sum_repeat. cbn [map real_sum fold_right]. unfold coord. cbn [nth elem_real Z.of_N]. pose proof (pos_INR K). field. lra. }
    rewrite (nth_error_nth _ _ _ (stuck_nth K 0 K0)), (nth_error_nth _ _ _ (stuck_last K)).
    assert (D : forall z, distance 1 (coord KUint8 [z]) (fun j => mean (column KUint8 (stuck_rows K) j)) = Rabs (IZR (Z.of_N z) - (2 - / (INR K + 1)))).
    { intros z. rewrite distance_sqs. unfold sqs. cbn [seq map real_sum fold_right]. rewrite M, Rplus_0_r. unfold coord. cbn [nth elem_real]. rewrite <- pow2_abs. rewrite sqrt_pow2 by apply Rabs_pos. reflexivity. }
    rewrite !D. cbn [Z.of_N].
    assert (I : INR K = bpow radix2 25) by (rewrite INR_IZR_INZ, HK, pow_Z by lia; reflexivity). pose proof (bpow_gt_0 radix2 25) as P25.
    assert (B : 0 < / (INR K + 1) <= powerRZ 2 (-25)).
    { rewrite I. split; [apply Rinv_0_lt_compat; lra|]. change 2 with (IZR radix2). rewrite <- bpow_powerRZ. change (-25)%Z with (- (25))%Z. rewrite bpow_opp. apply Rinv_le; lra. }
    assert (B2 : powerRZ 2 (-25) <= 1) by (change 1 with (powerRZ 2 0); change 2 with (IZR radix2); rewrite <- !bpow_powerRZ; apply bpow_le; lia).
    split; [rewrite Rabs_pos_eq; lra|]. rewrite Rabs_left1; lra.
Qed.

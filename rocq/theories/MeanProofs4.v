(** Centroids of data files and the entry point: the statements. *)
From Coq Require Import NArith ZArith Reals Lra Lia List Arith Bool Permutation Floats.SpecFloat.
From Flocq Require Import Core.
From Verif Require Import Base Float32 DivFacts DistSpec DistModel FusedModel RealSpec FloatReal L2ErrorProofs RealDistProofs NormProofs NormProofs2 StatsProofs4 PqModel PqProofs2 NormModel NormSpec EntryModel EntrySpec EntryProofs MeanModel MeanSpec MeanProofs MeanProofs2 MeanProofs3.
Import ListNotations.
Local Open Scope R_scope.

Lemma p2_2 : powerRZ 2 2 = 4. Proof. change (powerRZ 2 2) with (2 ^ 2). ring. Qed.
Lemma p2_3 : powerRZ 2 3 = 8. Proof. change (powerRZ 2 3) with (2 ^ 3). ring. Qed.

Lemma mean_abs_le : forall l b, 0 <= b -> (forall x, In x l -> Rabs x <= b) -> mean_abs l <= b.
Proof.
  intros l b Hb H. unfold mean_abs, mean. rewrite map_length. assert (S : real_sum (map Rabs l) <= INR (length l) * b).
  { clear Hb. induction l as [|x l IH]; [cbn; lra|]. cbn [map real_sum fold_right]. change (length (x :: l)) with (S (length l)). rewrite S_INR. pose proof (H x (or_introl eq_refl)). pose proof (IH (fun y Q => H y (or_intror Q))). unfold real_sum in *. lra. }
  destruct l as [|x l]; [cbn; unfold Rdiv; rewrite Rmult_0_l; lra|]. assert (P : 0 < INR (length (x :: l))) by (apply lt_0_INR; cbn; lia).
  apply Rmult_le_reg_r with (INR (length (x :: l))); [exact P|]. unfold Rdiv. rewrite Rmult_assoc, Rinv_l by lra. lra.
Qed.
Lemma eps_lin : forall n, (Z.of_nat n < 2 ^ 22)%Z -> E (n + 3) - 1 <= (INR n + 3) * powerRZ 2 (-23) /\ (INR n + 3) * powerRZ 2 (-23) <= / 2 + / 1000.
Proof.
  intros n H. pose proof (INR_ulp n 22 ltac:(lia) ltac:(lia)) as U. change (bpow radix2 (22 - 24)) with (/ 4) in U. pose proof ulp_val as [U1 U2].
  assert (Q : INR (n + 3) = INR n + 3) by (rewrite plus_INR; cbn; lra). pose proof (E_lin (n + 3)) as L. rewrite Q in L.
  assert (W : powerRZ 2 (-23) = 2 * ulp) by (unfold ulp; change (-23)%Z with (1 + -24)%Z; rewrite powerRZ_add by lra; rewrite powerRZ_1; reflexivity). rewrite W. split; [(lapply L; [intro|]; lra)|lra].
Qed.
Lemma E4 : E 4 - 1 <= powerRZ 2 (-21).
Proof.
  pose proof ulp_val as [U1 U2]. pose proof (E_lin 4) as L. change (INR 4) with (1 + 1 + 1 + 1) in L. assert (W : powerRZ 2 (-21) = 8 * ulp) by (unfold ulp; change (-21)%Z with (3 + -24)%Z; rewrite powerRZ_add by lra; rewrite ?p2_2, ?p2_3; reflexivity). rewrite W. (lapply L; [intro|]; lra).
Qed.

(** ** Floats *)
Lemma centre_ok : forall (er : nat -> R) c ts dim data, 
  (forall j, (j < dim)%nat -> exists x, centre_coord c (ts j) data j = Ok x /\ finite x /\ f32_valid x = true /\ Rabs (real x - mean (rcol data j)) <= er j) ->
  exists ctr, centre c ts dim data = Ok ctr /\ length ctr = dim /\ good ctr /\ forall j, (j < dim)%nat -> exists x, nth_error ctr j = Some x /\ finite x /\ Rabs (real x - mean (rcol data j)) <= er j.
Proof.
  intros er c ts dim data H. destruct (collect_ex _ _ (fun j => centre_coord c (ts j) data j) (fun j x => finite x /\ f32_valid x = true /\ Rabs (real x - mean (rcol data j)) <= er j) (seq 0 dim)) as [ctr [E F2]].
  { intros j Hj. apply in_seq in Hj. apply H. lia. }
  destruct (Forall2_seq _ _ _ _ F2) as [L F]. exists ctr. split; [exact E|]. split; [exact L|]. split.
  - intros x Hx. apply In_nth_error in Hx. destruct Hx as [j Hj]. destruct (F j) as [y [Ny [F1 [V1 _]]]]; [rewrite <- L; apply nth_error_Some; congruence|]. replace x with y by congruence. auto.
  - intros j Hj. destruct (F j Hj) as [x [Nx [F1 [V1 B]]]]. exists x. auto.
Qed.

Lemma centroid_floats : forall c ts dim data, (1 <= length data)%nat -> (Z.of_nat (length data) < 2 ^ 22)%Z ->
  (forall row, In row data -> length row = dim /\ forall x, In x row -> finite x /\ f32_valid x = true) -> (forall j, (j < dim)%nat -> Permutation (red_items (ts j)) (seq 0 (length data))) ->
  (forall j, (j < dim)%nat -> real_sum (map (fun row => Rabs (real (nth j row f32_zero))) data) <= powerRZ 2 125) ->
  exists ctr, pq_centroid true c ts dim data = Ok ctr /\ length ctr = dim /\ forall j, (j < dim)%nat -> exists x, nth_error ctr j = Some x /\ finite x /\
    Rabs (real x - mean (map (fun row => real (nth j row f32_zero)) data)) <= (INR (length data) + 3) * powerRZ 2 (-23) * mean_abs (map (fun row => real (nth j row f32_zero)) data) + powerRZ 2 (-150).
Proof.
  intros c ts dim data L1 L2 H P B. cbn [pq_centroid]. destruct (eps_lin (length data) L2) as [e1 _].
  destruct (centre_ok (fun j => (INR (length data) + 3) * powerRZ 2 (-23) * mean_abs (rcol data j) + powerRZ 2 (-150)) c ts dim data) as [ctr [Ec [Lc [_ Hc]]]].
  { intros j Hj. destruct (coord_error c (ts j) data j) as [x [E1 [E2 [E3 E5]]]]; auto.
    { intros row Hr. destruct (H row Hr) as [-> G]. split; [exact Hj|exact G]. }
    { unfold rcol. rewrite map_map, bpow_powerRZ. apply B, Hj. }
    exists x. split; [exact E1|]. split; [exact E2|]. split; [exact E3|]. eapply Rle_trans; [exact E5|]. apply Rplus_le_compat_r, Rmult_le_compat_r; [apply mean_abs_pos|exact e1]. }
  exists ctr. split; [exact Ec|]. split; [exact Lc|]. exact Hc.
Qed.

(** ** Elements of a file *)
Lemma rcol_column : forall k dim b rows j, rows_ok k dim b rows -> (j < dim)%nat -> rcol (map (map (kval k)) rows) j = column k rows j.
Proof.
  intros k dim b rows j H Hj. unfold rcol, column. rewrite map_map. apply map_ext_in. intros row Hr. destruct (H row Hr) as [L G]. unfold coord.
  rewrite (nth_indep _ f32_zero (kval k 0%N)) by (rewrite map_length; lia). rewrite map_nth. apply kval_ok, G, nth_In. lia.
Qed.
Lemma rows_good : forall k dim b rows, rows_ok k dim b rows -> forall row, In row (map (map (kval k)) rows) -> length row = dim /\ good row /\ forall x, In x row -> Rabs (real x) <= b.
Proof.
  intros k dim b rows H row Hr. apply in_map_iff in Hr. destruct Hr as [r [<- Hr]]. destruct (H r Hr) as [L G]. split; [now rewrite map_length|].
  split; intros x Hx; apply in_map_iff in Hx; destruct Hx as [e [<- He]]; destruct (G e He) as [O A]; destruct (kval_ok k e O) as [F [V R]]; [auto|rewrite R; exact A].
Qed.
Lemma at_coord : forall k dim b rows i j, rows_ok k dim b rows -> (j < dim)%nat -> (i < length rows)%nat -> at_ (map (map (kval k)) rows) j i = coord k (nth i rows []) j.
Proof.
  intros k dim b rows i j H Hj Hi. unfold at_. rewrite (nth_indep _ [] (map (kval k) [])) by (rewrite map_length; exact Hi). rewrite map_nth.
  destruct (H (nth i rows []) (nth_In _ _ Hi)) as [L G]. unfold coord. rewrite (nth_indep _ f32_zero (kval k 0%N)) by (rewrite map_length; lia). rewrite map_nth. apply kval_ok, G, nth_In. lia.
Qed.
Lemma column_le : forall k dim b rows j x, rows_ok k dim b rows -> (j < dim)%nat -> In x (column k rows j) -> Rabs x <= b.
Proof. intros k dim b rows j x H Hj Hx. apply in_map_iff in Hx. destruct Hx as [row [<- Hr]]. destruct (H row Hr) as [L G]. apply G. apply nth_In. lia. Qed.

Lemma column_sum_le : forall k dim rows j, rows_ok k dim (powerRZ 2 50) rows -> (j < dim)%nat -> (Z.of_nat (length rows) < 2 ^ 22)%Z -> real_sum (map Rabs (column k rows j)) <= bpow radix2 125.
Proof.
  intros k dim rows j H Hj L. assert (S : forall l, (forall x, In x l -> Rabs x <= powerRZ 2 50) -> real_sum (map Rabs l) <= INR (length l) * powerRZ 2 50).
  { induction l as [|x l IH]; intros Q; [cbn; lra|]. cbn [map real_sum fold_right]. change (length (x :: l)) with (S (length l)). rewrite S_INR. pose proof (Q x (or_introl eq_refl)). pose proof (IH (fun y W => Q y (or_intror W))). unfold real_sum in *. lra. }
  eapply Rle_trans; [apply S; intros x Hx; eapply column_le; eauto|]. unfold column. rewrite map_length. change 2 with (IZR radix2). rewrite <- bpow_powerRZ.
  apply Rle_trans with (bpow radix2 22 * bpow radix2 50); [|rewrite <- bpow_plus; apply bpow_le; lia]. apply Rmult_le_compat_r; [apply bpow_ge_0|]. rewrite INR_IZR_INZ, <- pow_Z by lia. apply IZR_le. lia.
Qed.

(** Vectors near each other. *)
Lemma near_sqs : forall d f eps w, 0 <= eps -> (forall j, (j < d)%nat -> 0 <= w j) -> (Z.of_nat d <= 2 ^ 20)%Z -> (forall j, (j < d)%nat -> Rabs (f j) <= eps * w j + tiny) -> sqrt (sqs d f) <= eps * sqrt (sqs d w) + powerRZ 2 (-140).
Proof.
  intros d f eps w He Hw Hd H. apply Rle_trans with (sqrt (sqs d (fun j => eps * w j + tiny))).
  - apply sqrt_le_1_alt, sqs_mono. intros j Hj. assert (T0 : 0 <= tiny) by (unfold tiny; apply powerRZ_le; lra). rewrite (Rabs_pos_eq (_ + _)); [now apply H|]. pose proof (Hw j Hj). apply Rplus_le_le_0_compat; [apply Rmult_le_pos; auto|exact T0].
  - eapply Rle_trans; [apply (minkowski d (fun j => eps * w j) (fun _ => tiny))|]. rewrite norm_scale by exact He. apply Rplus_le_compat_l. rewrite sqs_const.
    rewrite <- (sqrt_pow2 (powerRZ 2 (-140))) by (apply powerRZ_le; lra). apply sqrt_le_1_alt. unfold tiny. cbn [pow]. rewrite !Rmult_1_r, <- !powerRZ_add by lra.
    change 2 with (IZR radix2). rewrite <- !bpow_powerRZ. apply Rle_trans with (bpow radix2 20 * bpow radix2 (-150 + -150)); [|rewrite <- bpow_plus; apply bpow_le; lia].
    apply Rmult_le_compat_r; [apply bpow_ge_0|]. rewrite INR_IZR_INZ, <- pow_Z by lia. apply IZR_le, Hd.
Qed.

Lemma distance_ext : forall d x y x' y', (forall j, (j < d)%nat -> x j = x' j) -> (forall j, (j < d)%nat -> y j = y' j) -> distance d x y = distance d x' y'.
Proof. intros d x y x' y' H K. unfold distance. do 2 f_equal. apply map_ext_in. intros j Hj. apply in_seq in Hj. rewrite H, K by lia. reflexivity. Qed.

Lemma entry_near : forall eps (w : nat -> R) c ts fs k dim rows, (1 <= length rows)%nat -> dim_ok dim -> rows_ok k dim (powerRZ 2 50) rows -> 0 <= eps <= 1 -> (forall j, (j < dim)%nat -> 0 <= w j) ->
  (forall j, (j < dim)%nat -> w j <= mean_abs (column k rows j)) ->
  (forall j, (j < dim)%nat -> exists x, centre_coord c (ts j) (map (map (kval k)) rows) j = Ok x /\ finite x /\ f32_valid x = true /\ Rabs (real x - mean (column k rows j)) <= eps * w j + tiny) ->
  eps <= / 2 + / 1000 -> (forall i, (i < length rows)%nat -> Permutation (fred_items (fs i)) (seq 0 dim)) ->
  exists p, medoid_of_data c ts fs k dim rows = Ok p /\ (p < length rows)%nat /\ forall q, (q < length rows)%nat ->
    distance dim (coord k (nth p rows [])) (fun j => mean (column k rows j)) <=
    (1 + (INR dim + 2) * powerRZ 2 (-22)) * distance dim (coord k (nth q rows [])) (fun j => mean (column k rows j)) + 3 * eps * norm dim w + powerRZ 2 (-60).
Proof.
  intros eps w c ts fs k dim rows L1 Hd Hr He Hw Hwm Hc He2 Hf. set (data := map (map (kval k)) rows) in *. assert (Ld : length data = length rows) by apply map_length.
  destruct (centre_ok (fun j => eps * w j + tiny) c ts dim data) as [ctr [Ec [Lc [Gc Bc]]]].
  { intros j Hj. destruct (Hc j Hj) as [x [E1 [E2 [E3 E5]]]]. exists x. repeat split; auto. unfold data. rewrite (rcol_column k dim _ rows j Hr Hj). exact E5. }
  assert (Bc' : forall j, (j < dim)%nat -> Rabs (real (nth j ctr f32_zero) - mean (column k rows j)) <= eps * w j + tiny).
  { intros j Hj. destruct (Bc j Hj) as [x [Nx [_ B]]]. rewrite (nth_error_nth _ _ _ Nx). unfold data in B. rewrite (rcol_column k dim _ rows j Hr Hj) in B. exact B. }
  assert (P50 : 0 < powerRZ 2 50) by (apply powerRZ_lt; lra).
  assert (T1 : tiny <= / 1000). { pose proof tiny_ulp. pose proof ulp_val as [? ?]. assert (ulp * ulp <= ulp * / 1000000) by (apply Rmult_le_compat_l; lra). lra. }
  destruct (nearest fs dim data ctr) as [ds [p [Eds [Ep [Hp Hq]]]]]; try rewrite Ld; auto.
  { intros row Hin. destruct (rows_good k dim _ rows Hr row Hin) as [A1 [A2 A3]]. rewrite bpow_powerRZ. auto. }
  { intros x Hx. apply In_nth_error in Hx. destruct Hx as [j Hj]. assert (Hj' : (j < dim)%nat) by (rewrite <- Lc; apply nth_error_Some; congruence).
    pose proof (Bc' j Hj') as B. rewrite (nth_error_nth _ _ _ Hj) in B. assert (M : mean_abs (column k rows j) <= powerRZ 2 50) by (apply mean_abs_le; [lra|]; intros y Hy; eapply column_le; eauto).
    pose proof (mean_abs_ge (column k rows j)) as M2. replace (real x) with (real x - mean (column k rows j) + mean (column k rows j)) by ring. eapply Rle_trans; [apply Rabs_triang|].
    assert (eps * w j <= (/ 2 + / 1000) * powerRZ 2 50) by (apply Rmult_le_compat; [lra|auto|lra|apply Rle_trans with (2 := M); auto]).
    assert (Q1 : 1 <= powerRZ 2 50) by (change 1 with (powerRZ 2 0); change 2 with (IZR radix2); rewrite <- !bpow_powerRZ; apply bpow_le; lia).
    change (bpow radix2 51) with (bpow radix2 (1 + 50)). rewrite bpow_plus. change (bpow radix2 1) with 2. rewrite bpow_powerRZ. change (IZR radix2) with 2. lra. }
  exists p. unfold medoid_of_data. fold data. rewrite Ec. cbn [bind]. rewrite Eds. cbn [bind]. split; [exact Ep|]. rewrite Ld in *. split; [exact Hp|]. intros q Hql.
  specialize (Hq q Hql). set (m := fun j => mean (column k rows j)). set (cc := fun j => real (nth j ctr f32_zero)) in *.
  assert (Cm : distance dim cc m <= eps * norm dim w + powerRZ 2 (-140)).
  { rewrite distance_sqs. eapply Rle_trans; [apply (near_sqs dim _ eps w)|]; auto; [lra|]. right. unfold norm. rewrite distance_sqs. do 3 f_equal. unfold sqs. f_equal. apply map_ext. intros j. f_equal. ring. }
  assert (Dp : distance dim (coord k (nth p rows [])) m <= distance dim cc (fun j => at_ data j p) + distance dim cc m).
  { rewrite (distance_ext dim (coord k (nth p rows [])) m (fun j => at_ data j p) m); [|intros j Hj; symmetry; eapply at_coord; eauto|reflexivity]. rewrite (distance_sym dim cc (fun j => at_ data j p)). apply distance_triangle. }
  assert (Dq : distance dim cc (fun j => at_ data j q) <= distance dim cc m + distance dim (coord k (nth q rows [])) m).
  { rewrite (distance_ext dim (coord k (nth q rows [])) m (fun j => at_ data j q) m); [|intros j Hj; symmetry; eapply at_coord; eauto|reflexivity]. rewrite (distance_sym dim (fun j => at_ data j q) m). apply distance_triangle. }
  pose proof (distance_pos dim cc m) as P1. pose proof (distance_pos dim (coord k (nth q rows [])) m) as P2.
  assert (G : 0 <= (INR dim + 2) * powerRZ 2 (-22) <= / 3).
  { pose proof (dim_ulp dim Hd). pose proof (pos_INR dim). pose proof ulp_val as [? ?]. assert (W : powerRZ 2 (-22) = 4 * ulp) by (unfold ulp; change (-22)%Z with (2 + -24)%Z; rewrite powerRZ_add by lra; rewrite ?p2_2, ?p2_3; reflexivity). rewrite W. split; [apply Rmult_le_pos; lra|lra]. }
  set (g := (INR dim + 2) * powerRZ 2 (-22)) in *. set (X := distance dim cc m) in *. set (Y := distance dim (coord k (nth q rows [])) m) in *.
  assert (Z1 : (1 + g) * distance dim cc (fun j => at_ data j q) <= (1 + g) * (X + Y)) by (apply Rmult_le_compat_l; lra).
  assert (Z2 : (2 + g) * X <= 3 * X) by (apply Rmult_le_compat_r; lra).
  assert (T2 : 3 * powerRZ 2 (-140) + powerRZ 2 (-62) <= powerRZ 2 (-60)).
  { assert (W2 : powerRZ 2 (-60) = 4 * powerRZ 2 (-62)) by (change (-60)%Z with (2 + -62)%Z; rewrite powerRZ_add by lra; rewrite ?p2_2, ?p2_3; reflexivity).
    assert (powerRZ 2 (-140) <= powerRZ 2 (-62)) by (change 2 with (IZR radix2); rewrite <- !bpow_powerRZ; apply bpow_le; lia). pose proof (powerRZ_lt 2 (-62) ltac:(lra)). lra. }
  lra.
Qed.

Lemma entry_floats : forall c ts fs k dim rows, (1 <= length rows)%nat -> (Z.of_nat (length rows) < 2 ^ 22)%Z -> (Z.of_nat dim <= 2 ^ 20)%Z -> rows_ok k dim (powerRZ 2 50) rows ->
  (forall j, (j < dim)%nat -> Permutation (red_items (ts j)) (seq 0 (length rows))) -> (forall i, (i < length rows)%nat -> Permutation (fred_items (fs i)) (seq 0 dim)) ->
  exists p, medoid_of_data c ts fs k dim rows = Ok p /\ (p < length rows)%nat /\ forall q, (q < length rows)%nat ->
    distance dim (coord k (nth p rows [])) (fun j => mean (column k rows j)) <=
    (1 + (INR dim + 2) * powerRZ 2 (-22)) * distance dim (coord k (nth q rows [])) (fun j => mean (column k rows j)) +
    3 * ((INR (length rows) + 3) * powerRZ 2 (-23)) * norm dim (fun j => mean_abs (column k rows j)) + powerRZ 2 (-60).
Proof.
  intros c ts fs k dim rows L1 L2 Hd Hr Pt Pf. destruct (eps_lin (length rows) L2) as [e1 e2]. assert (Ld : length (map (map (kval k)) rows) = length rows) by apply map_length.
  apply entry_near; auto.
  - split; [apply Rmult_le_pos; [pose proof (pos_INR (length rows)); lra|apply powerRZ_le; lra]|lra].
  - intros. apply mean_abs_pos.
  - intros. apply Rle_refl.
  - intros j Hj. destruct (coord_error c (ts j) (map (map (kval k)) rows) j) as [x [E1 [E2 [E3 E5]]]]; rewrite ?Ld; auto.
    { intros row Hrow. destruct (rows_good k dim _ rows Hr row Hrow) as [-> [G _]]. auto. }
    { rewrite (rcol_column k dim _ rows j Hr Hj). eapply column_sum_le; eauto. }
    exists x. repeat split; auto. rewrite (rcol_column k dim _ rows j Hr Hj), Ld in E5. eapply Rle_trans; [exact E5|]. apply Rplus_le_compat_r, Rmult_le_compat_r; [apply mean_abs_pos|exact e1].
Qed.

(** Bytes are integers. *)
Lemma byte_int : forall k e, k <> KFloat -> exists z, elem_real k e = IZR z.
Proof. intros [] e H; [congruence|eexists; reflexivity|eexists; reflexivity]. Qed.
Lemma byte_small : forall k e, k <> KFloat -> elem_ok k e -> Rabs (elem_real k e) <= powerRZ 2 50.
Proof.
  intros k e Hk O. assert (B : exists z, elem_real k e = IZR z /\ (Z.abs z <= 2 ^ 50)%Z).
  { destruct k; [congruence| |]; cbn [elem_ok elem_real] in *; (eexists; split; [reflexivity|]); [destruct (e <? 128)%N|]; lia. }
  destruct B as [z [-> B]]. rewrite <- abs_IZR. change 2 with (IZR radix2). rewrite <- bpow_powerRZ, <- pow_Z by lia. apply IZR_le, B.
Qed.

Lemma coord_bytes : forall c t k dim rows j, k <> KFloat -> (1 <= length rows)%nat -> (Z.of_nat (length rows) < 2 ^ 63)%Z -> rows_ok k dim (powerRZ 2 50) rows -> (j < dim)%nat ->
  Permutation (red_items t) (seq 0 (length rows)) -> real_sum (map Rabs (column k rows j)) <= IZR (2 ^ 24) ->
  exists x, centre_coord c t (map (map (kval k)) rows) j = Ok x /\ finite x /\ f32_valid x = true /\ Rabs (real x - mean (column k rows j)) <= powerRZ 2 (-21) * Rabs (mean (column k rows j)) + tiny.
Proof.
  intros c t k dim rows j Hk L1 L2 Hr Hj P B. assert (Ld : length (map (map (kval k)) rows) = length rows) by apply map_length.
  assert (Z : exists z, forall e, elem_real k e = IZR (z e)).
  { destruct k; [congruence|exists (fun e => if (e <? 128)%N then Z.of_N e else Z.of_N e - 256)%Z; reflexivity|exists Z.of_N; reflexivity]. } destruct Z as [z Hz].
  destruct (coord_error_int c t (map (map (kval k)) rows) j (fun i => z (nth j (nth i rows []) 0%N))) as [x [E1 [E2 [E3 E5]]]]; rewrite ?Ld; auto.
  { intros row Hrow. destruct (rows_good k dim _ rows Hr row Hrow) as [-> [G _]]. auto. }
  { intros i Hi. rewrite (at_coord k dim _ rows i j Hr Hj Hi). apply Hz. }
  { rewrite (rcol_column k dim _ rows j Hr Hj). exact B. }
  exists x. repeat split; auto. rewrite (rcol_column k dim _ rows j Hr Hj) in E5. eapply Rle_trans; [exact E5|]. apply Rplus_le_compat_r, Rmult_le_compat_r; [apply Rabs_pos|exact E4].
Qed.

Lemma entry_bytes : forall c ts fs k dim rows, k <> KFloat -> (1 <= length rows)%nat -> (Z.of_nat (length rows) < 2 ^ 63)%Z -> (Z.of_nat dim <= 2 ^ 20)%Z ->
  (forall row, In row rows -> length row = dim /\ forall e, In e row -> elem_ok k e) -> (forall j, (j < dim)%nat -> real_sum (map Rabs (column k rows j)) <= powerRZ 2 24) ->
  (forall j, (j < dim)%nat -> Permutation (red_items (ts j)) (seq 0 (length rows))) -> (forall i, (i < length rows)%nat -> Permutation (fred_items (fs i)) (seq 0 dim)) ->
  exists p, medoid_of_data c ts fs k dim rows = Ok p /\ (p < length rows)%nat /\ forall q, (q < length rows)%nat ->
    distance dim (coord k (nth p rows [])) (fun j => mean (column k rows j)) <=
    (1 + (INR dim + 2) * powerRZ 2 (-22)) * distance dim (coord k (nth q rows [])) (fun j => mean (column k rows j)) +
    3 * powerRZ 2 (-21) * norm dim (fun j => mean (column k rows j)) + powerRZ 2 (-60).
Proof.
  intros c ts fs k dim rows Hk L1 L2 Hd Hr Hs Pt Pf.
  assert (Hr' : rows_ok k dim (powerRZ 2 50) rows) by (intros row Hrow; destruct (Hr row Hrow) as [A B]; split; [exact A|]; intros e He; split; [auto|apply byte_small; auto]).
  assert (W : powerRZ 2 (-21) = 8 * ulp) by (unfold ulp; change (-21)%Z with (3 + -24)%Z; rewrite powerRZ_add by lra; rewrite ?p2_2, ?p2_3; reflexivity). pose proof ulp_val as [U1 U2].
  assert (Nm : norm dim (fun j => mean (column k rows j)) = norm dim (fun j => Rabs (mean (column k rows j)))).
  { unfold norm. rewrite !distance_sqs. f_equal. unfold sqs. f_equal. apply map_ext. intros j. rewrite !Rminus_0_r, pow2_abs. reflexivity. }
  rewrite Nm. apply (entry_near (powerRZ 2 (-21)) (fun j => Rabs (mean (column k rows j)))); auto.
  - rewrite W. lra.
  - intros. apply Rabs_pos.
  - intros. apply mean_abs_ge.
  - intros j Hj. apply (coord_bytes c (ts j) k dim rows j); auto. change (2 ^ 24)%Z with 16777216%Z. replace (IZR 16777216) with (powerRZ 2 24) by (change 2 with (IZR radix2); rewrite <- bpow_powerRZ; reflexivity). auto.
  - rewrite W. lra.
Qed.

(** Coordinates of the centroid, and the point nearest to it. *)
From Coq Require Import NArith ZArith Reals Lra Lia List Arith Bool Permutation Floats.SpecFloat.
From Flocq Require Import Core.
From Verif Require Import Base Float32 DivFacts DistSpec DistModel FusedModel RealSpec FloatReal L2ErrorProofs RealDistProofs NormProofs NormProofs2 StatsProofs4 LshParProofs PqModel PqProofs2 NormModel NormSpec EntryModel EntrySpec EntryProofs MeanModel MeanSpec MeanProofs.
Import ListNotations.
Local Open Scope R_scope.

Definition at_ (data : list (list f32)) (j i : nat) : R := real (nth j (nth i data []) f32_zero).
Definition rcol (data : list (list f32)) (j : nat) : list R := map (fun row => real (nth j row f32_zero)) data.
Lemma at_sum : forall data j (g : R -> R), isum (fun i => g (at_ data j i)) (seq 0 (length data)) = real_sum (map g (rcol data j)).
Proof. intros data j g. unfold isum, rcol, at_. rewrite map_map. f_equal. apply (LshParProofs.map_nth_seq _ _ (fun row => g (real (nth j row f32_zero)))). Qed.
Lemma at_item : forall data j i, (forall row, In row data -> (j < length row)%nat /\ good row) -> (i < length data)%nat ->
  exists x, (do row <- rd data i; rd row j) = Ok x /\ finite x /\ f32_valid x = true /\ real x = at_ data j i.
Proof.
  intros data j i H Hi. destruct (rd_lt _ data i Hi) as [row Er]. rewrite Er. cbn [bind]. apply rd_ok in Er. destruct (H row (nth_error_In _ _ Er)) as [Hj G].
  destruct (rd_lt _ row j Hj) as [x Ex]. exists x. split; [exact Ex|]. apply rd_ok in Ex. destruct (G x (nth_error_In _ _ Ex)) as [F V]. repeat split; auto.
  unfold at_. rewrite (nth_error_nth _ _ _ Er), (nth_error_nth _ _ _ Ex). reflexivity.
Qed.
Lemma real_sum_abs : forall l, Rabs (real_sum l) <= real_sum (map Rabs l).
Proof. induction l as [|x l IH]; cbn [real_sum fold_right map]; [rewrite Rabs_R0; lra|]. eapply Rle_trans; [apply Rabs_triang|]. unfold real_sum in IH. lra. Qed.
Lemma real_sum_pos : forall l, (forall x, In x l -> 0 <= x) -> 0 <= real_sum l.
Proof. induction l as [|x l IH]; intros H; cbn [real_sum fold_right]; [lra|]. pose proof (H x (or_introl eq_refl)). pose proof (IH (fun y Q => H y (or_intror Q))). unfold real_sum in *. lra. Qed.
Lemma real_sum_abs_pos : forall l, 0 <= real_sum (map Rabs l).
Proof. intros l. pose proof (real_sum_abs l). pose proof (Rabs_pos (real_sum l)). lra. Qed.
Lemma mean_abs_ge : forall l, Rabs (mean l) <= mean_abs l.
Proof.
  intros l. unfold mean_abs, mean. rewrite map_length. unfold Rdiv. rewrite Rabs_mult. apply Rle_trans with (real_sum (map Rabs l) * Rabs (/ INR (length l))); [apply Rmult_le_compat_r; [apply Rabs_pos|apply real_sum_abs]|].
  destruct l as [|x l]; [cbn; rewrite !Rmult_0_l; lra|]. rewrite (Rabs_pos_eq (/ _)); [lra|]. apply Rlt_le, Rinv_0_lt_compat. cbn [length]. apply lt_0_INR. lia.
Qed.
Lemma mean_abs_pos : forall l, 0 <= mean_abs l.
Proof. intros l. pose proof (mean_abs_ge l). pose proof (Rabs_pos (mean l)). lra. Qed.

Lemma coord_error : forall c t data j, (1 <= length data)%nat -> (Z.of_nat (length data) < 2 ^ 22)%Z -> Permutation (red_items t) (seq 0 (length data)) ->
  (forall row, In row data -> (j < length row)%nat /\ good row) -> real_sum (map Rabs (rcol data j)) <= bpow radix2 125 ->
  exists x, centre_coord c t data j = Ok x /\ finite x /\ f32_valid x = true /\ Rabs (real x - mean (rcol data j)) <= (E (length data + 3) - 1) * mean_abs (rcol data j) + tiny.
Proof.
  intros c t data j L1 L2 P H B. set (n := length data) in *. unfold centre_coord. fold n.
  assert (Li : length (red_items t) = n) by (rewrite (Permutation_length P), seq_length; reflexivity).
  assert (Si : isum (at_ data j) (red_items t) = real_sum (rcol data j)) by (rewrite (isum_perm _ _ _ P); pose proof (at_sum data j (fun x => x)) as Q; rewrite map_id in Q; exact Q).
  assert (Sa : isum (fun i => Rabs (at_ data j i)) (red_items t) = real_sum (map Rabs (rcol data j))) by (rewrite (isum_perm _ _ _ P); apply at_sum).
  set (S := real_sum (rcol data j)) in *. set (M := real_sum (map Rabs (rcol data j))) in *. assert (PM : 0 <= M) by apply real_sum_abs_pos.
  assert (U : INR n * ulp <= bpow radix2 (22 - 24)) by (apply INR_ulp; lia). change (bpow radix2 (22 - 24)) with (/ 4) in U. pose proof ulp_val as [U1 U2].
  assert (En : E n <= 2). { pose proof (E_lin n ltac:(lra)). pose proof (pos_INR n). lra. } pose proof (E_ge n) as En1.
  destruct (sum_tree (fun i => do row <- rd data i; rd row j) (at_ data j) t) as [s [Es [Fs [Vs Bs]]]].
  { intros i Hi. apply at_item; auto. apply (Permutation_in _ P) in Hi. apply in_seq in Hi. fold n. lia. }
  { rewrite Li, Sa. apply Rle_trans with (2 * bpow radix2 125); [apply Rmult_le_compat; lra|]. change 2 with (bpow radix2 1). rewrite <- bpow_plus. apply bpow_le. lia. }
  rewrite Li, Si, Sa in Bs. rewrite Es. cbn [bind]. pose proof (E_mono (n - 1) n ltac:(lia)) as Em. pose proof (E_ge (n - 1)) as Em1.
  pose proof (real_sum_abs (rcol data j)) as A0. fold S M in A0.
  assert (As : Rabs (real s) <= bpow radix2 126).
  { replace (real s) with (real s - S + S) by ring. eapply Rle_trans; [apply Rabs_triang|]. change (bpow radix2 126) with (bpow radix2 (125 + 1)). rewrite bpow_plus. change (bpow radix2 1) with 2.
    assert ((E (n - 1) - 1) * M <= 1 * M) by (apply Rmult_le_compat_r; lra). lra. }
  destruct (div_by_ok c s (Z.of_nat n) Vs Fs As ltac:(lia)) as [Fq [Vq [F [e [HF [He Eq]]]]]]. eexists. split; [reflexivity|]. split; [exact Fq|]. split; [exact Vq|].
  rewrite Eq, <- INR_IZR_INZ. assert (Pn : 1 <= INR n) by (change 1 with (INR 1); apply le_INR; lia).
  unfold mean_abs, mean. rewrite map_length. assert (Lc : length (rcol data j) = n) by apply map_length. rewrite Lc. fold S M.
  replace (real s / INR n * F + e - S / INR n) with (((real s - S) * F + S * (F - 1)) / INR n + e) by (field; lra).
  eapply Rle_trans; [apply Rabs_triang|]. apply Rplus_le_compat; [|exact He]. unfold Rdiv. rewrite Rabs_mult, (Rabs_pos_eq (/ INR n)) by (apply Rlt_le, Rinv_0_lt_compat; lra).
  rewrite <- Rmult_assoc. apply Rmult_le_compat_r; [apply Rlt_le, Rinv_0_lt_compat; lra|].
  eapply Rle_trans; [apply Rabs_triang|]. rewrite !Rabs_mult. replace (n + 3)%nat with ((n - 1) + 4)%nat by lia. rewrite pow_add.
  assert (AF : Rabs F <= E 4). { replace F with (F - 1 + 1) by ring. eapply Rle_trans; [apply Rabs_triang|]. rewrite Rabs_R1. lra. }
  assert (Q1 : Rabs (real s - S) * Rabs F <= ((E (n - 1) - 1) * M) * E 4) by (apply Rmult_le_compat; auto using Rabs_pos).
  assert (Q2 : Rabs S * Rabs (F - 1) <= M * (E 4 - 1)) by (apply Rmult_le_compat; auto using Rabs_pos). lra.
Qed.

(** Integers whose magnitudes add up to at most 2^24. *)
Lemma isumZ_real : forall (z : nat -> Z) l, IZR (isumZ z l) = isum (fun i => IZR (z i)) l.
Proof. intros z l. unfold isumZ, isum, real_sum. induction l as [|i l IH]; cbn [map fold_right]; [reflexivity|]. rewrite plus_IZR, IH. reflexivity. Qed.

Lemma coord_error_int : forall c t data j (z : nat -> Z), (1 <= length data)%nat -> (Z.of_nat (length data) < 2 ^ 63)%Z -> Permutation (red_items t) (seq 0 (length data)) ->
  (forall row, In row data -> (j < length row)%nat /\ good row) -> (forall i, (i < length data)%nat -> at_ data j i = IZR (z i)) -> real_sum (map Rabs (rcol data j)) <= IZR (2 ^ 24) ->
  exists x, centre_coord c t data j = Ok x /\ finite x /\ f32_valid x = true /\ Rabs (real x - mean (rcol data j)) <= (E 4 - 1) * Rabs (mean (rcol data j)) + tiny.
Proof.
  intros c t data j z L1 L2 P H Hz B. set (n := length data) in *. unfold centre_coord. fold n.
  assert (In_n : forall i, In i (red_items t) -> (i < n)%nat) by (intros i Hi; apply (Permutation_in _ P) in Hi; apply in_seq in Hi; lia).
  assert (ext : forall (f g : nat -> R) l, (forall i, In i l -> f i = g i) -> isum f l = isum g l) by (intros f g l Q; unfold isum; f_equal; apply map_ext_in, Q).
  destruct (sum_tree_exact (fun i => do row <- rd data i; rd row j) z t) as [s [Es [Fs [Vs Rs]]]].
  { intros i Hi. destruct (at_item data j i H (In_n i Hi)) as [x [E1 [E2 [E3 E4]]]]. exists x. rewrite E4, Hz by auto. auto. }
  { apply le_IZR. rewrite isumZ_real, (ext _ (fun i => Rabs (at_ data j i))); [rewrite (isum_perm _ _ _ P); unfold n; rewrite (at_sum data j Rabs); exact B|]. intros i Hi. rewrite Hz by auto. apply abs_IZR. }
  rewrite Es. cbn [bind]. assert (Rs' : real s = real_sum (rcol data j)).
  { rewrite Rs, isumZ_real, (ext _ (at_ data j)) by (intros i Hi; symmetry; auto). rewrite (isum_perm _ _ _ P). pose proof (at_sum data j (fun x => x)) as Q. rewrite map_id in Q. exact Q. }
  assert (As : Rabs (real s) <= bpow radix2 126).
  { rewrite Rs'. eapply Rle_trans; [apply real_sum_abs|]. apply Rle_trans with (1 := B). rewrite pow_Z by lia. apply bpow_le. lia. }
  destruct (div_by_ok c s (Z.of_nat n) Vs Fs As ltac:(lia)) as [Fq [Vq [F [e [HF [He Eq]]]]]]. eexists. split; [reflexivity|]. split; [exact Fq|]. split; [exact Vq|].
  rewrite Eq, <- INR_IZR_INZ. unfold mean. assert (Lc : length (rcol data j) = n) by apply map_length. rewrite Lc, <- Rs'. set (q := real s / INR n).
  replace (q * F + e - q) with ((F - 1) * q + e) by ring. eapply Rle_trans; [apply Rabs_triang|]. apply Rplus_le_compat; [|exact He]. rewrite Rabs_mult. apply Rmult_le_compat_r; [apply Rabs_pos|exact HF].
Qed.

(** ** The triangle inequality *)
Lemma plane : forall a b c d, 0 <= a -> 0 <= b -> 0 <= c -> 0 <= d -> sqrt ((a + b) ^ 2 + (c + d) ^ 2) <= sqrt (a ^ 2 + c ^ 2) + sqrt (b ^ 2 + d ^ 2).
Proof.
  intros a b c d Ha Hb Hc Hd. set (p := sqrt (a ^ 2 + c ^ 2)). set (q := sqrt (b ^ 2 + d ^ 2)).
  assert (P1 : 0 <= a ^ 2 + c ^ 2) by (cbn; nra). assert (P2 : 0 <= b ^ 2 + d ^ 2) by (cbn; nra).
  assert (Pp : 0 <= p) by apply sqrt_pos. assert (Pq : 0 <= q) by apply sqrt_pos. assert (Ep : p * p = a ^ 2 + c ^ 2) by (apply sqrt_sqrt, P1). assert (Eq : q * q = b ^ 2 + d ^ 2) by (apply sqrt_sqrt, P2).
  assert (C : a * b + c * d <= p * q). { apply Rsqr_incr_0_var; [|nra]. unfold Rsqr. replace (p * q * (p * q)) with ((p * p) * (q * q)) by ring. rewrite Ep, Eq. pose proof (Rle_0_sqr (a * d - b * c)) as S. unfold Rsqr in S. cbn. lra. }
  rewrite <- (sqrt_square (p + q)) by lra. apply sqrt_le_1_alt. cbn in *. lra.
Qed.

Definition sqs (d : nat) (f : nat -> R) : R := real_sum (map (fun j => f j ^ 2) (seq 0 d)).
Lemma sqs_S : forall d f, sqs (S d) f = sqs d f + f d ^ 2.
Proof. intros d f. unfold sqs. rewrite seq_S, map_app, real_sum_app. cbn. ring. Qed.
Lemma sqs_pos : forall d f, 0 <= sqs d f.
Proof. intros d f. apply real_sum_pos. intros x Hx. apply in_map_iff in Hx. destruct Hx as [j [<- _]]. apply sq_nonneg. Qed.
Lemma sqs_mono : forall d f g, (forall j, (j < d)%nat -> Rabs (f j) <= Rabs (g j)) -> sqs d f <= sqs d g.
Proof.
  induction d as [|d IH]; intros f g H; [apply Rle_refl|]. rewrite !sqs_S. apply Rplus_le_compat; [apply IH; auto|]. rewrite <- (pow2_abs (f d)), <- (pow2_abs (g d)). pose proof (H d ltac:(lia)). pose proof (Rabs_pos (f d)). cbn. nra.
Qed.
Lemma minkowski : forall d f g, sqrt (sqs d (fun j => f j + g j)) <= sqrt (sqs d f) + sqrt (sqs d g).
Proof.
  induction d as [|d IH]; intros f g; [unfold sqs; cbn; rewrite sqrt_0; lra|]. rewrite !sqs_S.
  pose proof (sqs_pos d f) as Pf. pose proof (sqs_pos d g) as Pg. pose proof (sqs_pos d (fun j => f j + g j)) as Pfg.
  set (a := sqrt (sqs d f)) in *. set (b := sqrt (sqs d g)) in *. assert (Pa : 0 <= a) by apply sqrt_pos. assert (Pb : 0 <= b) by apply sqrt_pos.
  assert (Ea : sqs d f = a ^ 2) by (unfold a; rewrite <- (sqrt_sqrt _ Pf) at 1; cbn; ring). assert (Eb : sqs d g = b ^ 2) by (unfold b; rewrite <- (sqrt_sqrt _ Pg) at 1; cbn; ring).
  apply Rle_trans with (sqrt ((a + b) ^ 2 + (Rabs (f d) + Rabs (g d)) ^ 2)).
  - apply sqrt_le_1_alt. apply Rplus_le_compat.
    + specialize (IH f g). fold a b in IH. rewrite <- (sqrt_sqrt _ Pfg). pose proof (sqrt_pos (sqs d (fun j => f j + g j))). cbn. nra.
    + rewrite <- (pow2_abs (f d + g d)). pose proof (Rabs_triang (f d) (g d)). pose proof (Rabs_pos (f d + g d)). cbn. nra.
  - eapply Rle_trans; [apply plane; auto using Rabs_pos|]. rewrite !pow2_abs, Ea, Eb. lra.
Qed.
Lemma distance_sqs : forall d x y, distance d x y = sqrt (sqs d (fun j => x j - y j)).
Proof. reflexivity. Qed.
Lemma distance_triangle : forall d x y z, distance d x z <= distance d x y + distance d y z.
Proof.
  intros d x y z. rewrite !distance_sqs. eapply Rle_trans; [|apply minkowski]. right. unfold sqs. do 2 f_equal. apply map_ext. intros j. cbn. ring.
Qed.
Lemma distance_sym : forall d x y, distance d x y = distance d y x.
Proof. intros d x y. unfold distance. do 2 f_equal. apply map_ext. intros j. cbn. ring. Qed.
Lemma distance_pos : forall d x y, 0 <= distance d x y.
Proof. intros. apply sqrt_pos. Qed.
Lemma distance_sq : forall d x y, distance d x y * distance d x y = sqs d (fun j => x j - y j).
Proof. intros. apply sqrt_sqrt, sqs_pos. Qed.
Lemma norm_scale : forall d c f, 0 <= c -> sqrt (sqs d (fun j => c * f j)) = c * sqrt (sqs d f).
Proof.
  intros d c f Hc. assert (Q : sqs d (fun j => c * f j) = (c * c) * sqs d f).
  { induction d as [|d IH]; [unfold sqs; cbn; ring|]. rewrite !sqs_S, IH. cbn. ring. }
  rewrite Q, sqrt_mult_alt by nra. rewrite sqrt_square by exact Hc. reflexivity.
Qed.
Lemma sqs_const : forall d c, sqs d (fun _ => c) = INR d * c ^ 2.
Proof. induction d as [|d IH]; intros c; [unfold sqs; cbn; ring|]. rewrite sqs_S, IH, S_INR. ring. Qed.

(** * Lemmas for C123: Euclidean distances, and lists pruned from all points. *)
From Coq Require Import ZArith Reals Lra String List Arith Lia Bool Sorting.Permutation Floats.SpecFloat.
From Flocq Require Import Core.
From Verif Require Import Base Float32 PoolModel SortSpec GraphSpec SearchSpec SearchModel FilterSpec DivFacts DistSpec FusedModel DistModel RealSpec FloatReal L2ErrorProofs RealDistProofs NormProofs MeanSpec MeanProofs2 MeanProofs3
  PruneModel PruneSpec PruneProofs RngProofs UnitsSpec ApproxSpec ApproxProofs.
Import ListNotations.
Local Open Scope R_scope.

Lemma exact_l2_nonneg : forall a b, length a = length b -> 0 <= exact_l2 a b.
Proof. intros a b H. rewrite sqs_isum by exact H. apply sqs_pos. Qed.

Lemma l2_dist_distance : forall d a b, length a = d -> length b = d -> l2_dist a b = distance d (fun j => real (nth j a f32_zero)) (fun j => real (nth j b f32_zero)).
Proof. intros d a b Ha Hb. unfold l2_dist. rewrite sqs_isum by congruence. rewrite Ha. reflexivity. Qed.

Lemma l2_metric : forall dim n data q, length q = dim -> (forall x, (x < n)%nat -> length (nth x data []) = dim) ->
  metric n (fun x y => l2_dist (nth x data []) (nth y data [])) (fun x => l2_dist (nth x data []) q).
Proof.
  intros dim n data q Hq Hd x y Hx Hy. rewrite !(l2_dist_distance dim) by auto. split; [apply distance_pos|]. split; [apply distance_pos|].
  split; [apply distance_triangle|].
  rewrite (distance_sym dim (fun j => real (nth j (nth y data []) f32_zero)) (fun j => real (nth j q f32_zero))). apply distance_triangle.
Qed.

(** Rounding. *)
Lemma root_ratio : forall e x y, 0 <= e <= / 4 -> 0 <= x -> 0 <= y -> x * (1 - e) <= y * (1 + e) -> sqrt x <= (1 + 2 * e) * sqrt y.
Proof.
  intros e x y He Hx Hy H. pose proof (root_step e 0 (sqrt x) (sqrt y) He (Rle_refl 0) (sqrt_pos x) (sqrt_pos y)) as S.
  rewrite !sqrt_sqrt in S by assumption. specialize (S ltac:(lra)). lra.
Qed.

Lemma eps_small : forall dim, (Z.of_nat dim <= 2 ^ 18)%Z -> 0 <= (INR dim + 3) * powerRZ 2 (-23) <= / 16 /\ INR dim * powerRZ 2 (-149) <= powerRZ 2 (-123) * powerRZ 2 (-8).
Proof.
  intros dim H. assert (B : 0 <= INR dim <= IZR (2 ^ 18)) by (split; [apply pos_INR|]; rewrite INR_IZR_INZ; apply IZR_le; exact H).
  change (2 ^ 18)%Z with 262144%Z in B.
  replace (powerRZ 2 (-149)) with (powerRZ 2 (-123) * powerRZ 2 (-26)) by (rewrite <- powerRZ_add by lra; f_equal).
  assert (P : 0 <= powerRZ 2 (-123)) by (apply powerRZ_le; lra).
  assert (E1 : powerRZ 2 (-23) = / 8388608) by (transitivity (bpow radix2 (-23)); [rewrite bpow_powerRZ; reflexivity|reflexivity]). assert (E2 : powerRZ 2 (-26) = / 67108864) by (transitivity (bpow radix2 (-26)); [rewrite bpow_powerRZ; reflexivity|reflexivity]). assert (E3 : powerRZ 2 (-8) = / 256) by (transitivity (bpow radix2 (-8)); [rewrite bpow_powerRZ; reflexivity|reflexivity]).
  rewrite E1, E2, E3. split; [split; nra|]. replace (INR dim * (powerRZ 2 (-123) * / 67108864)) with (powerRZ 2 (-123) * (INR dim * / 67108864)) by ring.
  apply Rmult_le_compat_l; [exact P|]. lra.
Qed.

Lemma l2_ordered : forall t dim f data q, Permutation (red_items t) (seq 0 dim) -> contracts t f -> clear_vectors dim f data q ->
  ordered_within (rounding dim) (length data) (fun x => l2_dist (nth x data []) q) (from f data q).
Proof.
  intros t dim f data q Ht Hc [Hdim [Hv Hd]] x y Hx Hy Hle. set (X := nth x data []) in *. set (Y := nth y data []) in *.
  assert (IX : In X data) by (apply nth_In, Hx). assert (IY : In Y data) by (apply nth_In, Hy).
  destruct (Hv q (or_introl eq_refl)) as [Lq Gq]. destruct (Hv X (or_intror IX)) as [LX GX]. destruct (Hv Y (or_intror IY)) as [LY GY].
  destruct (Hd X IX) as [[rx [Ex Fx]] CX]. destruct (Hd Y IY) as [[ry [Ey Fy]] CY].
  unfold from, l2_of in Hle. fold X Y in Hle. rewrite Ex, Ey in Hle.
  pose proof (fle_real rx ry (l2_valid f X q rx GX Gq Ex Fx) (l2_valid f Y q ry GY Gq Ey Fy) Fx Fy Hle) as LE.
  change (2 ^ 18)%Z with 262144%Z in Hdim.
  assert (D23 : forall l : list f32, length l = dim -> (Z.of_nat (length l) < 2 ^ 23)%Z) by (intros l ->; change (2 ^ 23)%Z with 8388608%Z; lia).
  assert (BX := l2_error_simple t f X q rx (D23 X LX) ltac:(rewrite LX; exact Ht) Hc (eq_trans LX (eq_sym Lq)) GX Gq Ex Fx).
  assert (BY := l2_error_simple t f Y q ry (D23 Y LY) ltac:(rewrite LY; exact Ht) Hc (eq_trans LY (eq_sym Lq)) GY Gq Ey Fy).
  rewrite LX in BX. rewrite LY in BY. apply Rabs_le_inv in BX. apply Rabs_le_inv in BY.
  pose proof (exact_l2_nonneg X q (eq_trans LX (eq_sym Lq))) as PX. pose proof (exact_l2_nonneg Y q (eq_trans LY (eq_sym Lq))) as PY.
  destruct (eps_small dim Hdim) as [Se St]. unfold l2_dist, rounding. set (e := (INR dim + 3) * powerRZ 2 (-23)) in *.
  apply root_ratio; auto; [lra|].
  set (h := INR dim * powerRZ 2 (-149)) in *. set (u := powerRZ 2 (-23)) in *. replace ((INR dim + 2) * u) with (e - u) in BX, BY by (unfold e; ring).
  assert (Pu : 0 <= u) by (apply powerRZ_le; lra).
  assert (Hh : h <= u * powerRZ 2 (-100) / 2).
  { eapply Rle_trans; [exact St|]. replace (powerRZ 2 (-123)) with (u * powerRZ 2 (-100)) by (unfold u; rewrite <- powerRZ_add by lra; f_equal).
    assert (powerRZ 2 (-8) <= / 2) by (replace (powerRZ 2 (-8)) with (/ 256) by (symmetry; transitivity (bpow radix2 (-8)); [rewrite bpow_powerRZ; reflexivity|reflexivity]); lra). assert (0 <= u * powerRZ 2 (-100)) by (apply Rmult_le_pos; [exact Pu|apply powerRZ_le; lra]). nra. }
  assert (P100 : 0 < powerRZ 2 (-100)) by (apply powerRZ_lt; lra). set (m := powerRZ 2 (-100)) in *.
  assert (Pu' : 0 < u) by (apply powerRZ_lt; lra). assert (Hm : h <= m / 4) by (assert (u <= / 2) by (replace u with (/ 8388608) by (symmetry; transitivity (bpow radix2 (-23)); [unfold u; rewrite bpow_powerRZ; reflexivity|reflexivity]); lra); nra).
  destruct CX as [CX|CX].
  - rewrite CX. nra.
  - destruct CY as [CY|CY].
    + exfalso. rewrite CY in BY. assert (u <= e) by (unfold e; pose proof (pos_INR dim); nra). nra.
    + nra.
Qed.

Lemma rounding_ge : forall dim, 1 <= rounding dim.
Proof. intros dim. unfold rounding. pose proof (pos_INR dim). assert (0 <= powerRZ 2 (-23)) by (apply powerRZ_le; lra). nra. Qed.

Lemma vamana_l2_near : forall sortf ix L k indices distances t dim f data q alpha,
  sorts sortf -> index_ok ix -> (1 <= L)%nat -> length data = ix_n ix ->
  Permutation (red_items t) (seq 0 dim) -> contracts t f -> clear_vectors dim f data q -> (forall id, is_nan (from f data q id) = false) ->
  (k <= L)%nat -> (k <= length indices)%nat -> (k <= length distances)%nat ->
  shortcuts (fun _ => true) (ix_n ix) (fun x y => l2_dist (nth x data []) (nth y data [])) alpha (ix_graph ix) -> rounding dim < alpha ->
  exists ids indices' distances',
    vamana_search sortf ix (from f data q) L k [] indices distances = Ok (indices', distances', length ids) /\
    reports (ix_n ix) (ix_tags ix) (from f data q) indices' distances' ids /\
    near_best (fun _ => true) (ix_n ix) (fun x => l2_dist (nth x data []) q) (guarantee (rounding dim) alpha) k ids.
Proof.
  intros sortf ix L k ind dst t dim f data q alpha Hs Hix HL Hdl Ht Hc Hcl Hnan Hk Hi Hd Hsc Ha.
  apply (vamana_near_plain sortf ix (from f data q) L k ind dst (fun x y => l2_dist (nth x data []) (nth y data [])) (fun x => l2_dist (nth x data []) q) alpha (rounding dim)); auto.
  - apply (l2_metric dim); [apply Hcl; left; reflexivity|]. intros x Hx. apply Hcl. right. apply nth_In. lia.
  - rewrite <- Hdl. apply (l2_ordered t); auto.
  - apply rounding_ge.
Qed.

Lemma exact_l2_ints : forall a q z zq, holds_ints a z -> holds_ints q zq -> length a = length q -> exact_l2 a q = IZR (sq_dist z zq).
Proof.
  intros a q z zq Z2. revert q zq. induction Z2 as [|u k a z Hu Ha IH]; intros q zq Iq LL.
  - destruct Iq; [reflexivity|cbn in LL; lia].
  - destruct Iq as [|w kw q zq Hw Iq]; [cbn in LL; lia|]. cbn in LL. specialize (IH q zq Iq ltac:(lia)).
    change (exact_l2 (u :: a) (w :: q)) with ((real u - real w) ^ 2 + exact_l2 a q). change (sq_dist (k :: z) (kw :: zq)) with ((k - kw) * (k - kw) + sq_dist z zq)%Z.
    rewrite IH, plus_IZR, mult_IZR, minus_IZR.
    assert (real u = IZR k) as -> by (destruct u; auto; contradiction). assert (real w = IZR kw) as -> by (destruct w; auto; contradiction). ring.
Qed.

(** Integer coordinates: no rounding at all. *)
Lemma l2_ordered_ints : forall t dim f (data : list (list f32)) (q : list f32) zs zq, Permutation (red_items t) (seq 0 dim) -> contracts t f -> length q = dim -> holds_ints q zq ->
  (forall x, In x q -> valid_binary 24 128 x = true) -> Forall2 holds_ints data zs -> (forall v, In v data -> length v = dim /\ forall x, In x v -> valid_binary 24 128 x = true) ->
  (forall z, In z zs -> sq_dist z zq <= 2 ^ 24)%Z ->
  ordered_within 1 (length data) (fun x => l2_dist (nth x data []) q) (from f data q).
Proof.
  intros t dim f data q zs zq Ht Hc Lq Iq Vq Iz Hv Hb.
  assert (X : forall x, (x < length data)%nat -> exists r z, l2_fused f (nth x data []) q = Ok r /\ finite r /\ f32_valid r = true /\ real r = IZR z /\ exact_l2 (nth x data []) q = IZR z).
  { intros x Hx. assert (Q : exists z, nth_error zs x = Some z /\ holds_ints (nth x data []) z).
    { clear - Iz Hx. revert x Hx. induction Iz as [|v z data zs H F IH]; intros x Hx; [cbn in Hx; lia|]. destruct x as [|x]; [exists z; auto|]. cbn in *. apply IH. lia. }
    destruct Q as [z [Z1 Z2]]. assert (IX : In (nth x data []) data) by (apply nth_In, Hx). destruct (Hv _ IX) as [Lx Vx].
    destruct (l2_exact t f (nth x data []) q z zq) as [r [E1 [E2 [E3 E4]]]]; auto; [exact (eq_ind_r (fun d => Permutation (red_items t) (seq 0 d)) Ht Lx)|exact (eq_trans Lx (eq_sym Lq))|apply Hb; eapply nth_error_In; eauto|].
    exists r, (sq_dist z zq). split; [exact E1|]. split; [exact E2|]. split; [exact E3|]. split; [exact E4|].
    apply exact_l2_ints; auto. exact (eq_trans Lx (eq_sym Lq)). }
  intros x y Hx Hy Hle. destruct (X x Hx) as [rx [zx [Ex [Fx [Vx [Rx Sx]]]]]]. destruct (X y Hy) as [ry [zy [Ey [Fy [Vy [Ry Sy]]]]]].
  assert (Dx : from f data q x = rx) by (unfold from, l2_of; match goal with |- match ?a with _ => _ end = _ => replace a with (Ok rx) by (symmetry; exact Ex) end; reflexivity).
  assert (Dy : from f data q y = ry) by (unfold from, l2_of; match goal with |- match ?a with _ => _ end = _ => replace a with (Ok ry) by (symmetry; exact Ey) end; reflexivity).
  rewrite Dx, Dy in Hle. pose proof (fle_real rx ry Vx Vy Fx Fy Hle) as LE. rewrite Rmult_1_l.
  unfold l2_dist. apply sqrt_le_1_alt. rewrite Sx, Sy, <- Rx, <- Ry. exact LE.
Qed.

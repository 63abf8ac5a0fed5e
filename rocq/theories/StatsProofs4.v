(** Query statistics, norms and the recall tool. *)
From Coq Require Import ZArith NArith Reals Lra Lia List Arith Bool Permutation Sorting.Sorted Floats.SpecFloat.
From Flocq Require Import Core Relative.
From Verif Require Import Base Bytes Float32 DivFacts DistSpec DistModel RecallModel RecallSpec RecallProofs TruthModel TruthSpec TruthProofs LloydModel ConvertModel StreamModel BinModel BinSpec FusedModel RealSpec FloatReal L2ErrorProofs RealDistProofs Float64Real NormModel NormSpec NormProofs NormProofs2 NormProofs5 NormProofs6 StatsModel StatsSpec StatsProofs StatsProofs2 StatsProofs3.
Import ListNotations.
Local Open Scope R_scope.

Lemma ulp_pow : powerRZ 2 (-22) = 4 * ulp.
Proof. apply pow_facts. Qed.
Lemma ulp_pow23 : powerRZ 2 (-23) = 2 * ulp.
Proof. pose proof ulp_pow as UP. change (-22)%Z with (1 + -23)%Z in UP. rewrite powerRZ_add, powerRZ_1 in UP by lra. lra. Qed.
Lemma tiny_small : 0 < tiny <= ulp * / 1000000.
Proof. pose proof tiny_ulp. pose proof ulp_val. pose proof tiny_pos. nra. Qed.

Lemma of_Z_big : forall n, (1 <= n < 2 ^ 63)%Z -> finite (f32_of_Z n) /\ f32_valid (f32_of_Z n) = true /\ exists d, Rabs d <= ulp /\ real (f32_of_Z n) = IZR n * (1 + d).
Proof.
  intros n H. assert (A : 1 <= IZR n) by (apply IZR_le; lia). assert (B : IZR n <= bpow radix2 63) by (rewrite <- pow_Z by lia; apply IZR_le; lia).
  assert (F : finite (f32_of_Z n)).
  { apply ffma_norm. change (bpow radix2 0) with 1. rewrite Rmult_1_r. apply rnd_small. rewrite Rabs_pos_eq by lra. apply Rle_trans with (1 := B), bpow_le. lia. }
  destruct (of_Z_rnd n F) as [V R]. split; [exact F|]. split; [exact V|]. destruct (rnd_normal (IZR n)) as [d [Hd E]].
  { rewrite Rabs_pos_eq by lra. apply Rle_trans with (bpow radix2 0); [apply bpow_le; lia|exact A]. }
  exists d. split; [exact Hd|]. now rewrite R, E.
Qed.

Lemma SFltb_irr : forall x, SFltb x x = false.
Proof. exact flt_irr. Qed.

(** The float product percentile * len. *)
Lemma scaled_len : forall p n, f32_valid p = true -> finite p -> 0 <= real p <= 1 -> (1 <= n < 2 ^ 63)%Z ->
  let x := fmul p (f32_of_Z n) in finite x /\ 0 <= real x /\ Rabs (real x - real p * IZR n) <= 2.1 * ulp * (real p * IZR n) + tiny.
Proof.
  intros p n V F P H x. destruct (of_Z_big n H) as [Fn [Vn [d [Hd E]]]]. pose proof ulp_val as [U1 U2]. pose proof tiny_small as T. apply Raux.Rabs_le_inv in Hd.
  assert (A : 1 <= IZR n) by (apply IZR_le; lia). assert (B : IZR n <= bpow radix2 63) by (rewrite <- pow_Z by lia; apply IZR_le; lia).
  assert (Pn : 0 <= real p * IZR n <= IZR n) by nra.
  assert (Q : 0 <= real p * real (f32_of_Z n) <= 2 * IZR n) by (rewrite E; nra).
  assert (Fx : finite x). { apply fmul_fin; auto. apply rnd_small. rewrite Rabs_pos_eq by lra. apply Rle_trans with (bpow radix2 64); [change (bpow radix2 64) with (2 * bpow radix2 63); lra|apply bpow_le; lia]. }
  split; [exact Fx|]. destruct (fmul_rnd _ _ V Vn Fx) as [Vx Rx]. fold x in Rx. split; [rewrite Rx, <- rnd_0; apply rnd_le; lra|].
  rewrite Rx. destruct (rnd_any (real p * real (f32_of_Z n))) as [d2 [e [Hd2 [He ->]]]]. rewrite E. apply Raux.Rabs_le_inv in Hd2, He. set (y := real p * IZR n) in *.
  replace (real p * (IZR n * (1 + d)) * (1 + d2) + e - y) with (y * ((1 + d) * (1 + d2) - 1) + e) by (unfold y; ring). clearbody y. 
  assert (D : - (2.1 * ulp) <= (1 + d) * (1 + d2) - 1 <= 2.1 * ulp) by (clear -Hd Hd2 U1 U2; nra). set (w := (1 + d) * (1 + d2) - 1) in *. clearbody w. clear -D Pn He. apply Rabs_le. nra.
Qed.

Lemma percentile_ok : forall sortf p vals, sorts_as SFltb sortf vals -> f32_valid p = true -> finite p -> 0 <= real p <= 1 - powerRZ 2 (-22) ->
  (1 <= length vals)%nat -> (Z.of_nat (length vals) < 2 ^ 63)%Z ->
  exists v k, get_percentile_stats sortf p vals = Ok v /\ ranked SFltb vals v k /\ (k < length vals)%nat /\
    Rabs (INR k - real p * INR (length vals)) <= 1 + powerRZ 2 (-22) * INR (length vals).
Proof.
  intros sortf p vals S V F P L1 L2. set (n := Z.of_nat (length vals)) in *. rewrite ulp_pow in *. pose proof ulp_val as [U1 U2]. pose proof tiny_small as T.
  destruct (scaled_len p n V F ltac:(lra) ltac:(lia)) as [Fx [Px Bx]]. assert (A : 1 <= IZR n) by (apply IZR_le; lia). set (x := fmul p (f32_of_Z n)) in *.
  apply Raux.Rabs_le_inv in Bx. assert (Pn : 0 <= real p * IZR n <= (1 - 4 * ulp) * IZR n) by (split; [apply Rmult_le_pos; lra|apply Rmult_le_compat_r; lra]).
  assert (Lt : real x < IZR n).
  { set (y := real p * IZR n) in *. clearbody y. assert (2.1 * ulp * y <= 2.1 * ulp * IZR n) by (apply Rmult_le_compat_l; [lra|]; apply Rle_trans with (1 := proj2 Pn); nra). nra. }
  destruct (to_u64_real x n Fx (conj Px Lt)) as [k [Ek [Lk [B C]]]]; [lia|].
  unfold get_percentile_stats. fold n. fold x. rewrite Ek. cbn [bind]. pose proof (Permutation_length (proj1 S)) as PL.
  destruct (rd_lt _ (sortf vals) (N.to_nat k)) as [v Ev]; [lia|]. exists v, (N.to_nat k). split; [exact Ev|].
  split; [apply (sorted_rank _ SFltb sortf); [exact SFltb_irr|exact S|now apply rd_ok]|]. split; [lia|].
  rewrite <- (N2Nat.id k), nat_N_Z, <- INR_IZR_INZ in B, C. replace (INR (length vals)) with (IZR n) by (unfold n; now rewrite <- INR_IZR_INZ).
  set (y := real p * IZR n) in *. clearbody y. assert (2.1 * ulp * y <= 2.1 * ulp * IZR n) by (apply Rmult_le_compat_l; [lra|]; apply Rle_trans with (1 := proj2 Pn); nra).
  apply Rabs_le. nra.
Qed.

Lemma percentile_one : forall sortf vals, (forall l, Permutation l (sortf l)) -> (1 <= Z.of_nat (length vals) <= 2 ^ 24)%Z -> get_percentile_stats sortf f32_one vals = UB.
Proof.
  intros sortf vals S L. set (n := Z.of_nat (length vals)) in *. destruct (of_Z_int n) as [Fn [Vn Rn]]; [lia|]. destruct (int_rnd n) as [I1 I2]; [lia|].
  assert (R1 : real f32_one = 1). { cbn [real f32_one]. change 2 with (IZR radix2). rewrite <- bpow_powerRZ. change (bpow radix2 (-23)) with (/ 8388608). lra. }
  assert (Q : real f32_one * real (f32_of_Z n) = IZR n) by (rewrite R1, Rn; ring).
  assert (F : finite (fmul f32_one (f32_of_Z n))) by (apply fmul_fin; auto; [exact Logic.I|rewrite Q; exact I2]). destruct (fmul_rnd f32_one _ eq_refl Vn F) as [_ R]. rewrite Q, I1 in R.
  assert (A : 1 <= IZR n) by (apply IZR_le; lia).
  destruct (to_u64_real _ (n + 1) F) as [k [Ek [Lk [B C]]]]; [rewrite R, plus_IZR; lra|lia|]. rewrite R in B, C. rewrite <- plus_IZR in C. apply le_IZR in B. apply lt_IZR in C.
  unfold get_percentile_stats. fold n. rewrite Ek. cbn [bind]. unfold rd. rewrite (proj2 (nth_error_None _ _)); [reflexivity|]. rewrite <- (Permutation_length (S vals)). lia.
Qed.

Lemma percentile_empty : forall sortf p, (forall l, Permutation l (sortf l)) -> get_percentile_stats sortf p [] = UB.
Proof.
  intros sortf p S. unfold get_percentile_stats. assert (sortf [] = []) as -> by (apply Permutation_nil; apply S). unfold to_u64. destruct (trunc _) as [z|]; [|reflexivity].
  destruct (_ && _)%bool; [|reflexivity]. cbn [bind]. unfold rd. now destruct (N.to_nat _).
Qed.

(** 0.999 *)
Lemma p999_f32_real : f32_valid p999_f32 = true /\ finite p999_f32 /\ 0 <= real p999_f32 <= 1 - powerRZ 2 (-22) /\ Rabs (real p999_f32 - 0.999) <= powerRZ 2 (-24).
Proof.
  split; [reflexivity|]. split; [exact Logic.I|]. cbn [real p999_f32]. change 2 with (IZR radix2). rewrite <- !bpow_powerRZ. change (bpow radix2 (-22)) with (/ 4194304). change (bpow radix2 (-24)) with (/ 16777216).
  split; [lra|]. apply Rabs_le. lra.
Qed.

Lemma p999_real : f64_valid p999_f64 = true /\ finite p999_f64 /\ exists d, Rabs d <= ulp64 /\ real p999_f64 = 0.999 * (1 + d).
Proof.
  split; [reflexivity|]. split; [exact Logic.I|]. exists (real p999_f64 / 0.999 - 1). split; [|field; lra].
  cbn [real p999_f64]. rewrite ulp64_bpow. change 2 with (IZR radix2). rewrite <- bpow_powerRZ. change (bpow radix2 (-53)) with (/ 9007199254740992). apply Rabs_le. lra.
Qed.

Lemma latency_ok : forall sortf lat, sorts_as SFltb sortf lat -> (1 <= length lat)%nat -> (Z.of_nat (length lat) <= 2 ^ 32)%Z ->
  exists v k, latency_999 sortf lat = Ok v /\ ranked SFltb lat v k /\ (1000 * k <= 999 * length lat <= 1000 * k + 1000)%nat.
Proof.
  intros sortf lat S L1 L2. set (n := length lat) in *. destruct (of_nat64 n) as [Fn [Vn Rn]]; [lia|]. destruct p999_real as [Vp [Fp [a [Ha Ep]]]]. pose proof ulp64_val as U.
  pose proof (INR_pos n L1) as N1. assert (N2 : INR n <= 4294967296) by (rewrite INR_IZR_INZ; apply IZR_le in L2; exact L2).
  destruct (dmul_close p999_f64 (f64_of_nat n) 0.999 (INR n) a 0 Vp Vn Fp Fn Ep) as [F [V [d [Hd E]]]]; [rewrite Rn; ring|lra|rewrite Rabs_R0; lra|right; lra|lra|].
  assert (Q0 : Rabs 0 <= ulp64) by (rewrite Rabs_R0; lra). pose proof (three_errors a 0 d Ha Q0 Hd) as T. set (w := (1 + a) * (1 + 0) * (1 + d) - 1) in *.
  set (x := f64_mul p999_f64 (f64_of_nat n)) in *. assert (Ex : real x = 0.999 * INR n + 0.999 * INR n * w) by (rewrite E; unfold w; ring). apply Raux.Rabs_le_inv in T. clearbody w.
  assert (W : - / 10000000000000 <= w <= / 10000000000000) by lra. assert (X : - / 2000 <= 0.999 * INR n * w <= / 2000) by (clear -W N1 N2; split; nra).
  assert (P : 0 <= real x < IZR (Z.of_nat n)) by (rewrite <- INR_IZR_INZ; lra).
  destruct (to_u64_real x (Z.of_nat n) F P) as [k [Ek [Lk [B C]]]]; [lia|]. pose proof (Permutation_length (proj1 S)) as PL.
  destruct (rd_lt _ (sortf lat) (N.to_nat k)) as [v Ev]; [unfold n in *; lia|]. exists v, (N.to_nat k). unfold latency_999. fold n. fold x. rewrite Ek. cbn [bind]. split; [exact Ev|].
  split; [apply (sorted_rank _ SFltb sortf); [exact SFltb_irr|exact S|now apply rd_ok]|].
  rewrite <- (N2Nat.id k), nat_N_Z in B, C. set (m := N.to_nat k) in *.
  assert (B' : IZR (1000 * Z.of_nat m) < IZR (999 * Z.of_nat n + 1)) by (rewrite plus_IZR, !mult_IZR, <- (INR_IZR_INZ n); lra).
  assert (C' : IZR (999 * Z.of_nat n) < IZR (1000 * Z.of_nat m + 1000 + 1)) by (rewrite !plus_IZR, !mult_IZR, <- (INR_IZR_INZ n); lra).
  apply lt_IZR in B', C'. lia.
Qed.

(** ** Means *)
Lemma sum_exact : forall vals ks t, holds_counts vals ks -> (forall i, In i (red_items t) -> (i < length vals)%nat) ->
  (Z.of_nat (list_sum (map (fun i => nth i ks 0%nat) (red_items t))) <= 2 ^ 53)%Z ->
  exists r, red_eval f64_zero (fun x y => Ok (f64_add x y)) (fun i => rd vals i) t = Ok r /\ finite r /\ f64_valid r = true /\ real r = INR (list_sum (map (fun i => nth i ks 0%nat) (red_items t))).
Proof.
  intros vals ks t H. induction t as [|i|l IHl r IHr]; intros Hi Hb; cbn [red_eval red_items map list_sum fold_right] in *.
  - exists f64_zero. repeat split.
  - destruct (rd_lt _ vals i) as [x Ex]; [apply Hi; now left|]. exists x. split; [exact Ex|]. apply rd_ok in Ex. rewrite Nat.add_0_r.
    destruct (NormProofs2.Forall2_nth _ _ _ _ _ H i x Ex) as [k [Ek [Fx [Vx Rx]]]]. rewrite (nth_error_nth _ _ _ Ek). auto.
  - rewrite map_app, list_sum_app in *. destruct IHl as [x [Ex [Fx [Vx Rx]]]]; [intros; apply Hi, in_or_app; auto|lia|]. destruct IHr as [y [Ey [Fy [Vy Ry]]]]; [intros; apply Hi, in_or_app; auto|lia|].
    rewrite Ex, Ey. cbn [bind]. exists (f64_add x y). split; [reflexivity|].
    set (a := list_sum (map _ (red_items l))) in *. set (b := list_sum (map _ (red_items r))) in *. destruct (int64_rnd (Z.of_nat (a + b))) as [I1 I2]; [lia|].
    assert (Q : real x + real y = IZR (Z.of_nat (a + b))) by (rewrite Rx, Ry, <- INR_IZR_INZ, plus_INR; reflexivity).
    assert (F : finite (f64_add x y)) by (apply dadd_fin; auto; rewrite Q; exact I2). split; [exact F|]. destruct (dadd_rnd x y Vx Vy Fx Fy F) as [V R]. split; [exact V|].
    rewrite R, Q, I1, <- INR_IZR_INZ. reflexivity.
Qed.

Lemma list_sum_perm : forall l m, Permutation l m -> list_sum l = list_sum m.
Proof. unfold list_sum; induction 1; cbn; lia. Qed.
Lemma map_nth_id : forall (l : list nat), map (fun i => nth i l 0%nat) (seq 0 (length l)) = l.
Proof. induction l as [|x l IH]; [reflexivity|]. cbn [length seq map nth]. f_equal. rewrite <- seq_shift, map_map. exact IH. Qed.

Lemma mean_ok : forall t vals ks, holds_counts vals ks -> Permutation (red_items t) (seq 0 (length vals)) -> (1 <= length vals)%nat -> (Z.of_nat (length vals) <= 2 ^ 32)%Z ->
  (Z.of_nat (list_sum ks) <= 2 ^ 53)%Z ->
  exists r, get_mean_stats t vals = Ok r /\ finite r /\ Rabs (real r - INR (list_sum ks) / INR (length vals)) <= powerRZ 2 (-53) * (INR (list_sum ks) / INR (length vals)).
Proof.
  intros t vals ks H P L1 L2 B. assert (Lk : length vals = length ks) by (clear -H; induction H; cbn; congruence).
  assert (E : list_sum (map (fun i => nth i ks 0%nat) (red_items t)) = list_sum ks).
  { rewrite (list_sum_perm _ _ (Permutation_map (fun i => nth i ks 0%nat) P)), Lk, map_nth_id. reflexivity. }
  destruct (sum_exact vals ks t H) as [s [Es [Fs [Vs Rs]]]]; [intros i Hi; apply (Permutation_in _ P) in Hi; apply in_seq in Hi; lia|rewrite E; exact B|]. rewrite E in Rs.
  unfold get_mean_stats. rewrite Es. cbn [bind]. eexists. split; [reflexivity|]. destruct (of_nat64 (length vals)) as [Fn [Vn Rn]]; [lia|]. set (S := list_sum ks) in *. set (n := length vals) in *.
  pose proof (INR_pos n L1) as N1. assert (N2 : INR n <= 4294967296) by (rewrite INR_IZR_INZ; apply IZR_le in L2; exact L2). pose proof (pos_INR S) as S0.
  assert (S1 : INR S <= 10000000000000000) by (rewrite INR_IZR_INZ; apply IZR_le in B; change (IZR (2 ^ 53)) with 9007199254740992 in B; lra).
  assert (D : INR S / INR n * INR n = INR S) by (field; lra). set (q := INR S / INR n) in *.
  assert (Q : 0 <= q <= 1000000000000000000) by (clear -D N1 S0 S1; split; [destruct (Rle_lt_dec 0 q); [auto|nra]|destruct (Rle_lt_dec q 1000000000000000000); [auto|nra]]).
  assert (Z : INR S = 0 \/ / 100000000000000000000 <= q). { destruct (Nat.eq_dec S 0) as [->|X]; [left; reflexivity|right]. assert (1 <= INR S) by (apply INR_pos; lia). clear -D N1 N2 H0. destruct (Rle_lt_dec (/ 100000000000000000000) q); [auto|nra]. }
  destruct (ddiv_close s (f64_of_nat n) (INR S) (INR n) Vs Vn Fs Rs Rn) as [F [V [d [Hd Ed]]]]; [lra|exact Z|exact Q|]. split; [exact F|].
  change (powerRZ 2 (-53)) with ulp64. rewrite Ed. fold q. replace (q * (1 + d) - q) with (d * q) by ring. rewrite Rabs_mult, (Rabs_pos_eq q) by lra. apply Rmult_le_compat_r; lra.
Qed.

Lemma mean_empty : get_mean_stats RZero [] = Ok S754_nan.
Proof. reflexivity. Qed.

(** ** Norms *)
Lemma tiny_pow : powerRZ 2 (-148) = 4 * tiny.
Proof. rewrite tiny_bpow. change 2 with (IZR radix2). rewrite <- bpow_powerRZ. change (-148)%Z with (1 + -149)%Z. rewrite bpow_plus. change (bpow radix2 1) with 2. change (IZR radix2) with 2. lra. Qed.

Lemma valid_tiny : forall N, f32_valid N = true -> finite N -> 0 < real N -> bpow radix2 (-149) <= real N.
Proof.
  intros N V F P. pose proof (real_format N V) as G. destruct (Rle_lt_dec (bpow radix2 (-149)) (real N)); [auto|]. exfalso.
  assert (real N = 0); [|lra]. rewrite <- (round_generic radix2 (FLT_exp (-149) 24) Zfloor (real N) G).
  unfold round, F2R, scaled_mantissa, cexp. assert (M : (mag radix2 (real N) <= -149)%Z) by (apply mag_le_bpow; [lra|rewrite Rabs_pos_eq by lra; exact r]).
  assert (C : FLT_exp (-149) 24 (mag radix2 (real N)) = (-149)%Z) by (unfold FLT_exp; lia). rewrite C. cbn [Fnum Fexp].
  replace (Zfloor (real N * bpow radix2 (- -149))) with 0%Z; [ring|]. symmetry. apply Zfloor_imp. cbn [IZR Z.add]. 
  assert (bpow radix2 (-149) * bpow radix2 (- -149) = 1) by (rewrite <- bpow_plus; reflexivity). pose proof (bpow_gt_0 radix2 (- -149)). simpl (0+1)%Z. split; [apply Rmult_le_pos; lra|].
  rewrite <- H. apply Rmult_lt_compat_r; lra.
Qed.

Lemma row_norm : forall k f d v, dim_ok d -> length v = d -> Permutation (fred_items f) (seq 0 d) -> Forall (elem_ok k) v -> elem_sq k v <= powerRZ 2 125 ->
  exists x, (do s <- sum_sq f (map (kval k) v); Ok (fsqrt s)) = Ok x /\ f32_valid x = true /\ norm_of k d v x.
Proof.
  intros k f d v Hd Lv P G B. assert (Lf : length (fvec k v) = d) by (unfold fvec; now rewrite map_length).
  assert (G' : good (fvec k v)) by now apply fvec_good. pose proof (fvec_sq k v G) as Sq.
  destruct (norm_near f (fvec k v)) as [N [EN [FN [VN [PN BN]]]]]; [rewrite Lf; exact Hd|rewrite Lf; exact P|exact G'|rewrite Sq; exact B|]. rewrite Lf, Sq in BN.
  change (map (kval k) v) with (fvec k v). rewrite EN. cbn [bind]. exists (fsqrt N). split; [reflexivity|]. destruct (fsqrt_rnd N VN) as [VM [RM FM]].
  pose proof ulp_val as [U1 U2]. pose proof tiny_small as T. pose proof (dim_ulp d Hd) as Du. pose proof (pos_INR d) as Pd.
  assert (S0 : 0 <= elem_sq k v) by (rewrite <- Sq; apply self_ip_pos).
  assert (Q : exists e, Rabs e <= ulp /\ rnd (sqrt (real N)) = sqrt (real N) * (1 + e)).
  { destruct (Req_dec (real N) 0) as [Z|Z]; [exists 0; rewrite Z, sqrt_0, rnd_0, Rabs_R0; split; lra|]. apply rnd_normal. rewrite Rabs_pos_eq by apply sqrt_pos.
    pose proof (valid_tiny N VN FN ltac:(lra)) as VT. apply Rle_trans with (bpow radix2 (-75)); [apply bpow_le; lia|]. rewrite <- (sqrt_square (bpow radix2 (-75))) by apply bpow_ge_0. apply sqrt_le_1_alt. rewrite <- bpow_plus.
    apply Rle_trans with (2 := VT). apply bpow_le. lia. }
  destruct Q as [e [He Re]]. apply Raux.Rabs_le_inv in He. unfold norm_of. change (fsqrt N) with (SFsqrt prec emax N). split; [exact VM|]. split; [apply FM; auto|]. rewrite RM, Re.
  split; [apply Rmult_le_pos; [apply sqrt_pos|lra]|].
  replace ((sqrt (real N) * (1 + e)) ^ 2) with (sqrt (real N) * sqrt (real N) * ((1 + e) * (1 + e))) by ring. rewrite sqrt_def by exact PN. rewrite ulp_pow, tiny_pow.
  set (S := elem_sq k v) in *. set (M := real N) in *. set (D := INR d) in *. clearbody S M D. clear -BN PN S0 Pd He U1 U2 T Du. apply Raux.Rabs_le_inv in BN.
  assert (W : - (3 * ulp) <= (1 + e) * (1 + e) - 1 <= 3 * ulp) by nra. set (w := (1 + e) * (1 + e) - 1) in *. replace ((1 + e) * (1 + e)) with (1 + w) by (unfold w; ring). clearbody w.
  assert (DT : 0 <= D * tiny) by (apply Rmult_le_pos; lra). assert (DS : 0 <= D * ulp * S) by (apply Rmult_le_pos; [apply Rmult_le_pos; lra|exact S0]).
  assert (DS2 : D * ulp * S <= / 16 * S) by (apply Rmult_le_compat_r; lra). assert (US : 0 <= ulp * S) by (apply Rmult_le_pos; lra).
  assert (MB : M <= 2 * S + 2 * (D * tiny)) by lra.
  assert (MW : Rabs (M * w) <= M * (3 * ulp)) by (rewrite Rabs_mult, (Rabs_pos_eq M) by exact PN; apply Rmult_le_compat_l; [exact PN|apply Rabs_le; lra]).
  assert (MU : M * (3 * ulp) <= (2 * S + 2 * (D * tiny)) * (3 * ulp)) by (apply Rmult_le_compat_r; lra).
  assert (DTU : D * tiny * ulp <= D * tiny * / 1000000) by (apply Rmult_le_compat_l; lra).
  apply Raux.Rabs_le_inv in MW. apply Rabs_le. nra.
Qed.

Lemma rows_norms : forall k f d vs, dim_ok d -> Permutation (fred_items f) (seq 0 d) -> (forall v, In v vs -> length v = d /\ Forall (elem_ok k) v /\ elem_sq k v <= powerRZ 2 125) ->
  exists norms, map_res (fun x => do s <- sum_sq f x; Ok (fsqrt s)) (map (fvec k) vs) = Ok norms /\ Forall2 (norm_of k d) vs norms /\ (forall x, In x norms -> f32_valid x = true).
Proof.
  intros k f d vs Hd P. induction vs as [|v vs IH]; intros H; [exists []; split; [reflexivity|]; split; [constructor|intros x []]|].
  destruct IH as [norms [E [F Vn]]]; [intros; apply H; now right|]. destruct (H v (or_introl eq_refl)) as [Lv [G B]]. destruct (row_norm k f d v Hd Lv P G B) as [x [Ex [Vx Nx]]].
  cbn [map map_res]. change (fvec k v) with (map (kval k) v). rewrite Ex. cbn [bind]. rewrite E. cbn [bind]. exists (x :: norms). split; [reflexivity|]. split; [now constructor|]. intros y [<-|Hy]; auto.
Qed.

Lemma analyze_ok : forall c k f sortf g1 g2 n d vs, (forall l, (forall x, In x l -> finite x /\ f32_valid x = true) -> sorts_as flt sortf l) -> length g1 = 4%nat -> length g2 = 4%nat -> length vs = n -> (1 <= n)%nat -> (N.of_nat n < 2 ^ 32)%N -> (Z.of_nat d <= 2 ^ 20)%Z ->
  Permutation (fred_items f) (seq 0 d) -> (forall v, In v vs -> length v = d /\ Forall (elem_ok k) v /\ elem_sq k v <= powerRZ 2 125) ->
  exists norms table, analyze_norm c k f sortf g1 g2 (Some (bin_file (kwidth k) (N.of_nat n) (N.of_nat d) (concat vs))) = Ok table /\
    Forall2 (norm_of k d) vs norms /\ percentile_table flt 5 norms table.
Proof.
  intros c k f sortf g1 g2 n d vs S L1 L2 Ln N1 N2 Hd P H. destruct (rows_loaded k g1 g2 n d vs L1 L2 Ln N2 Hd) as [El Er]; [intros v Hv; destruct (H v Hv) as [A [B _]]; auto|].
  destruct (rows_norms k f d vs Hd P H) as [norms [En [Fn Vn]]]. assert (Lm : length norms = n) by (rewrite <- Ln; clear -Fn; induction Fn; cbn; congruence).
  destruct (pct_table_ok f32 flt c 5 sortf norms) as [table [Et Pt]]; [now left|exact flt_irr|apply S; intros x Hx; split; [|auto]; clear -Fn Hx; induction Fn as [|v y vs l [F _] _ IH]; [destruct Hx|destruct Hx as [<-|Hx]; auto]|rewrite Lm; exact N1|rewrite Lm; lia|].
  exists norms, table. split; [|auto]. unfold analyze_norm. rewrite El. cbn [bind]. rewrite !Nat2N.id, Er, En. cbn [bind]. exact Et.
Qed.

(** ** The recall tool *)
Lemma f32_of_f64_real : forall x, finite x -> Rabs (real x) <= bpow radix2 127 -> finite (f32_of_f64 x) /\ f32_valid (f32_of_f64 x) = true /\ real (f32_of_f64 x) = rnd (real x).
Proof.
  intros [s|s| |s m e] F B; try (destruct F).
  - cbn [f32_of_f64 real] in *. split; [exact Logic.I|]. split; [reflexivity|]. now rewrite rnd_0.
  - cbn [f32_of_f64]. assert (R : IZR (SpecFloat.cond_Zopp s (Z.pos m)) * bpow radix2 e = real (S754_finite s m e)).
    { cbn [real]. change 2 with (IZR radix2). rewrite <- bpow_powerRZ. destruct s; cbn [SpecFloat.cond_Zopp]; [change (Z.opp (Z.pos m)) with (Z.neg m); change (Z.neg m) with (- Z.pos m)%Z; rewrite opp_IZR|]; ring. }
    destruct (ffma_norm (SpecFloat.cond_Zopp s (Z.pos m)) e s) as [A C]. rewrite R in A, C. specialize (C (rnd_small _ B)). destruct (A C) as [V Q]. auto.
Qed.

Lemma hits_bound : forall hs k, (forall j h, nth_error hs j = Some h -> (h <= k)%nat) -> (list_sum hs <= length hs * k)%nat.
Proof.
  induction hs as [|h hs IH]; intros k H; [cbn; lia|]. cbn [list_sum fold_right length Nat.mul]. specialize (IH k (fun j x E => H (S j) x E)). pose proof (H 0%nat h eq_refl). unfold list_sum in *. lia.
Qed.

Lemma recall_loaded_ok : forall g g' truth results n dg gold gd dr ids rd' k, load_truthset g truth = Ok (n, dg, gold, gd) -> load_truthset g' results = Ok (n, dr, ids, rd') ->
  (n < 2 ^ 32)%N -> (dg < 2 ^ 32)%N -> (dr < 2 ^ 32)%N -> N.of_nat (length gold) = (n * dg)%N -> N.of_nat (length ids) = (n * dr)%N -> (1 <= n)%N -> (1 <= k)%N -> (k <= dg)%N -> (k <= dr)%N -> (n * k <= 2 ^ 53)%N ->
  match gd with Some l => N.of_nat (length l) = (n * dg)%N /\ forall x, In x l -> is_nan (f32_of_bits x) = false | None => True end ->
  exists hs v, recall_tool g g' truth results k = Ok (Some v) /\ length hs = N.to_nat n /\
    (forall j h, nth_error hs j = Some h -> (h <= N.to_nat k)%nat /\ exists tb, truth_taken (option_map (map f32_of_bits) gd) dg k (N.of_nat j) tb /\ common (prefix gold dg (N.of_nat j) tb) (prefix ids dr (N.of_nat j) k) h) /\
    (let exact := 100 * INR (list_sum hs) / (IZR (Z.of_N n) * IZR (Z.of_N k)) in finite v /\ Rabs (real v - exact) <= powerRZ 2 (-23) * exact).
Proof.
  intros g g' truth results n dg gold gd dr ids rd' k T T' Hn Hdg Hdr Li Li' N1 K1 Kg Kr NK HD.
  destruct (recall_ok gold (option_map (map f32_of_bits) gd) dg ids dr k n) as [hs [Eh [Lh Hh]]].
  { unfold matrices_ok. repeat split; try lia. destruct gd as [l|]; [|exact Logic.I]. cbn [option_map]. destruct HD as [HD Nan]. split; [rewrite map_length; lia|]. intros x Hx. apply in_map_iff in Hx. destruct Hx as [y [<- Hy]]. now apply Nan. }
  set (tot := list_sum hs). assert (Tb : (tot <= N.to_nat n * N.to_nat k)%nat) by (unfold tot; rewrite <- Lh; apply hits_bound; intros j h E; apply (Hh j h E)).
  assert (Tb' : (N.of_nat tot <= n * k)%N) by lia.
  destruct (recall_percent_close (N.of_nat tot) n k) as [F [V [d [Hd E]]]]; [lia|lia|lia|exact Tb'|]. rewrite nat_N_Z, <- INR_IZR_INZ in E.
  set (exact := 100 * INR tot / (IZR (Z.of_N n) * IZR (Z.of_N k))) in *. pose proof ulp64_val as U. apply Raux.Rabs_le_inv in Hd. pose proof ulp_val as [U1 U2].
  assert (Pn : 1 <= IZR (Z.of_N n) <= 4294967296) by (split; apply IZR_le; lia). assert (Pk : 1 <= IZR (Z.of_N k) <= 4294967296) by (split; apply IZR_le; lia).
  assert (W : 1 <= IZR (Z.of_N n) * IZR (Z.of_N k) <= 4294967296 * 4294967296) by nra. pose proof (pos_INR tot) as T0.
  assert (Tn : INR tot <= IZR (Z.of_N n) * IZR (Z.of_N k)) by (rewrite <- mult_IZR, INR_IZR_INZ; apply IZR_le; lia).
  assert (X : exact * (IZR (Z.of_N n) * IZR (Z.of_N k)) = 100 * INR tot) by (unfold exact; field; lra). set (w := IZR (Z.of_N n) * IZR (Z.of_N k)) in *.
  assert (E0 : 0 <= exact <= 100) by (clear -X W T0 Tn; split; [destruct (Rle_lt_dec 0 exact); [auto|nra]|destruct (Rle_lt_dec exact 100); [auto|nra]]).
  assert (EZ : exact = 0 \/ / 1000000000000000000 <= exact).
  { destruct (Nat.eq_dec tot 0) as [Z|Z]; [left; unfold exact; rewrite Z; cbn [INR]; unfold Rdiv; ring|right]. assert (1 <= INR tot) by (apply INR_pos; lia). clear -X W H. destruct (Rle_lt_dec (/ 1000000000000000000) exact); [auto|nra]. }
  destruct (f32_of_f64_real _ F) as [F' [V' R']].
  { rewrite E, Rabs_pos_eq by (apply Rmult_le_pos; lra). apply Rle_trans with (bpow radix2 10); [change (bpow radix2 10) with 1024; nra|apply bpow_le; lia]. }
  exists hs, (f32_of_f64 (recall_percent (N.of_nat tot) n k)). split.
  { unfold recall_tool. rewrite T, T'. cbn [bind]. rewrite N.eqb_refl. cbn [negb]. destruct (N.ltb_spec dr k); [lia|]. destruct (N.ltb_spec dg k); [lia|]. cbn [orb].
    rewrite Eh. reflexivity. }
  split; [exact Lh|]. split; [intros j h Ej; apply (Hh j h Ej)|]. fold tot. fold w. fold exact. cbn zeta. split; [exact F'|].
  replace (powerRZ 2 (-23)) with (2 * ulp) by (symmetry; exact ulp_pow23).
  rewrite R', E. destruct EZ as [EZ|EZ].
  - rewrite EZ, Rmult_0_l, rnd_0, Rminus_0_r, Rabs_R0. lra.
  - destruct (rnd_normal (exact * (1 + d))) as [d' [Hd' ->]].
    { rewrite Rabs_pos_eq by (apply Rmult_le_pos; lra). apply Rle_trans with (bpow radix2 (-70)); [apply bpow_le; lia|]. change (bpow radix2 (-70)) with (/ 1180591620717411303424). nra. }
    apply Raux.Rabs_le_inv in Hd'. replace (exact * (1 + d) * (1 + d') - exact) with (exact * (d + d' + d * d')) by ring. rewrite Rabs_mult, (Rabs_pos_eq exact), Rmult_comm by lra. apply Rmult_le_compat_r; [lra|].
    assert (UU : 1000000 * ulp64 <= ulp). { rewrite ulp64_bpow, ulp_bpow. change (/ 2 * bpow radix2 (-24 + 1)) with (/ 2 * / 8388608). change (bpow radix2 (-53)) with (/ 9007199254740992). lra. }
    apply Rabs_le. clear -Hd Hd' U UU U1 U2. nra.
Qed.

Lemma recall_tool_ok : forall g g' n dg gold gd dr ids rd' k, truth_ok n dg gold gd -> truth_ok n dr ids rd' -> (1 <= n)%N -> (1 <= k)%N -> (k <= dg)%N -> (k <= dr)%N -> (n * k <= 2 ^ 53)%N ->
  match gd with Some l => forall x, In x l -> is_nan (f32_of_bits x) = false | None => True end ->
  exists hs v, recall_tool g g' (Some (truth_file n dg gold gd)) (Some (truth_file n dr ids rd')) k = Ok (Some v) /\ length hs = N.to_nat n /\
    (forall j h, nth_error hs j = Some h -> exists tb, truth_taken (option_map (map f32_of_bits) gd) dg k (N.of_nat j) tb /\ common (prefix gold dg (N.of_nat j) tb) (prefix ids dr (N.of_nat j) k) h) /\
    (let exact := 100 * INR (list_sum hs) / (IZR (Z.of_N n) * IZR (Z.of_N k)) in finite v /\ Rabs (real v - exact) <= powerRZ 2 (-23) * exact).
Proof.
  intros g g' n dg gold gd dr ids rd' k T T' N1 K1 Kg Kr NK Nan. pose proof T as (Hn & Hdg & _ & Li & _ & HD). pose proof T' as (_ & Hdr & _ & Li' & _ & _). unfold u32_range in *.
  destruct (recall_loaded_ok g g' _ _ n dg gold gd dr ids rd' k (load_truthset_ok g _ _ _ _ T) (load_truthset_ok g' _ _ _ _ T')) as [hs [v [E [L [H R]]]]]; auto.
  - destruct gd as [l|]; [|exact Logic.I]. split; [apply HD|exact Nan].
  - exists hs, v. split; [exact E|]. split; [exact L|]. split; [|exact R]. intros j h Ej. apply (H j h Ej).
Qed.

Lemma recall_tool_refuses : forall g g' n n' dg gold gd dr ids rd' k, truth_ok n dg gold gd -> truth_ok n' dr ids rd' -> n <> n' \/ (dg < k)%N \/ (dr < k)%N ->
  recall_tool g g' (Some (truth_file n dg gold gd)) (Some (truth_file n' dr ids rd')) k = Ok None.
Proof.
  intros g g' n n' dg gold gd dr ids rd' k T T' H. unfold recall_tool. rewrite (load_truthset_ok g), (load_truthset_ok g') by auto. cbn [bind].
  destruct (N.eqb_spec n n') as [->|Q]; [|reflexivity]. cbn [negb]. destruct (N.ltb_spec dr k); [reflexivity|]. destruct (N.ltb_spec dg k); [reflexivity|]. exfalso. lia.
Qed.

Lemma recall_tool_zero : forall g g' n dg gold gd dr ids rd', truth_ok n dg gold (Some gd) -> truth_ok n dr ids rd' -> (n * dg < 2 ^ 32 - 1)%N ->
  recall_tool g g' (Some (truth_file n dg gold (Some gd))) (Some (truth_file n dr ids rd')) 0 = UB.
Proof.
  intros g g' n dg gold gd dr ids rd' T T' B. pose proof T as (Hn & Hd & _ & Li & _ & _ & _ & NZ). unfold recall_tool. rewrite (load_truthset_ok g), (load_truthset_ok g') by auto. cbn [bind]. rewrite N.eqb_refl. cbn [negb].
  rewrite (proj2 (N.ltb_ge dr 0)), (proj2 (N.ltb_ge dg 0)) by lia. cbn [orb option_map]. rewrite recall_zero; [reflexivity| | |exact Hd]; [destruct n; [exfalso; apply NZ; reflexivity|lia]|lia].
Qed.

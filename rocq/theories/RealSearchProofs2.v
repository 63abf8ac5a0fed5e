(** Vectors of a file in memory, and the values of their distances. *)
From Coq Require Import NArith ZArith Reals Lra Lia List Arith Bool Sorting.Sorted Permutation Floats.SpecFloat.
From Flocq Require Import Core.
From Verif Require Import Base Bytes Float32 Float32Facts DivFacts FloatBits DistSpec DistModel DistProofs FusedModel FusedProofs RealSpec FloatReal L2ErrorProofs RealDistProofs ClosestModel ConvertModel StreamModel BinModel BinSpec BinProofs BinProofs2 IndexFileProofs3 NormModel NormSpec NormProofs2 StatsProofs4 ToolSpec
  BlasProofs3 BlasProofs7 SystemModel SystemSpec GtToolSpec GtToolProofs3 RealSearchModel RealSearchSpec RealSearchProofs.
Import ListNotations.
Local Open Scope R_scope.

(** The vector [r] of a file in memory, padded to [adim] elements. *)
Definition in_mem (kt : ktype) (dim adim : nat) (r : list N) (v : vec) : Prop :=
  length r = dim /\ (dim <= adim < dim + 8)%nat /\ (adim mod 8 = 0)%nat /\ length v = (adim * kwidth kt)%nat /\
  (forall j, (j < dim)%nat -> mem_elem (kwidth kt) v j = nth_error r j) /\ (forall j, (dim <= j < adim)%nat -> mem_elem (kwidth kt) v j = Some 0%N).

Lemma kwidth_pos : forall kt, (1 <= kwidth kt <= 4)%nat.
Proof. intros []; cbn; lia. Qed.

Lemma in_mem_elems : forall kt dim adim r v, in_mem kt dim adim r v -> mem_elems kt v = Some (r ++ repeat 0%N (adim - dim)).
Proof.
  intros kt dim adim r v [L [A [_ [Lv [H1 H2]]]]]. unfold mem_elems. pose proof (kwidth_pos kt). rewrite Lv, Nat.div_mul by lia.
  rewrite (all_some_map _ _ _ (fun j => nth j (r ++ repeat 0%N (adim - dim)) 0%N)).
  - f_equal. apply (nth_ext _ _ 0%N 0%N); rewrite map_length, seq_length; [rewrite app_length, repeat_length; lia|]. intros j Hj. rewrite (nth_indep _ 0%N (nth 0 (r ++ repeat 0%N (adim - dim)) 0%N)) by (rewrite map_length, seq_length; auto).
    rewrite (map_nth (fun j => nth j (r ++ repeat 0%N (adim - dim)) 0%N)), seq_nth by auto. reflexivity.
  - intros j Hj. apply in_seq in Hj. destruct (Nat.lt_ge_cases j dim).
    + rewrite H1 by auto. rewrite app_nth1 by lia. apply nth_error_nth'. lia.
    + rewrite H2 by lia. rewrite app_nth2 by lia. f_equal. symmetry. destruct (Nat.lt_ge_cases (j - length r) (adim - dim)); [|lia]. clear. generalize (adim - dim)%nat, (j - length r)%nat. induction n; intros [|m]; cbn; auto.
Qed.

Lemma zero_ok : forall kt, elem_ok kt 0%N.
Proof. intros []; cbn [elem_ok]; [split; [lia|exact I]|lia|lia]. Qed.
Lemma pad_ok : forall kt r k, Forall (elem_ok kt) r -> Forall (elem_ok kt) (r ++ repeat 0%N k).
Proof. intros kt r k H. apply Forall_app. split; [exact H|]. apply Forall_forall. intros x Hx. apply repeat_spec in Hx. subst. apply zero_ok. Qed.
Lemma zero_real : forall kt, elem_real kt 0%N = 0.
Proof. intros []; cbn; try reflexivity. Qed.
Lemma l2_pad : forall kt v w k, length v = length w -> elem_l2 kt (v ++ repeat 0%N k) (w ++ repeat 0%N k) = elem_l2 kt v w.
Proof.
  intros kt v. unfold elem_l2, real_sum. induction v as [|x v IH]; intros [|y w] k L; try discriminate; cbn [app combine map fold_right fst snd].
  - induction k as [|k IHk]; [reflexivity|]. cbn [repeat combine map fold_right fst snd]. cbn [app combine map fold_right] in IHk. rewrite IHk. ring.
  - rewrite IH by (injection L; auto). reflexivity.
Qed.
Lemma l2_pos : forall kt v w, 0 <= elem_l2 kt v w.
Proof. intros kt v. unfold elem_l2, real_sum. induction v as [|x v IH]; intros [|y w]; cbn [combine map fold_right fst snd]; try lra. pose proof (IH w). pose proof (sq_nonneg (elem_real kt x - elem_real kt y)). lra. Qed.
Lemma sq_pos : forall kt v, 0 <= elem_sq kt v.
Proof. intros kt v. unfold elem_sq, real_sum. induction v as [|x v IH]; cbn [map fold_right]; [lra|]. pose proof (sq_nonneg (elem_real kt x)). lra. Qed.
Lemma l2_sq : forall kt v w, elem_l2 kt v w <= 2 * elem_sq kt v + 2 * elem_sq kt w.
Proof.
  intros kt v. induction v as [|x v IH]; intros w.
  { change (elem_l2 kt [] w) with 0. pose proof (sq_pos kt []). pose proof (sq_pos kt w). lra. }
  destruct w as [|y w]. { change (elem_l2 kt (x :: v) []) with 0. pose proof (sq_pos kt []). pose proof (sq_pos kt (x :: v)). lra. }
  specialize (IH w). unfold elem_l2, elem_sq, real_sum in *. cbn [combine map fold_right fst snd]. pose proof (sq_nonneg (elem_real kt x + elem_real kt y)) as Q. set (X := elem_real kt x) in *. set (Y := elem_real kt y) in *. replace ((X - Y) ^ 2) with (2 * X ^ 2 + 2 * Y ^ 2 - (X + Y) ^ 2) by ring. lra.
Qed.
Lemma l2_self : forall kt v, elem_l2 kt v v = 0.
Proof. intros kt v. unfold elem_l2, real_sum. induction v as [|x v IH]; cbn [combine map fold_right fst snd]; [reflexivity|]. rewrite IH. ring. Qed.

Lemma max_real : real FLT_MAX = IZR (2 ^ 24 - 1) * bpow radix2 104.
Proof. unfold FLT_MAX. cbn [real]. change (powerRZ 2 104) with (powerRZ 2 104). rewrite <- pw. change (2 ^ 24 - 1)%Z with 16777215%Z. ring. Qed.
Lemma below_max : forall r : f32, DistSpec.finite r -> f32_valid r = true -> real r <= bpow radix2 120 -> flt r FLT_MAX = true.
Proof.
  intros r F V H. apply flt_real; auto; [exact I|]. rewrite max_real. eapply Rle_lt_trans; [exact H|]. change 120%Z with (16 + 104)%Z. rewrite bpow_plus. apply Rmult_lt_compat_r; [apply bpow_gt_0|]. change (bpow radix2 16) with (IZR 65536). apply IZR_lt. lia.
Qed.

(** ** The value *)
Definition fits (kt : ktype) (dim : nat) (r : list N) : Prop :=
  length r = dim /\ Forall (elem_ok kt) r /\ match kt with KFloat => (Z.of_nat dim <= 2 ^ 20)%Z /\ elem_sq kt r <= powerRZ 2 100 | _ => (Z.of_nat dim <= 33024)%Z end.

Lemma round8 : forall dim adim m, (dim <= adim < dim + 8)%nat -> (adim mod 8 = 0)%nat -> (Z.of_nat dim <= 8 * m)%Z -> (Z.of_nat adim <= 8 * m)%Z.
Proof. intros dim adim m H M D. pose proof (Nat.div_mod adim 8 ltac:(lia)). lia. Qed.

Lemma of_Z_error : forall kt dim z, kt <> KFloat -> (0 <= z <= 65025 * Z.of_nat dim)%Z -> (Z.of_nat dim <= 33024)%Z -> Rabs (real (f32_of_Z z) - IZR z) <= dist_err kt dim (IZR z).
Proof.
  intros kt dim z K H D. assert (G : Rabs (real (f32_of_Z z) - IZR z) <= if (dim <=? 258)%nat then 0 else powerRZ 2 (-24) * IZR z).
  { destruct (Nat.leb_spec dim 258) as [S|S].
    - destruct (of_Z_int z ltac:(lia)) as [_ [_ ->]]. rewrite Rminus_diag_eq by reflexivity. rewrite Rabs_R0. lra.
    - apply of_Z_pos. lia. }
  destruct kt; [congruence|exact G|exact G].
Qed.

Lemma code_value : forall kt T F dim adim r r' pr pr', loops_ok T F -> (dim <= adim < dim + 8)%nat -> (adim mod 8 = 0)%nat -> fits kt dim r -> fits kt dim r' -> pr = r ++ repeat 0%N (adim - dim) -> pr' = r' ++ repeat 0%N (adim - dim) ->
  exists x, l2_code kt T F adim pr pr' = Ok x /\ DistSpec.finite x /\ f32_valid x = true /\ flt x FLT_MAX = true /\ Rabs (real x - elem_l2 kt r r') <= dist_err kt dim (elem_l2 kt r r') /\
    (kt <> KFloat -> x = f32_of_Z (sq_dist (map (zelem kt) r) (map (zelem kt) r'))).
Proof.
  intros kt T F dim adim r r' pr pr' HT A M [L [O B]] [L' [O' B']] Er Er'.
  assert (Lp : length pr = adim) by (subst pr; rewrite app_length, repeat_length; lia). assert (Lp' : length pr' = adim) by (subst pr'; rewrite app_length, repeat_length; lia).
  assert (Op : Forall (elem_ok kt) pr) by (subst pr; apply pad_ok, O). assert (Op' : Forall (elem_ok kt) pr') by (subst pr'; apply pad_ok, O').
  assert (Ed : elem_l2 kt pr pr' = elem_l2 kt r r') by (subst pr pr'; apply l2_pad; congruence).
  assert (Bytes : kt <> KFloat -> forall x, (0 <= sq_dist (map (zelem kt) r) (map (zelem kt) r') <= 65025 * Z.of_nat dim)%Z -> (Z.of_nat dim <= 33024)%Z -> x = f32_of_Z (sq_dist (map (zelem kt) r) (map (zelem kt) r')) ->
    DistSpec.finite x /\ f32_valid x = true /\ flt x FLT_MAX = true /\ Rabs (real x - elem_l2 kt r r') <= dist_err kt dim (elem_l2 kt r r')).
  { intros K x Hz D ->. rewrite (vec_zl2 kt r r' K O O'). set (z := sq_dist (map (zelem kt) r) (map (zelem kt) r')) in *. destruct (of_Z_pos z ltac:(lia)) as [_ [Fz [Vz Ez]]]. split; [exact Fz|]. split; [exact Vz|]. split; [|apply of_Z_error; auto].
    apply below_max; auto. apply Rabs_le_inv in Ez. assert (Z0 : 0 <= IZR z <= bpow radix2 32) by (split; [apply (IZR_le 0); lia|rewrite <- (IZR_Zpower radix2 32) by lia; apply IZR_le; change (radix2 ^ 32)%Z with 4294967296%Z; lia]).
    assert (U : powerRZ 2 (-24) <= 1) by (rewrite <- pw; change 1 with (bpow radix2 0); apply bpow_le; lia). apply Rle_trans with (bpow radix2 33); [|apply bpow_le; lia]. change 33%Z with (1 + 32)%Z. rewrite bpow_plus. change (bpow radix2 1) with 2. nra. }
  assert (Zp : forall (f : N -> Z), f 0%N = 0%Z -> sq_dist (map f pr) (map f pr') = sq_dist (map f r) (map f r')).
  { intros f f0. subst pr pr'. rewrite !map_app. assert (Hr : forall k, map f (repeat 0%N k) = repeat 0%Z k) by (intros k; induction k; cbn; [|rewrite f0, IHk]; reflexivity). rewrite Hr. apply sq_dist_pad. rewrite !map_length. congruence. }
  assert (Zb : forall (f : N -> Z) lo, (forall e, elem_ok kt e -> lo <= f e <= lo + 255)%Z -> (0 <= sq_dist (map f r) (map f r') <= 65025 * Z.of_nat dim)%Z).
  { intros f lo Hf. split; [apply sq_dist_nonneg|]. rewrite <- L. rewrite <- (map_length f r). pose proof (sq_dist_le2 (map f r) (map f r') lo (lo + 255)) as Q. replace ((lo + 255 - lo) * (lo + 255 - lo))%Z with 65025%Z in Q by ring. apply Q.
    intros x [Hx|Hx]; apply in_map_iff in Hx; destruct Hx as [e [<- He]]; apply Hf; [rewrite Forall_forall in O; auto|rewrite Forall_forall in O'; auto]. }
  destruct kt; cbn [l2_code].
  - destruct B as [D S]. destruct B' as [_ S']. pose proof (round8 dim adim (2 ^ 17) A M ltac:(lia)) as Da. change (8 * 2 ^ 17)%Z with (2 ^ 20)%Z in Da. destruct (HT adim ltac:(lia)) as [P C].
    set (a := map f32_of_bits pr). set (b := map f32_of_bits pr'). assert (La : length a = adim) by (unfold a; rewrite map_length; exact Lp). assert (Lb : length b = adim) by (unfold b; rewrite map_length; exact Lp').
    pose proof (floats_good _ Op) as Ga. pose proof (floats_good _ Op') as Gb. fold a in Ga. fold b in Gb. assert (Ex : exact_l2 a b = elem_l2 KFloat r r') by (rewrite <- Ed; apply (vec_l2 KFloat pr pr' Op Op')).
    assert (Bx : 0 <= exact_l2 a b <= bpow radix2 102). { rewrite Ex. split; [apply l2_pos|]. eapply Rle_trans; [apply l2_sq|]. rewrite <- pw in S, S'. change 102%Z with (2 + 100)%Z. rewrite bpow_plus. change (bpow radix2 2) with 4. lra. }
    destruct (l2_finite (T adim) (F adim) a b) as [x [Hx Fx]]; auto; [rewrite La; exact P|congruence| |].
    { rewrite <- pw. rewrite La. pose proof (room adim (exact_l2 a b)) as Rm. assert (B1 : bpow radix2 102 <= bpow radix2 110) by (apply bpow_le; lia). specialize (Rm Da ltac:(lra)). eapply Rle_trans; [|exact Rm]. change (exact_l2 a b) with (exact_l2 a b). apply Rplus_le_compat; [right; reflexivity|].
      pose proof tiny_pos. pose proof (pos_INR adim). rewrite plus_INR, mult_INR. change (INR 2) with 2. pose proof (E_ge adim). assert (E adim <= E (adim + 3)) by (unfold E; apply Rle_pow; [pose proof ulp_pos; lra|lia]). change ((1 + ulp) ^ adim) with (E adim). apply Rmult_le_compat; try lra; [apply Rmult_le_pos; lra|]. apply Rmult_le_compat_r; [lra|]. pose proof (pos_INR 3). lra. }
    pose proof (l2_valid _ _ _ _ Ga Gb Hx Fx) as Vx. pose proof (l2_error_simple (T adim) (F adim) a b x ltac:(rewrite La; lia) ltac:(rewrite La; exact P) C ltac:(congruence) Ga Gb Hx Fx) as Er0. rewrite La, Ex in Er0.
    assert (Er1 : Rabs (real x - elem_l2 KFloat r r') <= dist_err KFloat dim (elem_l2 KFloat r r')).
    { eapply Rle_trans; [exact Er0|]. cbn [dist_err]. assert (Hn : INR adim <= INR dim + 7). { replace 7 with (INR 7) by (cbn; lra). rewrite <- plus_INR. apply le_INR. lia. } rewrite <- !pw. pose proof (bpow_gt_0 radix2 (-23)). pose proof (bpow_gt_0 radix2 (-149)). pose proof (l2_pos KFloat r r').
      apply Rplus_le_compat; [|apply Rmult_le_compat_r; lra]. apply Rmult_le_compat_r; [lra|]. apply Rmult_le_compat_r; lra. }
    exists x. split; [exact Hx|]. split; [exact Fx|]. split; [exact Vx|]. split; [|split; [exact Er1|congruence]].
    apply below_max; auto. apply Rabs_le_inv in Er0. rewrite <- Ex in Er0. rewrite <- !pw in Er0.
    assert (N1 : (INR adim + 2) * bpow radix2 (-23) <= 1). { apply Rle_trans with (bpow radix2 21 * bpow radix2 (-23)); [apply Rmult_le_compat_r; [apply bpow_ge_0|]|rewrite <- bpow_plus; change 1 with (bpow radix2 0); apply bpow_le; lia]. rewrite INR_IZR_INZ. apply Rle_trans with (IZR (Z.of_nat adim + 2)); [rewrite plus_IZR; lra|]. rewrite <- (IZR_Zpower radix2 21) by lia. apply IZR_le. change (radix2 ^ 21)%Z with (2 ^ 21)%Z. lia. }
    assert (N2 : INR adim * bpow radix2 (-149) <= 1). { apply Rle_trans with (bpow radix2 21 * bpow radix2 (-149)); [apply Rmult_le_compat_r; [apply bpow_ge_0|]|rewrite <- bpow_plus; change 1 with (bpow radix2 0); apply bpow_le; lia]. rewrite INR_IZR_INZ. rewrite <- (IZR_Zpower radix2 21) by lia. apply IZR_le. change (radix2 ^ 21)%Z with (2 ^ 21)%Z. lia. }
    assert (B102 : 1 <= bpow radix2 102) by (change 1 with (bpow radix2 0); apply bpow_le; lia). apply Rle_trans with (3 * bpow radix2 102); [nra|]. apply Rle_trans with (bpow radix2 2 * bpow radix2 102); [apply Rmult_le_compat_r; [lra|]; change (bpow radix2 2) with 4; lra|]. rewrite <- bpow_plus. apply bpow_le. lia.
  - pose proof (round8 dim adim 4128 A M ltac:(lia)) as Da. pose proof (simd_of T F adim HT ltac:(lia)) as S.
    destruct (l2_int8_exact (T adim) (map int8_val pr) (map int8_val pr')) as [_ Q]; rewrite ?map_length, ?Lp, ?Lp'; auto using ints_int8; try lia.
    rewrite Zp in Q by reflexivity. rewrite Q. eexists. split; [reflexivity|]. assert (Bz : (0 <= sq_dist (map int8_val r) (map int8_val r') <= 65025 * Z.of_nat dim)%Z).
    { apply (Zb int8_val (-128)%Z). intros e He. destruct (zelem_ok KInt8 e ltac:(discriminate) He) as [_ [_ Bz]]. cbn [zelem] in Bz. lia. }
    destruct (Bytes ltac:(discriminate) _ Bz B eq_refl) as [B1 [B2 [B3 B4]]]. split; [exact B1|]. split; [exact B2|]. split; [exact B3|]. split; [exact B4|]. intros _. reflexivity.
  - pose proof (round8 dim adim 4128 A M ltac:(lia)) as Da. pose proof (simd_of T F adim HT ltac:(lia)) as S.
    destruct (l2_uint8_exact (T adim) (map Z.of_N pr) (map Z.of_N pr')) as [_ Q]; rewrite ?map_length, ?Lp, ?Lp'; auto using ints_uint8; try lia.
    rewrite Zp in Q by reflexivity. rewrite Q. eexists. split; [reflexivity|]. assert (Bz : (0 <= sq_dist (map Z.of_N r) (map Z.of_N r') <= 65025 * Z.of_nat dim)%Z).
    { apply (Zb Z.of_N 0%Z). intros e He. destruct (zelem_ok KUint8 e ltac:(discriminate) He) as [_ [_ Bz]]. cbn [zelem] in Bz. lia. }
    destruct (Bytes ltac:(discriminate) _ Bz B eq_refl) as [B1 [B2 [B3 B4]]]. split; [exact B1|]. split; [exact B2|]. split; [exact B3|]. split; [exact B4|]. intros _. reflexivity.
Qed.

Lemma fits_lt : forall kt dim r adim, fits kt dim r -> (dim <= adim < dim + 8)%nat -> (Z.of_nat adim < 2 ^ 31)%Z.
Proof. intros [] dim r adim [_ [_ B]] H; [destruct B as [B _]| |]; lia. Qed.

Lemma mem_value : forall kt T F dim adim r r' v v', loops_ok T F -> fits kt dim r -> fits kt dim r' -> in_mem kt dim adim r v -> in_mem kt dim adim r' v' ->
  Rabs (real (mem_l2 kt T F v v') - elem_l2 kt r r') <= dist_err kt dim (elem_l2 kt r r') /\
  (kt <> KFloat -> mem_l2 kt T F v v' = f32_of_Z (sq_dist (map (zelem kt) r) (map (zelem kt) r'))).
Proof.
  intros kt T F dim adim r r' v v' HT Hr Hr' M M'. pose proof M as [L [A [M8 _]]]. pose proof M' as [L' _].
  unfold mem_l2. rewrite (in_mem_elems _ _ _ _ _ M), (in_mem_elems _ _ _ _ _ M').
  assert (Lp : length (r ++ repeat 0%N (adim - dim)) = adim) by (rewrite app_length, repeat_length; lia). assert (Lp' : length (r' ++ repeat 0%N (adim - dim)) = adim) by (rewrite app_length, repeat_length; lia).
  rewrite Lp, Lp', Nat.eqb_refl. pose proof (fits_lt kt dim r adim Hr A) as Lt. apply Z.ltb_lt in Lt. rewrite Lt.
  destruct (fines_ok kt (r ++ repeat 0%N (adim - dim))) as [_ ->]; [|apply pad_ok, Hr]. destruct (fines_ok kt (r' ++ repeat 0%N (adim - dim))) as [_ ->]; [|apply pad_ok, Hr']. cbn [andb].
  destruct (code_value kt T F dim adim r r' _ _ HT A M8 Hr Hr' eq_refl eq_refl) as [x [-> [_ [_ [-> [E Z]]]]]]. auto.
Qed.

(** ** Loading a vector file *)
Lemma vectors_fits : forall kt dim rows r, vectors_ok kt dim rows -> In r rows -> fits kt dim r.
Proof. intros kt dim rows r [_ [_ [H B]]] Hr. destruct (H r Hr) as [L O]. split; [exact L|]. split; [exact O|]. destruct kt; auto. destruct B; auto. Qed.

Lemma concat_rows_length : forall (rows : list (list N)) dim, (forall r, In r rows -> length r = dim) -> length (concat rows) = (length rows * dim)%nat.
Proof. intros rows dim H. induction rows as [|r rows IH]; [reflexivity|]. cbn [concat length]. rewrite app_length, IH by (intros; apply H; right; auto). rewrite (H r) by (left; auto). lia. Qed.
Lemma concat_rows_nth : forall (rows : list (list N)) dim i j r, (forall r, In r rows -> length r = dim) -> nth_error rows i = Some r -> (j < dim)%nat -> nth_error (concat rows) (i * dim + j) = nth_error r j.
Proof.
  intros rows dim. induction rows as [|s rows IH]; intros i j r H Hi Hj; [destruct i; discriminate|]. cbn [concat]. destruct i as [|i].
  - injection Hi as ->. cbn [Nat.mul Nat.add]. apply nth_error_app1. rewrite (H r) by (left; auto). exact Hj.
  - cbn [nth_error] in Hi. rewrite nth_error_app2 by (rewrite (H s) by (left; auto); lia). rewrite (H s) by (left; auto). replace (S i * dim + j - dim)%nat with (i * dim + j)%nat by lia. apply (IH i j r); auto. intros; apply H; right; auto.
Qed.

Lemma dim_small : forall kt dim rows, vectors_ok kt dim rows -> (Z.of_nat dim <= 2 ^ 20)%Z.
Proof. intros kt dim rows [_ [_ [_ B]]]. destruct kt; [destruct B; auto| |]; lia. Qed.

Lemma size_fits : forall kt dim rows, vectors_ok kt dim rows -> (N.of_nat (length rows) * (N.of_nat dim + 8) * N.of_nat (kwidth kt) + 8 < 2 ^ 64)%N.
Proof.
  intros kt dim rows H. pose proof (dim_small _ _ _ H) as D. destruct H as [_ [Ln _]]. pose proof (kwidth_pos kt) as K. assert (K' : (N.of_nat (kwidth kt) <= 4)%N) by lia. assert (D' : (N.of_nat dim + 8 <= 2 ^ 21)%N) by lia.
  apply N.le_lt_trans with (2 ^ 32 * 2 ^ 21 * 4 + 8)%N; [|reflexivity]. apply N.add_le_mono_r. apply N.mul_le_mono; [apply N.mul_le_mono; lia|lia].
Qed.

Lemma load_rows : forall kt dim rows g1 g2, vectors_ok kt dim rows -> length g1 = 4%nat -> length g2 = 4%nat ->
  exists adim mem, load_aligned_bin (kwidth kt) g1 g2 (vector_file kt dim rows) = Ok (N.of_nat (length rows), N.of_nat dim, adim, mem) /\ length mem = length rows /\ adim = round_up (N.of_nat dim) 8 /\
    forall i r v, nth_error rows i = Some r -> nth_error mem i = Some v -> in_mem kt dim (N.to_nat adim) r v.
Proof.
  intros kt dim rows g1 g2 H G1 G2. pose proof (dim_small _ _ _ H) as D. pose proof (size_fits _ _ _ H) as Sz. pose proof H as [_ [Ln [Hr _]]]. pose proof (kwidth_pos kt) as K.
  assert (Hl : forall r, In r rows -> length r = dim) by (intros r Q; apply Hr, Q). pose proof (concat_rows_length rows dim Hl) as Lc.
  assert (Du : u32_range (N.of_nat dim)) by (unfold u32_range; lia).
  assert (Ru : (round_up (N.of_nat dim) 8 <= N.of_nat dim + 8)%N). { unfold round_up. pose proof (N.div_mod (N.of_nat dim) 8 ltac:(lia)). destruct (N.eqb_spec (N.of_nat dim mod 8) 0); lia. }
  destruct (aligned_spec (kwidth kt) g1 g2 (N.of_nat (length rows)) (N.of_nat dim) (enc_all (kwidth kt) (concat rows)) G1 G2 Ln Du) as [adim [mem [Q [A [M [Lm R]]]]]].
  - rewrite enc_all_length, Lc. lia.
  - eapply N.le_lt_trans; [|exact Sz]. apply N.add_le_mono_r. apply N.mul_le_mono_r. apply N.mul_le_mono_l. exact Ru.
  - exists adim, mem. split; [exact Q|]. split; [lia|]. split; [|].
    + unfold round_up. pose proof (N.div_mod (N.of_nat dim) 8 ltac:(lia)). pose proof (N.div_mod adim 8 ltac:(lia)). pose proof (N.mod_lt (N.of_nat dim) 8 ltac:(lia)). destruct (N.eqb_spec (N.of_nat dim mod 8) 0); lia.
    + intros i r v Hi Hv. destruct (R i v Hv) as [Lv [R1 R2]]. rewrite Nat2N.id in R1, R2. split; [apply Hl; eapply nth_error_In; eauto|]. split; [lia|]. split; [|split; [exact Lv|split; [|exact R2]]].
      * apply Nat2N.inj. rewrite Nat2N.inj_mod, N2Nat.id. exact M.
      * intros j Hj. rewrite R1 by auto. pose proof (concat_rows_nth rows dim i j r Hl Hi Hj) as Hc. destruct (nth_error r j) as [x|] eqn:Ej; [|apply nth_error_None in Ej; rewrite (Hl r) in Ej by (eapply nth_error_In; eauto); lia].
        f_equal. apply file_elem_bin; [exact Hc|]. apply elem_width. destruct (Hr r (nth_error_In _ _ Hi)) as [_ O]. rewrite Forall_forall in O. apply O. eapply nth_error_In; eauto.
Qed.

Lemma queries_of_file : forall kt dim rows g1 g2, vectors_ok kt dim rows -> length g1 = 4%nat /\ is_bytes g1 -> length g2 = 4%nat /\ is_bytes g2 ->
  exists mem, queries_in (kwidth kt) g1 g2 (vector_file kt dim rows) (N.of_nat (length rows)) (round_up (N.of_nat dim) 8) mem /\ length mem = length rows /\
    forall i r v, nth_error rows i = Some r -> nth_error mem i = Some v -> in_mem kt dim (N.to_nat (round_up (N.of_nat dim) 8)) r v.
Proof.
  intros kt dim rows g1 g2 H G1 G2. destruct (load_rows kt dim rows g1 g2 H (proj1 G1) (proj1 G2)) as [adim [mem [Q [L [-> R]]]]]. exists mem. split; [|split; [exact L|exact R]].
  split; [destruct kt; cbn; unfold width; cbn; auto|]. split; [exact G1|]. split; [exact G2|]. exists (bin_file (kwidth kt) (N.of_nat (length rows)) (N.of_nat dim) (concat rows)), (N.of_nat dim). split; [reflexivity|]. split; [|split; [exact Q|apply size_fits, H]].
  unfold bin_file. apply Forall_app. split; [apply enc_bytes|]. apply Forall_app. split; [apply enc_bytes|]. apply enc_all_bytes.
Qed.

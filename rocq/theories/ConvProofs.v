(** * The conversion of integers to float: positive and monotone. *)
From Coq Require Import ZArith Bool Lia Floats.SpecFloat.
From Verif Require Import Float32.
Local Open Scope Z_scope.

Lemma iter_pos_comm : forall (A : Type) (f : A -> A) p x, iter_pos f p (f x) = f (iter_pos f p x).
Proof. intros A f. induction p as [p IH|p IH|]; intros x; cbn; [now rewrite !IH|now rewrite !IH|reflexivity]. Qed.

Lemma iter_pos_succ : forall (A : Type) (f : A -> A) p x, iter_pos f (Pos.succ p) x = f (iter_pos f p x).
Proof.
  intros A f. induction p as [p IH|p IH|]; intros x; cbn; [|now rewrite !iter_pos_comm|reflexivity].
  rewrite !IH. now rewrite !iter_pos_comm.
Qed.

(** What [p] right shifts leave of [z]: the quotient by 2^p and where the remainder lies. *)
Definition shifted (z : Z) (p : positive) (r : shr_record) : Prop :=
  shr_m r = z / 2 ^ Zpos p /\
  let rem := z mod 2 ^ Zpos p in let half := 2 ^ (Zpos p - 1) in
  (shr_r r = true <-> half <= rem) /\ (shr_s r = true <-> rem <> 0 /\ rem <> half).

Lemma shr_1_step : forall m r s, 0 <= m ->
  shr_1 (Build_shr_record m r s) = Build_shr_record (m / 2) (Z.odd m) (r || s).
Proof.
  intros m r s Hm. unfold shr_1. destruct m as [|[p|p|]|p]; try lia; cbn [Z.odd]; try reflexivity; f_equal; symmetry.
  - rewrite Pos2Z.inj_xI. rewrite Z.mul_comm, Z.div_add_l by lia. reflexivity || (change (1 / 2) with 0; lia).
  - rewrite Pos2Z.inj_xO, Z.mul_comm, Z.div_mul by lia. reflexivity.
Qed.

Lemma shifted_iter : forall z p, 0 <= z -> shifted z p (iter_pos shr_1 p (Build_shr_record z false false)).
Proof.
  intros z p Hz. revert p. apply Pos.peano_ind.
  - cbn [iter_pos]. rewrite shr_1_step by auto. unfold shifted. cbn [shr_m shr_r shr_s]. change (2 ^ 1) with 2. change (2 ^ (1 - 1)) with 1. split; [reflexivity|].
    rewrite Zodd_mod. pose proof (Z.mod_pos_bound z 2 ltac:(lia)). split; [|cbn [orb]; split; [discriminate|lia]]. rewrite <- Zeq_is_eq_bool. lia.
  - intros p [Hm [Hr Hs]]. rewrite iter_pos_succ. destruct (iter_pos shr_1 p _) as [m r s]. cbn [shr_m shr_r shr_s] in *.
    assert (P : 0 < 2 ^ Zpos p) by (apply Z.pow_pos_nonneg; lia). assert (Hq : 0 <= m) by (rewrite Hm; apply Z.div_pos; lia). rewrite shr_1_step by auto.
    unfold shifted. cbn [shr_m shr_r shr_s]. rewrite Pos2Z.inj_succ. replace (Z.succ (Zpos p) - 1) with (Zpos p) by lia. rewrite Z.pow_succ_r by lia.
    assert (EP : 2 ^ Zpos p = 2 * 2 ^ (Zpos p - 1)) by (rewrite <- Z.pow_succ_r by lia; f_equal; lia).
    split; [rewrite Hm, Z.div_div by lia; f_equal; lia|].
    assert (ER : z mod (2 * 2 ^ Zpos p) = z mod 2 ^ Zpos p + 2 ^ Zpos p * (m mod 2)). { rewrite Hm, (Z.mul_comm 2), Z.rem_mul_r by lia. reflexivity. }
    rewrite ER. pose proof (Z.mod_pos_bound z (2 ^ Zpos p) P) as B. pose proof (Z.mod_pos_bound m 2 ltac:(lia)) as B2.
    set (rem := z mod 2 ^ Zpos p) in *. set (h := 2 ^ (Zpos p - 1)) in *. rewrite EP in *. rewrite Zodd_mod, <- Zeq_is_eq_bool. split.
    + assert (m mod 2 = 0 \/ m mod 2 = 1) as [E|E] by lia; rewrite E; lia.
    + rewrite orb_true_iff, Hr, Hs. assert (m mod 2 = 0 \/ m mod 2 = 1) as [E|E] by lia; rewrite E; lia.
Qed.

(** Rounding z / 2^p to the nearest integer, ties to even. *)
Definition round_ne (z : Z) (p : positive) : Z :=
  let q := z / 2 ^ Zpos p in let rem := z mod 2 ^ Zpos p in let half := 2 ^ (Zpos p - 1) in
  if rem <? half then q else if rem =? half then (if Z.even q then q else q + 1) else q + 1.

Lemma round_shifted : forall z p r, 0 <= z -> shifted z p r -> round_nearest_even (shr_m r) (loc_of_shr_record r) = round_ne z p.
Proof.
  intros z p [m r s] Hz [Hm [Hr Hs]]. cbn [shr_m shr_r shr_s] in *. unfold round_ne. rewrite <- Hm. cbn zeta in *.
  set (rem := z mod 2 ^ Zpos p) in *. set (h := 2 ^ (Zpos p - 1)) in *.
  assert (Hh : 0 < h) by (unfold h; apply Z.pow_pos_nonneg; lia).
  destruct (Z.ltb_spec rem h) as [H|H]; [|destruct (Z.eqb_spec rem h) as [H'|H']].
  - assert (r = false) by (destruct r; [lia|auto]). subst r. destruct s; reflexivity.
  - assert (r = true) by (apply Hr; lia). assert (s = false) by (destruct s; [|auto]; destruct (proj1 Hs eq_refl); lia). subst. reflexivity.
  - assert (r = true) by (apply Hr; lia). assert (s = true) by (apply Hs; lia). subst. reflexivity.
Qed.

Lemma round_ne_mono : forall z z' p, 0 <= z <= z' -> round_ne z p <= round_ne z' p.
Proof.
  intros z z' p H. assert (P : 0 < 2 ^ Zpos p) by (apply Z.pow_pos_nonneg; lia).
  pose proof (Z.div_mod z (2 ^ Zpos p) ltac:(lia)) as D. pose proof (Z.div_mod z' (2 ^ Zpos p) ltac:(lia)) as D'.
  pose proof (Z.div_le_mono z z' (2 ^ Zpos p) P ltac:(lia)) as Q. unfold round_ne.
  set (q := z / 2 ^ Zpos p) in *. set (q' := z' / 2 ^ Zpos p) in *. set (m := z mod 2 ^ Zpos p) in *. set (m' := z' mod 2 ^ Zpos p) in *.
  cbn zeta. set (h := 2 ^ (Zpos p - 1)). destruct (Z.eq_dec q q') as [E|E].
  - rewrite <- E in *. assert (m <= m') by lia.
    destruct (Z.ltb_spec m h), (Z.ltb_spec m' h), (Z.eqb_spec m h), (Z.eqb_spec m' h); destruct (Z.even q); lia.
  - assert (q + 1 <= q') by lia.
    destruct (Z.ltb_spec m h), (Z.ltb_spec m' h), (Z.eqb_spec m h), (Z.eqb_spec m' h); destruct (Z.even q), (Z.even q'); lia.
Qed.

Lemma round_ne_bounds : forall z p, 0 <= z -> z / 2 ^ Zpos p <= round_ne z p <= z / 2 ^ Zpos p + 1.
Proof. intros z p H. unfold round_ne. cbn zeta. destruct (_ <? _); [lia|]. destruct (_ =? _); [|lia]. destruct (Z.even _); lia. Qed.

Lemma digits2_bounds : forall p, 2 ^ (Zpos (digits2_pos p) - 1) <= Zpos p < 2 ^ Zpos (digits2_pos p).
Proof.
  induction p as [p IH|p IH|]; cbn [digits2_pos].
  - rewrite Pos2Z.inj_succ, Z.pow_succ_r by lia. replace (Z.succ (Zpos (digits2_pos p)) - 1) with (Z.succ (Zpos (digits2_pos p) - 1)) by lia. rewrite Z.pow_succ_r by lia. lia.
  - rewrite Pos2Z.inj_succ, Z.pow_succ_r by lia. replace (Z.succ (Zpos (digits2_pos p)) - 1) with (Z.succ (Zpos (digits2_pos p) - 1)) by lia. rewrite Z.pow_succ_r by lia. lia.
  - cbn. lia.
Qed.

Lemma digits2_unique : forall z d, 0 < d -> 2 ^ (d - 1) <= z < 2 ^ d -> Zdigits2 z = d.
Proof.
  intros z d Hd H. destruct z as [|p|p].
  - pose proof (Z.pow_pos_nonneg 2 (d - 1) ltac:(lia) ltac:(lia)). lia.
  - cbn [Zdigits2]. pose proof (digits2_bounds p) as B. set (d' := Zpos (digits2_pos p)) in *.
    assert (d - 1 < d') by (apply (Z.pow_lt_mono_r_iff 2); lia). assert (d' - 1 < d) by (apply (Z.pow_lt_mono_r_iff 2); lia). lia.
  - pose proof (Z.pow_pos_nonneg 2 (d - 1) ltac:(lia) ltac:(lia)). lia.
Qed.

(** ** The result of the conversion *)
Lemma fexp_int : forall d, -100 <= d -> fexp 24 128 (d + 0) = d - 24.
Proof. intros d H. unfold fexp, emin. lia. Qed.

(** Up to 24 binary digits the conversion is exact. *)
Lemma conv_small : forall p, Zpos (digits2_pos p) <= 24 ->
  exists m, f32_of_Z (Zpos p) = S754_finite false m (Zpos (digits2_pos p) - 24) /\ Zpos m = Zpos p * 2 ^ (24 - Zpos (digits2_pos p)).
Proof.
  intros p Hd. unfold f32_of_Z, binary_normalize, binary_round, prec, emax. rewrite fexp_int by lia. set (d := Zpos (digits2_pos p)) in *.
  assert (Hd1 : 1 <= d) by (unfold d; lia). pose proof (digits2_bounds p) as B. fold d in B.
  assert (SH : exists m, shl_align p 0 (d - 24) = (m, d - 24) /\ Zpos m = Zpos p * 2 ^ (24 - d)).
  { unfold shl_align. rewrite Z.sub_0_r. destruct (d - 24) as [|q|q] eqn:E; [|lia|].
    - exists p. split; [reflexivity|]. replace (24 - d) with 0 by lia. lia.
    - exists (shift_pos q p). split; [reflexivity|]. rewrite shift_pos_correct. replace (24 - d) with (Zpos q) by lia. rewrite Z.pow_pos_fold. lia. }
  destruct SH as [m [E Em]]. rewrite E. exists m. split; [|exact Em].
  assert (Bm : 2 ^ 23 <= Zpos m < 2 ^ 24).
  { rewrite Em. assert (E1 : 2 ^ 24 = 2 ^ d * 2 ^ (24 - d)) by (rewrite <- Z.pow_add_r by lia; f_equal; lia). assert (E2 : 2 ^ 23 = 2 ^ (d - 1) * 2 ^ (24 - d)) by (rewrite <- Z.pow_add_r by lia; f_equal; lia).
    pose proof (Z.pow_pos_nonneg 2 (24 - d) ltac:(lia) ltac:(lia)). rewrite E1, E2. split; [apply Z.mul_le_mono_nonneg_r; lia|apply Z.mul_lt_mono_pos_r; lia]. }
  unfold binary_round_aux, shr_fexp. rewrite (digits2_unique (Zpos m) 24) by (auto; lia).
  replace (fexp 24 128 (24 + (d - 24)) - (d - 24)) with 0 by (unfold fexp, emin; lia). cbn [shr shr_record_of_loc loc_of_shr_record shr_m round_nearest_even].
  rewrite (digits2_unique (Zpos m) 24) by (auto; lia).
  replace (fexp 24 128 (24 + (d - 24)) - (d - 24)) with 0 by (unfold fexp, emin; lia). cbn [shr shr_m]. rewrite (proj2 (Z.leb_le (d - 24) (128 - 24))) by lia. reflexivity.
Qed.

(** Beyond, the leading 24 digits, rounded. *)
Lemma conv_large : forall p q, Zpos (digits2_pos p) = 24 + Zpos q -> Zpos q <= 100 ->
  (round_ne (Zpos p) q < 2 ^ 24 /\ f32_of_Z (Zpos p) = S754_finite false (Z.to_pos (round_ne (Zpos p) q)) (Zpos q)) \/
  (round_ne (Zpos p) q = 2 ^ 24 /\ f32_of_Z (Zpos p) = S754_finite false 8388608 (Zpos q + 1)).
Proof.
  intros p q Hd Hq. pose proof (digits2_bounds p) as B. rewrite Hd in B.
  assert (F : f32_of_Z (Zpos p) = let '(mrs, e) := shr_fexp 24 128 (round_ne (Zpos p) q) (Zpos q) loc_Exact in
      match shr_m mrs with Z0 => S754_zero false | Zpos m => if e <=? 128 - 24 then S754_finite false m e else S754_infinity false | Zneg _ => S754_nan end).
  { unfold f32_of_Z, binary_normalize, binary_round, prec, emax. rewrite fexp_int by lia. rewrite Hd. replace (24 + Zpos q - 24) with (Zpos q) by lia. unfold shl_align. rewrite Z.sub_0_r.
    unfold binary_round_aux. unfold shr_fexp at 1. cbn [Zdigits2]. rewrite Hd. replace (fexp 24 128 (24 + Zpos q + 0) - 0) with (Zpos q) by (unfold fexp, emin; lia).
    cbn [shr shr_record_of_loc]. rewrite (round_shifted (Zpos p) q _ ltac:(lia) (shifted_iter (Zpos p) q ltac:(lia))). reflexivity. }
  rewrite F.
  assert (P : 0 < 2 ^ Zpos q) by (apply Z.pow_pos_nonneg; lia).
  assert (E1 : 2 ^ (24 + Zpos q) = 2 ^ 24 * 2 ^ Zpos q) by (apply Z.pow_add_r; lia). assert (E2 : 2 ^ (24 + Zpos q - 1) = 2 ^ 23 * 2 ^ Zpos q) by (rewrite <- Z.pow_add_r by lia; f_equal; lia).
  rewrite E1, E2 in B. assert (Q : 2 ^ 23 <= Zpos p / 2 ^ Zpos q < 2 ^ 24). { split; [apply Z.div_le_lower_bound; lia|apply Z.div_lt_upper_bound; lia]. }
  pose proof (round_ne_bounds (Zpos p) q ltac:(lia)) as R. set (rn := round_ne (Zpos p) q) in *. clearbody rn.
  destruct (Z.eq_dec rn (2 ^ 24)) as [E|E].
  - right. split; [auto|]. rewrite E. unfold shr_fexp. rewrite (digits2_unique (2 ^ 24) 25) by (cbn; lia).
    replace (fexp 24 128 (25 + Zpos q) - Zpos q) with 1 by (unfold fexp, emin; lia). vm_compute (shr_record_of_loc (2 ^ 24) loc_Exact). cbn [shr iter_pos shr_1 shr_m].
    rewrite (proj2 (Z.leb_le (Zpos q + 1) (128 - 24))) by lia. reflexivity.
  - left. split; [lia|]. unfold shr_fexp. rewrite (digits2_unique rn 24) by (cbn; lia).
    replace (fexp 24 128 (24 + Zpos q) - Zpos q) with 0 by (unfold fexp, emin; lia). cbn [shr shr_record_of_loc shr_m].
    destruct rn as [|m|m]; [lia| |lia]. rewrite (proj2 (Z.leb_le (Zpos q) (128 - 24))) by lia. reflexivity.
Qed.

(** The conversion of a positive integer is a positive number. *)
Lemma conv_pos : forall z, 0 < z < 2 ^ 64 -> flt f32_zero (f32_of_Z z) = true.
Proof.
  intros z H. destruct z as [|p|p]; try lia. pose proof (digits2_bounds p) as B. set (d := Zpos (digits2_pos p)) in *.
  assert (d - 1 < 64) by (apply (Z.pow_lt_mono_r_iff 2); lia).
  destruct (Z_le_gt_dec d 24) as [L|G].
  - destruct (conv_small p L) as [m [E _]]. rewrite E. reflexivity.
  - destruct (d - 24) as [|q|q] eqn:E; try lia. destruct (conv_large p q ltac:(fold d; lia) ltac:(lia)) as [[_ E']|[_ E']]; rewrite E'; reflexivity.
Qed.

Lemma conv_zero : f32_of_Z 0 = f32_zero. Proof. reflexivity. Qed.

(** Its shape: 24 digits and the exponent they need. *)
Lemma conv_shape : forall p, Zpos p < 2 ^ 64 -> exists m e, f32_of_Z (Zpos p) = S754_finite false m e /\ 2 ^ 23 <= Zpos m /\
  Zpos (digits2_pos p) - 24 <= e <= Zpos (digits2_pos p) - 23 /\ (e = Zpos (digits2_pos p) - 23 -> Zpos m = 2 ^ 23).
Proof.
  intros p H. pose proof (digits2_bounds p) as B. set (d := Zpos (digits2_pos p)) in *.
  assert (d - 1 < 64) by (apply (Z.pow_lt_mono_r_iff 2); lia).
  destruct (Z_le_gt_dec d 24) as [L|G].
  - destruct (conv_small p L) as [m [E Em]]. exists m, (d - 24). fold d in Em. split; [exact E|]. split; [|lia].
    rewrite Em. assert (1 <= d) by (unfold d; lia). assert (E2 : 2 ^ 23 = 2 ^ (d - 1) * 2 ^ (24 - d)) by (rewrite <- Z.pow_add_r by lia; f_equal; lia).
    rewrite E2. apply Z.mul_le_mono_nonneg_r; [apply Z.pow_nonneg|]; lia.
  - destruct (d - 24) as [|q|q] eqn:E; try lia. assert (Hd : d = 24 + Zpos q) by lia.
    destruct (conv_large p q Hd ltac:(lia)) as [[R E']|[R E']].
    + exists (Z.to_pos (round_ne (Zpos p) q)), (Zpos q). split; [auto|]. rewrite Hd in B.
      assert (P : 0 < 2 ^ Zpos q) by (apply Z.pow_pos_nonneg; lia). assert (E2 : 2 ^ (24 + Zpos q - 1) = 2 ^ 23 * 2 ^ Zpos q) by (rewrite <- Z.pow_add_r by lia; f_equal; lia).
      rewrite E2 in B. assert (2 ^ 23 <= Zpos p / 2 ^ Zpos q) by (apply Z.div_le_lower_bound; lia).
      pose proof (round_ne_bounds (Zpos p) q ltac:(lia)). rewrite Z2Pos.id by lia. lia.
    + exists 8388608%positive, (Zpos q + 1). split; [auto|]. lia.
Qed.

Lemma fle_finite : forall m e m' e', (e < e' \/ (e = e' /\ Zpos m <= Zpos m')) -> fle (S754_finite false m e) (S754_finite false m' e') = true.
Proof.
  intros m e m' e' H. unfold fle, SFleb, SFcompare. destruct (Z.compare_spec e e') as [E|E|E]; try lia.
  fold (Pos.compare m m'). destruct (Pos.compare_spec m m'); try reflexivity. lia.
Qed.

(** Larger integers do not convert to smaller floats. *)
Lemma conv_mono : forall z z', 0 <= z <= z' -> z' < 2 ^ 64 -> fle (f32_of_Z z) (f32_of_Z z') = true.
Proof.
  intros z z' H H'. destruct (Z.eq_dec z 0) as [E|E].
  { subst z. rewrite conv_zero. destruct (Z.eq_dec z' 0) as [->|]; [reflexivity|]. apply flt_fle, conv_pos. lia. }
  destruct z as [|p|p]; try lia. destruct z' as [|p'|p']; try lia.
  destruct (conv_shape p ltac:(lia)) as [m [e [Ec [Hm [He Hc]]]]]. destruct (conv_shape p' ltac:(lia)) as [m' [e' [Ec' [Hm' [He' Hc']]]]].
  pose proof (digits2_bounds p) as B. pose proof (digits2_bounds p') as B'. set (d := Zpos (digits2_pos p)) in *. set (d' := Zpos (digits2_pos p')) in *.
  assert (d - 1 < d') by (apply (Z.pow_lt_mono_r_iff 2); lia). assert (d' - 1 < 64) by (apply (Z.pow_lt_mono_r_iff 2); lia).
  destruct (Z.eq_dec d d') as [Ed|Ed].
  - destruct (Z_le_gt_dec d 24) as [L|G].
    + destruct (conv_small p L) as [n [E1 En]]. destruct (conv_small p' ltac:(fold d'; lia)) as [n' [E1' En']]. fold d in E1, En. fold d' in E1', En'.
      rewrite E1, E1'. apply fle_finite. right. split; [lia|]. rewrite En, En', Ed. apply Z.mul_le_mono_nonneg_r; [apply Z.pow_nonneg|]; lia.
    + destruct (d - 24) as [|q|q] eqn:Eq; try lia. pose proof (round_ne_mono (Zpos p) (Zpos p') q ltac:(lia)) as R.
      pose proof (round_ne_bounds (Zpos p) q ltac:(lia)) as Rb.
      destruct (conv_large p q ltac:(fold d; lia) ltac:(lia)) as [[R1 E1]|[R1 E1]]; destruct (conv_large p' q ltac:(fold d'; lia) ltac:(lia)) as [[R2 E2]|[R2 E2]]; rewrite E1, E2; apply fle_finite.
      * right. split; [auto|]. rewrite E1 in Ec. injection Ec as <- <-. rewrite E2 in Ec'. injection Ec' as <- <-.
        assert (0 < round_ne (Zpos p) q). { destruct (round_ne (Zpos p) q); [exfalso; cbn in Hm; lia|lia|exfalso; cbn in Hm; lia]. } rewrite !Z2Pos.id by lia. exact R.
      * left. lia.
      * lia.
      * right. lia.
  - rewrite Ec, Ec'. apply fle_finite. destruct (Z.eq_dec e e') as [Ee|Ee]; [right|left; lia]. split; [auto|]. rewrite Hc by lia. exact Hm'.
Qed.

(** * Floats as 32-bit words, and the arithmetic operations give floats.

    A C++ float is a 32-bit word.  [bits_of_f32] is the word of a float (a NaN gets the
    quiet NaN word); reading the word back gives the float, for every valid float, and
    the results of +, -, *, / and of the conversion from integers are valid. *)
From Coq Require Import ZArith NArith Bool Lia Floats.SpecFloat.
From Verif Require Import Float32 Bytes ConvProofs DivFacts.
Local Open Scope Z_scope.

Definition sign_bit (s : bool) : N := if s then 2147483648%N else 0%N.

(** The 32 bits of a float (IEEE-754 binary32). *)
Definition bits_of_f32 (x : f32) : N :=
  match x with
  | S754_zero s => sign_bit s
  | S754_infinity s => (sign_bit s + 2139095040)%N
  | S754_nan => 2143289344%N
  | S754_finite s m e =>
      if (Npos m <? 8388608)%N then (sign_bit s + Npos m)%N
      else (sign_bit s + Z.to_N (e + 150) * 8388608 + (Npos m - 8388608))%N
  end.

Lemma digits_range : forall m s e, f32_valid (S754_finite s m e) = true ->
  0 < Zpos m < 2 ^ 24 /\ -149 <= e <= 104 /\ (e = -149 \/ 2 ^ 23 <= Zpos m).
Proof.
  intros m s e H. pose proof (valid_finite s m e H) as E. unfold f32_valid, valid_binary, bounded in H.
  apply andb_true_iff in H. destruct H as [_ H]. apply Zle_bool_imp_le in H. unfold emax, prec in H.
  destruct (digits2_bounds m) as [L U]. set (d := Zpos (digits2_pos m)) in *.
  assert (D : 0 < d) by (unfold d; lia). assert (d <= 24) by lia.
  assert (2 ^ d <= 2 ^ 24) by (apply Z.pow_le_mono_r; lia).
  split; [lia|]. split; [lia|]. destruct (Z.eq_dec e (-149)) as [|Ne]; [left; auto|right].
  assert (Ed : d = 24) by lia. rewrite Ed in L. exact L.
Qed.

(** Splitting a word into its three fields. *)
Lemma fields : forall s e m, (e < 256)%N -> (m < 8388608)%N ->
  let b := (sign_bit s + e * 8388608 + m)%N in
  (b < 2 ^ 32)%N /\ N.testbit b 31 = s /\ ((b / 2 ^ 23) mod 256 = e)%N /\ (b mod 2 ^ 23 = m)%N.
Proof.
  intros s e m He Hm b. change (2 ^ 32)%N with 4294967296%N. change (2 ^ 23)%N with 8388608%N.
  assert (Q : (b / 8388608 = (if s then 256 else 0) + e)%N).
  { symmetry. apply (N.div_unique _ _ _ m); [auto|]. unfold b, sign_bit. destruct s; lia. }
  split; [unfold b, sign_bit; destruct s; lia|]. split; [|split].
  - rewrite N.testbit_odd, N.shiftr_div_pow2. replace (b / 2 ^ 31)%N with (if s then 1 else 0)%N; [destruct s; reflexivity|].
    change (2 ^ 31)%N with 2147483648%N. apply (N.div_unique _ _ _ (e * 8388608 + m)); unfold b, sign_bit; destruct s; lia.
  - rewrite Q. destruct s; [|rewrite N.add_0_l; apply N.mod_small; auto].
    symmetry. apply (N.mod_unique _ _ 1); lia.
  - symmetry. apply (N.mod_unique _ _ ((if s then 256 else 0) + e)); [auto|]. unfold b, sign_bit. destruct s; lia.
Qed.

(** Reading back the word of a float gives the float. *)
Lemma f32_of_bits_of_f32 : forall x, f32_valid x = true ->
  f32_of_bits (bits_of_f32 x) = x /\ (bits_of_f32 x < 2 ^ 32)%N.
Proof.
  intros x V. destruct x as [s|s| |s m e].
  - destruct s; vm_compute; auto.
  - destruct s; vm_compute; auto.
  - vm_compute; auto.
  - destruct (digits_range m s e V) as [M [E C]]. cbn [bits_of_f32].
    change (2 ^ 24) with 16777216 in M. change (2 ^ 23) with 8388608 in C.
    destruct (N.ltb_spec (Npos m) 8388608) as [L|L].
    + assert (e = -149) as -> by (destruct C as [?|C]; [auto|lia]).
      destruct (fields s 0 (Npos m) ltac:(lia) L) as [F1 [F2 [F3 F4]]].
      rewrite N.mul_0_l, N.add_0_r in F1, F2, F3, F4. split; [|exact F1].
      unfold f32_of_bits. rewrite F2, F3, F4. reflexivity.
    + set (k := Z.to_N (e + 150)). assert (K : (1 <= k <= 254)%N) by (unfold k; lia).
      destruct (fields s k (Npos m - 8388608) ltac:(lia) ltac:(lia)) as [F1 [F2 [F3 F4]]]. split; [|exact F1].
      unfold f32_of_bits. rewrite F2, F3, F4.
      destruct (N.eqb_spec k 0); [lia|]. destruct (N.eqb_spec k 255); [lia|].
      change (2 ^ 23)%N with 8388608%N. replace (Npos m - 8388608 + 8388608)%N with (Npos m) by lia.
      f_equal. unfold k. lia.
Qed.

(** ** Every word is a valid float *)

Lemma digits_small : forall m, Zpos m < 2 ^ 24 -> Zpos (digits2_pos m) <= 24.
Proof.
  intros m H. destruct (digits2_bounds m) as [L _]. destruct (Z.le_gt_cases (Zpos (digits2_pos m)) 24) as [|G]; auto.
  assert (2 ^ 24 <= 2 ^ (Zpos (digits2_pos m) - 1)) by (apply Z.pow_le_mono_r; lia). lia.
Qed.

Lemma valid_intro : forall s m e, Zpos m < 2 ^ 24 -> -149 <= e <= 104 -> (e = -149 \/ 2 ^ 23 <= Zpos m) ->
  f32_valid (S754_finite s m e) = true.
Proof.
  intros s m e M E C. unfold f32_valid, valid_binary, bounded, canonical_mantissa. apply andb_true_iff. split.
  - apply Zeq_is_eq_bool. rewrite fexp_val. pose proof (digits_small m M) as D. destruct C as [->|C]; [lia|].
    assert (Ed : Zdigits2 (Zpos m) = 24) by (apply digits2_unique; lia). cbn [Zdigits2] in Ed. lia.
  - apply Zle_imp_le_bool. unfold emax, prec. lia.
Qed.

Lemma f32_of_bits_valid : forall b, f32_valid (f32_of_bits b) = true.
Proof.
  intros b. unfold f32_of_bits. set (s := N.testbit b 31). set (e := ((b / 2 ^ 23) mod 256)%N). set (m := (b mod 2 ^ 23)%N).
  assert (Hm : (m < 2 ^ 23)%N) by (apply N.mod_lt; discriminate). assert (He : (e < 256)%N) by (apply N.mod_lt; discriminate).
  change (2 ^ 23)%N with 8388608%N in *. destruct (N.eqb_spec e 0) as [E0|E0].
  - destruct m as [|p]; [reflexivity|]. apply valid_intro; [change (2 ^ 24) with 16777216; lia|lia|auto].
  - destruct (N.eqb_spec e 255); [destruct (m =? 0)%N; reflexivity|].
    destruct (m + 8388608)%N as [|p] eqn:Ep; [reflexivity|].
    apply valid_intro; [change (2 ^ 24) with 16777216; lia|lia|right; change (2 ^ 23) with 8388608; lia].
Qed.

(** ** Rounding gives a valid float *)

Lemma shift_m : forall m l p, 0 <= m -> shr_m (iter_pos shr_1 p (shr_record_of_loc m l)) = m / 2 ^ Zpos p.
Proof.
  intros m l p Hm. revert p. apply Pos.peano_ind.
  - cbn [iter_pos]. destruct (shr_record_of_loc m l) as [m0 r s] eqn:E. assert (m0 = m) by (destruct l as [|[]]; cbn in E; congruence). subst.
    rewrite shr_1_step by auto. reflexivity.
  - intros p IH. rewrite iter_pos_succ. destruct (iter_pos shr_1 p _) as [m0 r s]. cbn [shr_m] in IH. subst m0.
    assert (P : 0 < 2 ^ Zpos p) by (apply Z.pow_pos_nonneg; lia).
    rewrite shr_1_step by (apply Z.div_pos; lia). cbn [shr_m]. rewrite Z.div_div, Pos2Z.inj_succ, Z.pow_succ_r by lia. f_equal. lia.
Qed.

Lemma Zdigits2_bound : forall m, 0 <= m -> m < 2 ^ Zdigits2 m /\ (0 < m -> 2 ^ (Zdigits2 m - 1) <= m) /\ 0 <= Zdigits2 m.
Proof.
  intros [|m|m] H; [cbn; lia| |lia]. cbn [Zdigits2]. destruct (digits2_bounds m). lia.
Qed.

(** A mantissa and exponent after the first alignment. *)
Definition aligned_me (m e : Z) : Prop := 0 <= m < 2 ^ 24 /\ -149 <= e /\ (e = -149 \/ 2 ^ 23 <= m).

Lemma shr_fexp_aligned : forall m e l, 0 <= m -> e <= Z.max (Zdigits2 m + e - 24) (-149) ->
  aligned_me (shr_m (fst (shr_fexp prec emax m e l))) (snd (shr_fexp prec emax m e l)).
Proof.
  intros m e l Hm He. unfold shr_fexp. rewrite fexp_val. destruct (Zdigits2_bound m Hm) as [U [L D]].
  set (d := Zdigits2 m) in *. set (f := Z.max (d + e - 24) (-149)) in *. unfold aligned_me.
  assert (Em : shr_m (shr_record_of_loc m l) = m) by (destruct l as [|[]]; reflexivity).
  destruct (f - e) as [|p|p] eqn:Ep; [| |lia]; cbn [shr fst snd].
  - rewrite Em. assert (f = e) by lia. assert (d <= 24) by lia.
    assert (2 ^ d <= 2 ^ 24) by (apply Z.pow_le_mono_r; lia). split; [lia|]. split; [lia|].
    destruct (Z.eq_dec e (-149)); [auto|right]. assert (d = 24) by lia.
    assert (0 < m) by (destruct (Z.eq_dec m 0); [subst m; cbn in d; unfold d in *; lia|lia]). replace 23 with (d - 1) by lia. auto.
  - rewrite shift_m by auto. assert (P : 0 < 2 ^ Zpos p) by (apply Z.pow_pos_nonneg; lia).
    assert (Hf : e + Zpos p = f) by lia. rewrite Hf. split; [split; [apply Z.div_pos; lia|]|].
    + apply Z.div_lt_upper_bound; [lia|]. destruct (Z.le_gt_cases (Zpos p) d) as [C|C].
      * rewrite <- Z.pow_add_r by lia. assert (2 ^ d <= 2 ^ (Zpos p + 24)) by (apply Z.pow_le_mono_r; lia). lia.
      * assert (2 ^ d <= 2 ^ Zpos p) by (apply Z.pow_le_mono_r; lia). change (2 ^ 24) with 16777216. lia.
    + split; [unfold f; lia|]. destruct (Z.eq_dec f (-149)); [auto|right]. assert (d - Zpos p = 24) by lia.
      assert (0 < m) by (destruct (Z.eq_dec m 0); [subst m; cbn in d; unfold d in *; lia|lia]).
      apply Z.div_le_lower_bound; [lia|]. rewrite <- Z.pow_add_r by lia. replace (Zpos p + 23) with (d - 1) by lia. auto.
Qed.

Lemma round_step : forall m l, m <= round_nearest_even m l <= m + 1.
Proof. intros m [|[]]; cbn; try lia. destruct (Z.even m); lia. Qed.

Lemma round_aux_valid : forall s m e l, 0 <= m -> e <= Z.max (Zdigits2 m + e - 24) (-149) ->
  f32_valid (binary_round_aux prec emax s m e l) = true.
Proof.
  intros s m e l Hm He. unfold binary_round_aux. pose proof (shr_fexp_aligned m e l Hm He) as A.
  destruct (shr_fexp prec emax m e l) as [mrs e1]. cbn [fst snd] in A. destruct A as [A1 [A2 A3]].
  pose proof (round_step (shr_m mrs) (loc_of_shr_record mrs)) as R.
  set (m' := round_nearest_even (shr_m mrs) (loc_of_shr_record mrs)) in *.
  assert (He1 : e1 <= Z.max (Zdigits2 m' + e1 - 24) (-149)).
  { destruct A3 as [->|A3]; [lia|]. destruct (Zdigits2_bound m' ltac:(lia)) as [U _].
    assert (23 < Zdigits2 m'); [|lia]. apply (Z.pow_lt_mono_r_iff 2); [lia| |lia]. destruct (Zdigits2_bound m' ltac:(lia)) as [_ [_ ?]]. lia. }
  pose proof (shr_fexp_aligned m' e1 loc_Exact ltac:(lia) He1) as B.
  destruct (shr_fexp prec emax m' e1 loc_Exact) as [mrs2 e2]. cbn [fst snd] in B. destruct B as [B1 [B2 B3]].
  destruct (shr_m mrs2) as [|q|q]; [reflexivity| |reflexivity].
  destruct (Zle_bool e2 (emax - prec)) eqn:EL; [|reflexivity]. apply Zle_bool_imp_le in EL. unfold emax, prec in EL.
  apply valid_intro; [lia|lia|auto].
Qed.

Lemma binary_round_valid : forall s m e, f32_valid (binary_round prec emax s m e) = true.
Proof.
  intros s m e. unfold binary_round, shl_align. rewrite fexp_val. set (d := Zpos (digits2_pos m)).
  destruct (Z.max (d + e - 24) (-149) - e) as [|p|p] eqn:Ep; [apply round_aux_valid; [lia|]..|]; try (change (Zdigits2 (Zpos m)) with d; lia).
  apply round_aux_valid; [lia|]. destruct (digits2_bounds m) as [L U]. fold d in L, U. assert (D : 0 < d) by (unfold d; lia).
  assert (Ed : Zdigits2 (Zpos (shift_pos p m)) = d + Zpos p).
  { assert (P : 0 < 2 ^ Zpos p) by (apply Z.pow_pos_nonneg; lia).
    apply digits2_unique; [lia|]. rewrite shift_pos_correct. change (Z.pow_pos 2 p) with (2 ^ Zpos p).
    replace (d + Zpos p - 1) with (d - 1 + Zpos p) by lia. rewrite !Z.pow_add_r by lia. nia. }
  rewrite Ed. lia.
Qed.

Lemma normalize_valid : forall m e z, f32_valid (binary_normalize prec emax m e z) = true.
Proof. intros [|m|m] e z; cbn [binary_normalize]; [reflexivity|apply binary_round_valid..]. Qed.

(** (float) z. *)
Lemma f32_of_Z_valid : forall z, f32_valid (f32_of_Z z) = true.
Proof. intros z. apply normalize_valid. Qed.

Lemma neg_valid : forall s m e, f32_valid (S754_finite s m e) = true -> f32_valid (S754_finite (negb s) m e) = true.
Proof. intros s m e H. exact H. Qed.

Lemma fadd_valid : forall x y, f32_valid x = true -> f32_valid y = true -> f32_valid (fadd x y) = true.
Proof.
  intros x y Vx Vy. unfold fadd. destruct x as [sx|sx| |sx mx ex], y as [sy|sy| |sy my ey]; cbn [SFadd]; auto;
    try (destruct (Bool.eqb sx sy); reflexivity). apply normalize_valid.
Qed.

Lemma fsub_valid : forall x y, f32_valid x = true -> f32_valid y = true -> f32_valid (fsub x y) = true.
Proof.
  intros x y Vx Vy. unfold fsub. destruct x as [sx|sx| |sx mx ex], y as [sy|sy| |sy my ey]; cbn [SFsub]; auto;
    try (destruct (Bool.eqb sx (negb sy)); reflexivity). apply normalize_valid.
Qed.

Lemma fmul_valid : forall x y, f32_valid x = true -> f32_valid y = true -> f32_valid (fmul x y) = true.
Proof.
  intros x y Vx Vy. unfold fmul. destruct x as [sx|sx| |sx mx ex], y as [sy|sy| |sy my ey]; cbn [SFmul]; auto.
  apply round_aux_valid; [lia|]. apply valid_finite in Vx. apply valid_finite in Vy.
  destruct (digits2_bounds mx) as [L1 _]. destruct (digits2_bounds my) as [L2 _].
  set (d1 := Zpos (digits2_pos mx)) in *. set (d2 := Zpos (digits2_pos my)) in *.
  assert (D1 : 0 < d1) by (unfold d1; lia). assert (D2 : 0 < d2) by (unfold d2; lia).
  destruct (Zdigits2_bound (Zpos (mx * my)) ltac:(lia)) as [U _]. rewrite Pos2Z.inj_mul in *.
  assert (d1 - 1 + (d2 - 1) < Zdigits2 (Zpos mx * Zpos my)).
  { assert (2 ^ (d1 - 1 + (d2 - 1)) <= Zpos mx * Zpos my).
    { rewrite Z.pow_add_r by lia. apply Z.mul_le_mono_nonneg; try lia; apply Z.pow_nonneg; lia. }
    apply (Z.pow_lt_mono_r_iff 2); [lia|destruct (Zdigits2_bound (Zpos mx * Zpos my) ltac:(lia)) as [_ [_ ?]]; lia|lia]. }
  (* both mantissas full, or a tiny product *)
  lia.
Qed.

Lemma fdiv_valid : forall x y, f32_valid x = true -> f32_valid y = true -> f32_valid (fdiv x y) = true.
Proof.
  intros x y Vx Vy. unfold fdiv. destruct x as [sx|sx| |sx mx ex], y as [sy|sy| |sy my ey]; cbn [SFdiv]; auto.
  unfold SFdiv_core_binary. set (d1 := Zdigits2 (Zpos mx)). set (d2 := Zdigits2 (Zpos my)). rewrite fexp_val.
  set (e' := Z.min (Z.max (d1 + ex - (d2 + ey) - 24) (-149)) (ex - ey)). set (s := ex - ey - e').
  assert (Hs : 0 <= s) by (unfold s, e'; lia).
  assert (Hm' : match s with Zpos _ => Z.shiftl (Zpos mx) s | Z0 => Zpos mx | Zneg _ => 0 end = Zpos mx * 2 ^ s).
  { destruct s as [|p|p] eqn:Es; [cbn; lia|rewrite Z.shiftl_mul_pow2 by lia; reflexivity|lia]. }
  rewrite Hm'. pose proof (Z_div_mod (Zpos mx * 2 ^ s) (Zpos my) ltac:(lia)) as Hdm.
  destruct (Z.div_eucl (Zpos mx * 2 ^ s) (Zpos my)) as [q r]. destruct Hdm as [Hq Hr].
  assert (P : 0 < 2 ^ s) by (apply Z.pow_pos_nonneg; lia). assert (Q : 0 <= q) by nia.
  apply round_aux_valid; [exact Q|].
  destruct (Zdigits2_bound (Zpos mx) ltac:(lia)) as [_ [L1 _]]. destruct (Zdigits2_bound (Zpos my) ltac:(lia)) as [U2 _].
  specialize (L1 ltac:(lia)). fold d1 in L1. fold d2 in U2. assert (D1 : 0 < d1) by (unfold d1; cbn; lia). assert (D2 : 0 < d2) by (unfold d2; cbn; lia).
  destruct (Z.le_gt_cases e' (-149)) as [C|C]; [lia|].
  assert (Ee : e' <= d1 + ex - (d2 + ey) - 24) by (unfold e' in *; lia).
  assert (Hd : d1 - 1 + s - d2 < Zdigits2 q); [|unfold s in Hd; lia].
  destruct (Zdigits2_bound q Q) as [Uq [_ Dq]]. destruct (Z.lt_ge_cases (d1 - 1 + s - d2) (Zdigits2 q)) as [|G]; auto. exfalso.
  assert (B : Zpos mx * 2 ^ s < Zpos my * (q + 1)) by nia.
  assert (q + 1 <= 2 ^ (d1 - 1 + s - d2)) by (assert (2 ^ Zdigits2 q <= 2 ^ (d1 - 1 + s - d2)) by (apply Z.pow_le_mono_r; lia); lia).
  assert (E : 2 ^ d2 * 2 ^ (d1 - 1 + s - d2) = 2 ^ (d1 - 1) * 2 ^ s).
  { rewrite <- !Z.pow_add_r by lia. f_equal. lia. }
  assert (2 ^ (d1 - 1) * 2 ^ s <= Zpos mx * 2 ^ s) by (apply Z.mul_le_mono_nonneg_r; lia).
  assert (Zpos my * (q + 1) <= 2 ^ d2 * 2 ^ (d1 - 1 + s - d2)) by (apply Z.mul_le_mono_nonneg; lia). lia.
Qed.

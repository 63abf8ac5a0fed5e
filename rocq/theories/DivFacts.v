(** * A rounded quotient above one has a numerator above the denominator.

    Proved on the integer representation, so without the real numbers. *)
From Coq Require Import ZArith SpecFloat Lia Bool.
From Verif Require Import Float32 Float32Facts.
Local Open Scope Z_scope.

(** The representation of an actual float32: include in statements as "is a float". *)
Definition f32_valid (x : f32) : bool := valid_binary prec emax x.

Lemma digits2_pos_size : forall p, digits2_pos p = Pos.size p.
Proof. induction p as [p IH|p IH|]; cbn; rewrite ?IH; reflexivity. Qed.

Lemma digits_bounds : forall p, 2 ^ (Zpos (digits2_pos p) - 1) <= Zpos p < 2 ^ Zpos (digits2_pos p).
Proof.
  intros p. rewrite digits2_pos_size. split.
  - pose proof (Pos.size_le p) as H. apply Pos2Z.pos_le_pos in H. rewrite Pos2Z.inj_pow in H.
    assert (E : 2 ^ Zpos (Pos.size p) = 2 * 2 ^ (Zpos (Pos.size p) - 1)).
    { rewrite <- Z.pow_succ_r by lia. f_equal. lia. }
    rewrite E in H. change (Zpos p~0) with (2 * Zpos p) in H. lia.
  - pose proof (Pos.size_gt p) as H. apply Pos2Z.pos_lt_pos in H. rewrite Pos2Z.inj_pow in H. exact H.
Qed.

Lemma Zdigits2_le : forall m k, 0 <= k -> 0 <= m < 2 ^ k -> Zdigits2 m <= k.
Proof.
  intros m k Hk H. destruct m as [|p|p]; cbn; [lia| |lia].
  destruct (digits_bounds p) as [H1 _]. destruct (Z_lt_le_dec k (Zpos (digits2_pos p))) as [C|]; [|auto].
  assert (2 ^ k <= 2 ^ (Zpos (digits2_pos p) - 1)) by (apply Z.pow_le_mono_r; lia). lia.
Qed.

Lemma Zdigits2_pow : forall k, 0 <= k -> Zdigits2 (2 ^ k) = k + 1.
Proof.
  intros k Hk. assert (0 < 2 ^ k) by (apply Z.pow_pos_nonneg; lia).
  destruct (2 ^ k) as [|p|p] eqn:E; try lia. cbn. destruct (digits_bounds p) as [H1 H2]. rewrite <- E in *.
  assert (k < Zpos (digits2_pos p)) by (apply (Z.pow_lt_mono_r_iff 2); lia).
  destruct (Z_lt_le_dec (k + 1) (Zpos (digits2_pos p))) as [C|]; [|lia].
  assert (2 ^ k < 2 ^ (Zpos (digits2_pos p) - 1)) by (apply Z.pow_lt_mono_r; lia). lia.
Qed.

Lemma Zdigits2_mono : forall p q, (p <= q)%positive -> Zpos (digits2_pos p) <= Zpos (digits2_pos q).
Proof.
  intros p q H. destruct (digits_bounds p) as [H1 _]. destruct (digits_bounds q) as [_ H2].
  destruct (Z_lt_le_dec (Zpos (digits2_pos q)) (Zpos (digits2_pos p))) as [C|]; [|auto].
  assert (2 ^ Zpos (digits2_pos q) <= 2 ^ (Zpos (digits2_pos p) - 1)) by (apply Z.pow_le_mono_r; lia). lia.
Qed.

(** ** Shifts *)
Lemma shr_1_div : forall m, 0 <= shr_m m -> shr_m (shr_1 m) = shr_m m / 2.
Proof.
  intros [m r s] H. cbn in H |- *. destruct m as [|p|p]; [reflexivity| |lia].
  destruct p as [p|p|]; [| |reflexivity].
  - change (Z.pos p = Z.pos p~1 / 2). rewrite (Pos2Z.inj_xI p).
    apply Z.div_unique with 1; lia.
  - change (Z.pos p = Z.pos p~0 / 2). rewrite (Pos2Z.inj_xO p).
    apply Z.div_unique with 0; lia.
Qed.

Fixpoint niter {A : Type} (n : nat) (f : A -> A) (x : A) : A :=
  match n with O => x | S n' => f (niter n' f x) end.

Lemma iter_pos_nat : forall (A : Type) (f : A -> A) p x, iter_pos f p x = niter (Pos.to_nat p) f x.
Proof.
  intros A f. assert (Sw : forall n x, niter n f (f x) = f (niter n f x)).
  { induction n as [|n IH]; intros x; cbn; [reflexivity|]. rewrite IH. reflexivity. }
  assert (Add : forall a b x, niter (a + b) f x = niter a f (niter b f x)).
  { induction a as [|a IH]; intros b x; cbn; [reflexivity|]. rewrite IH. reflexivity. }
  induction p as [p IH|p IH|]; intros x; cbn [iter_pos].
  - rewrite !IH, Pos2Nat.inj_xI. cbn [Nat.mul]. rewrite Nat.add_0_r. change (S (Pos.to_nat p + Pos.to_nat p)) with (1 + (Pos.to_nat p + Pos.to_nat p))%nat.
    rewrite !Add. cbn [niter]. rewrite !Sw. reflexivity.
  - rewrite !IH, Pos2Nat.inj_xO. cbn [Nat.mul]. rewrite Nat.add_0_r, Add. reflexivity.
  - reflexivity.
Qed.

Lemma iter_shr_div : forall n m, 0 <= shr_m m ->
  0 <= shr_m (niter n shr_1 m) /\ shr_m (niter n shr_1 m) = shr_m m / 2 ^ Z.of_nat n.
Proof.
  induction n as [|n IH]; intros m H.
  - cbn. rewrite Z.div_1_r. auto.
  - cbn [niter]. destruct (IH m H) as [H1 H2]. split; [apply shr_1_nonneg; auto|].
    rewrite shr_1_div, H2, Z.div_div by (auto; try lia; apply Z.pow_pos_nonneg; lia).
    f_equal. rewrite Nat2Z.inj_succ, Z.pow_succ_r by lia. lia.
Qed.

Lemma shr_exp : forall m e n, 0 <= shr_m m -> 0 <= n ->
  shr_m (fst (shr m e n)) = shr_m m / 2 ^ n /\ snd (shr m e n) = e + n.
Proof.
  intros m e n H Hn. unfold shr. destruct n as [|p|p]; cbn [fst snd]; [|split; [|reflexivity]|lia].
  - rewrite Z.div_1_r, Z.add_0_r. auto.
  - rewrite iter_pos_nat. destruct (iter_shr_div (Pos.to_nat p) m H) as [_ E]. rewrite E, positive_nat_Z. reflexivity.
Qed.

Lemma shr_1_pow : forall a, 0 <= a -> shr_1 (Build_shr_record (2 ^ (a + 1)) false false) = Build_shr_record (2 ^ a) false false.
Proof.
  intros a Ha. rewrite Z.pow_add_r by lia. change (2 ^ 1) with 2.
  assert (0 < 2 ^ a) by (apply Z.pow_pos_nonneg; lia). destruct (2 ^ a) as [|p|p]; try lia.
  rewrite Z.mul_comm. reflexivity.
Qed.

Lemma iter_shr_pow : forall n a, 0 <= a ->
  niter n shr_1 (Build_shr_record (2 ^ (a + Z.of_nat n)) false false) = Build_shr_record (2 ^ a) false false.
Proof.
  induction n as [|n IH]; intros a Ha.
  - cbn. rewrite Z.add_0_r. reflexivity.
  - cbn [niter]. replace (a + Z.of_nat (S n)) with ((a + 1) + Z.of_nat n) by lia.
    rewrite IH by lia. apply shr_1_pow. auto.
Qed.

Lemma shr_pow : forall a e n, 0 <= a -> 0 <= n ->
  shr (Build_shr_record (2 ^ (a + n)) false false) e n = (Build_shr_record (2 ^ a) false false, e + n).
Proof.
  intros a e n Ha Hn. unfold shr. destruct n as [|p|p]; [| |lia].
  - rewrite !Z.add_0_r. reflexivity.
  - rewrite iter_pos_nat. rewrite <- (positive_nat_Z p) at 1. rewrite iter_shr_pow by auto. reflexivity.
Qed.

(** ** Rounding a number below one, or equal to one *)
Definition not_above_one (x : f32) : Prop := flt f32_one x = false.

(** The result of binary_round_aux from the second normalisation on. *)
Definition finish (s : bool) (p : shr_record * Z) : f32 :=
  match shr_m (fst p) with
  | Z0 => S754_zero s
  | Zpos m => if Z.leb (snd p) (emax - prec) then S754_finite s m (snd p) else S754_infinity s
  | Zneg _ => S754_nan
  end.

Lemma fexp_val : forall z, fexp prec emax z = Z.max (z - 24) (-149).
Proof. intros z. unfold fexp, SpecFloat.emin, prec, emax. reflexivity. Qed.

(** m 2^e < 1 *)
Lemma shr_fexp_below : forall m e l, 0 <= m -> e <= -24 -> m < 2 ^ (- e) ->
  0 <= shr_m (fst (shr_fexp prec emax m e l)) < 2 ^ (- snd (shr_fexp prec emax m e l)) /\
  snd (shr_fexp prec emax m e l) <= -24.
Proof.
  intros m e l Hm He Hlt. unfold shr_fexp. rewrite fexp_val.
  assert (Hd : Zdigits2 m <= - e) by (apply Zdigits2_le; lia).
  set (n := Z.max (Zdigits2 m + e - 24) (-149) - e).
  assert (Hr : shr_m (shr_record_of_loc m l) = m) by apply shr_record_of_loc_m.
  destruct (Z_le_gt_dec n 0) as [Hn|Hn].
  - assert (Hs : shr (shr_record_of_loc m l) e n = (shr_record_of_loc m l, e)).
    { unfold shr. destruct n as [|p|p]; auto; lia. }
    rewrite Hs. cbn [fst snd]. rewrite Hr. lia.
  - destruct (shr_exp (shr_record_of_loc m l) e n) as [E1 E2]; [lia|lia|].
    rewrite E1, E2, Hr. split; [|unfold n; lia]. split.
    + apply Z.div_pos; auto. apply Z.pow_pos_nonneg; lia.
    + apply Z.div_lt_upper_bound; [apply Z.pow_pos_nonneg; lia|].
      assert (He0 : e + n <= -24) by (unfold n; lia).
      rewrite <- Z.pow_add_r by lia. replace (n + - (e + n)) with (- e) by lia. auto.
Qed.

Lemma shr_fexp_one : forall k, 24 <= k ->
  shr_fexp prec emax (2 ^ k) (- k) loc_Exact = (Build_shr_record (2 ^ 23) false false, -23).
Proof.
  intros k Hk. unfold shr_fexp. rewrite Zdigits2_pow, fexp_val by lia.
  replace (Z.max (k + 1 + - k - 24) (-149) - - k) with (k - 23) by lia.
  unfold shr_record_of_loc. replace (2 ^ k) with (2 ^ (23 + (k - 23))) by (f_equal; lia).
  rewrite shr_pow by lia. f_equal. lia.
Qed.

Lemma finish_below : forall p, 0 <= shr_m (fst p) -> snd p <= -24 -> not_above_one (finish false p).
Proof.
  intros [m e] H He. unfold finish. cbn [fst snd] in *. destruct (shr_m m) as [|q|q]; [reflexivity| |lia].
  assert (E : (e <=? emax - prec) = true) by (apply Z.leb_le; unfold emax, prec; lia). rewrite E.
  unfold not_above_one, flt, SFltb, SFcompare, f32_one.
  destruct (Z.compare_spec (-23) e) as [C|C|C]; try lia; reflexivity.
Qed.

Lemma binary_round_aux_one : forall q e l, 0 <= q -> e <= -24 ->
  q < 2 ^ (- e) \/ (q = 2 ^ (- e) /\ l = loc_Exact) ->
  not_above_one (binary_round_aux prec emax false q e l).
Proof.
  intros q e l Hq He H.
  assert (Hun : binary_round_aux prec emax false q e l =
    finish false (shr_fexp prec emax
      (round_nearest_even (shr_m (fst (shr_fexp prec emax q e l))) (loc_of_shr_record (fst (shr_fexp prec emax q e l))))
      (snd (shr_fexp prec emax q e l)) loc_Exact)).
  { unfold binary_round_aux. destruct (shr_fexp prec emax q e l) as [m1 e1]. cbn [fst snd].
    destruct (shr_fexp prec emax (round_nearest_even (shr_m m1) (loc_of_shr_record m1)) e1 loc_Exact). reflexivity. }
  rewrite Hun. destruct H as [Hlt|[-> ->]].
  - destruct (shr_fexp_below q e l Hq He Hlt) as [[H0 H1] H2].
    set (m1 := fst (shr_fexp prec emax q e l)) in *. set (e1 := snd (shr_fexp prec emax q e l)) in *.
    set (r := round_nearest_even (shr_m m1) (loc_of_shr_record m1)).
    assert (Hr : 0 <= r <= shr_m m1 + 1).
    { unfold r, round_nearest_even. destruct (loc_of_shr_record m1) as [|[| |]]; try lia.
      destruct (Z.even (shr_m m1)); lia. }
    destruct (Z_lt_le_dec r (2 ^ (- e1))) as [C|C].
    + destruct (shr_fexp_below r e1 loc_Exact) as [[H3 _] H4]; try lia. apply finish_below; auto.
    + assert (E : r = 2 ^ (- e1)) by lia. rewrite E.
      replace (shr_fexp prec emax (2 ^ (- e1)) e1 loc_Exact) with (shr_fexp prec emax (2 ^ (- e1)) (- (- e1)) loc_Exact)
        by (f_equal; lia).
      rewrite shr_fexp_one by lia. reflexivity.
  - replace (shr_fexp prec emax (2 ^ (- e)) e loc_Exact) with (shr_fexp prec emax (2 ^ (- e)) (- (- e)) loc_Exact)
      by (f_equal; lia).
    rewrite shr_fexp_one by lia. reflexivity.
Qed.

(** ** Valid floats *)
Lemma valid_finite : forall s m e, f32_valid (S754_finite s m e) = true ->
  e = Z.max (Zpos (digits2_pos m) + e - 24) (-149).
Proof.
  intros s m e H. unfold f32_valid, valid_binary, bounded, canonical_mantissa in H.
  apply andb_true_iff in H. destruct H as [H _]. apply Zeq_bool_eq in H. rewrite fexp_val in H. lia.
Qed.

Lemma div_le_one : forall m1 e1 m2 e2,
  e1 = Z.max (Zpos (digits2_pos m1) + e1 - 24) (-149) -> e2 = Z.max (Zpos (digits2_pos m2) + e2 - 24) (-149) ->
  e1 < e2 \/ (e1 = e2 /\ (m1 <= m2)%positive) ->
  not_above_one (fdiv (S754_finite false m1 e1) (S754_finite false m2 e2)).
Proof.
  intros m1 e1 m2 e2 H1 H2 Hle. unfold fdiv, SFdiv. cbn [xorb].
  unfold SFdiv_core_binary.
  set (d1 := Zdigits2 (Zpos m1)). set (d2 := Zdigits2 (Zpos m2)).
  change (Zpos (digits2_pos m1)) with d1 in H1. change (Zpos (digits2_pos m2)) with d2 in H2.
  destruct (digits_bounds m1) as [B1 B1']. destruct (digits_bounds m2) as [B2 B2'].
  change (Zpos (digits2_pos m1)) with d1 in B1, B1'. change (Zpos (digits2_pos m2)) with d2 in B2, B2'.
  assert (Hd1 : 1 <= d1) by (unfold d1; cbn; lia). assert (Hd2 : 1 <= d2) by (unfold d2; cbn; lia).
  rewrite fexp_val. set (e' := Z.min (Z.max (d1 + e1 - (d2 + e2) - 24) (-149)) (e1 - e2)).
  (* x <= y in digits and value *)
  assert (Hdig : d1 + e1 <= d2 + e2).
  { destruct Hle as [C|[C1 C2]]; [lia|]. apply Zdigits2_mono in C2.
    change (Zpos (digits2_pos m1)) with d1 in C2. change (Zpos (digits2_pos m2)) with d2 in C2. lia. }
  assert (Hval : Zpos m1 < Zpos m2 * 2 ^ (e2 - e1) \/ (e1 = e2 /\ m1 = m2)).
  { destruct Hle as [C|[C1 C2]].
    - left. assert (d2 = 24) by lia. assert (d1 <= 24) by lia.
      assert (2 ^ d1 <= 2 ^ 24) by (apply Z.pow_le_mono_r; lia).
      assert (E : 2 ^ (e2 - e1) = 2 * 2 ^ (e2 - e1 - 1)) by (rewrite <- Z.pow_succ_r by lia; f_equal; lia).
      assert (1 <= 2 ^ (e2 - e1 - 1)) by (assert (0 < 2 ^ (e2 - e1 - 1)) by (apply Z.pow_pos_nonneg; lia); lia).
      replace (d2 - 1) with 23 in B2 by lia. change (2 ^ 24) with (2 * 2 ^ 23) in *. rewrite E. nia.
    - subst. rewrite Z.sub_diag. change (2 ^ 0) with 1.
      destruct (Pos.eq_dec m1 m2) as [->|Hne]; [right; auto|left; lia]. }
  assert (He' : e' <= -24) by (unfold e'; lia).
  assert (Hs : 0 <= e1 - e2 - e') by (unfold e'; lia).
  set (s := e1 - e2 - e') in *.
  assert (Hm' : match s with Zpos _ => Z.shiftl (Zpos m1) s | Z0 => Zpos m1 | Zneg _ => 0 end = Zpos m1 * 2 ^ s).
  { destruct s as [|p|p] eqn:Es; [cbn; lia|rewrite Z.shiftl_mul_pow2 by lia; reflexivity|lia]. }
  rewrite Hm'. pose proof (Z_div_mod (Zpos m1 * 2 ^ s) (Zpos m2) ltac:(lia)) as Hdm.
  destruct (Z.div_eucl (Zpos m1 * 2 ^ s) (Zpos m2)) as [q r]. destruct Hdm as [Hq Hr].
  assert (P : 0 < 2 ^ s) by (apply Z.pow_pos_nonneg; lia).
  assert (Hq0 : 0 <= q) by nia.
  apply binary_round_aux_one; auto.
  destruct Hval as [Hv|[E1 E2]].
  - left. assert (Zpos m1 * 2 ^ s < Zpos m2 * 2 ^ (- e')).
    { replace (- e') with ((e2 - e1) + s) by (unfold s; lia).
      assert (0 <= e2 - e1) by (destruct Hle as [?|[? _]]; lia).
      rewrite Z.pow_add_r by lia. nia. }
    nia.
  - right. subst m2 e2. assert (Es : s = - e') by (unfold s; lia). rewrite Es in *.
    assert (q = 2 ^ (- e')) by nia. split; auto. assert (r = 0) by nia. subst r.
    unfold new_location. destruct (Z.even (Zpos m1)); unfold new_location_even, new_location_odd; reflexivity.
Qed.

(** For non-negative floats. *)
Lemma div_gt_one : forall x y, f32_valid x = true -> f32_valid y = true ->
  fle f32_zero x = true -> fle f32_zero y = true ->
  flt f32_one (fdiv x y) = true -> flt y x = true.
Proof.
  intros x y Vx Vy Nx Ny H. destruct (flt y x) eqn:E; auto. exfalso.
  destruct x as [sx|sx| |sx mx ex]; destruct y as [sy|sy| |sy my ey];
    try destruct sx; try destruct sy; try discriminate.
  apply valid_finite in Vx. apply valid_finite in Vy.
  assert (C : not_above_one (fdiv (S754_finite false mx ex) (S754_finite false my ey))).
  { apply div_le_one; auto. unfold flt, SFltb, SFcompare in E.
    destruct (Z.compare_spec ey ex) as [C|C|C]; [|discriminate|auto].
    rewrite Pos.compare_cont_spec in E. unfold Pos.switch_Eq in E.
    destruct (Pos.compare_spec my mx) as [C1|C1|C1]; try discriminate; right; split; lia. }
  unfold not_above_one in C. congruence.
Qed.

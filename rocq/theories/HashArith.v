(** * Arithmetic of the hash table: bucket counts and positions. *)
From Coq Require Import NArith ZArith SpecFloat List Arith Bool Lia.
From Verif Require Import Base Float32 ConvertModel ConvProofs HashModel.
Import ListNotations.
Local Open Scope nat_scope.

(** ** Rounding up to a power of two *)
Lemma power_of_two_spec : forall v, is_power_of_two v = true -> exists k, v = (2 ^ k)%N.
Proof.
  intros v H. unfold is_power_of_two in H. apply andb_prop in H. destruct H as [H0 H]. apply N.eqb_eq in H.
  assert (Hv : v <> 0%N) by (intros ->; discriminate). exists (N.log2 v).
  destruct (N.eq_dec v (2 ^ N.log2 v)) as [|Hn]; [auto|exfalso]. pose proof (N.log2_spec v ltac:(lia)) as [L U].
  assert (E : N.log2 (v - 1) = N.log2 v) by (apply N.log2_unique; lia).
  pose proof (N.bit_log2 v Hv) as B1. pose proof (N.bit_log2 (v - 1)) as B2. assert (v - 1 <> 0)%N. { assert (0 < 2 ^ N.log2 v)%N by (apply N.neq_0_lt_0, N.pow_nonzero; lia). lia. }
  specialize (B2 ltac:(auto)). rewrite E in B2. assert (B : N.testbit (N.land v (v - 1)) (N.log2 v) = true) by (rewrite N.land_spec, B1, B2; reflexivity).
  rewrite H in B. rewrite N.bits_0 in B. discriminate.
Qed.

Lemma power_of_two_pow : forall k, is_power_of_two (2 ^ k) = true.
Proof.
  intros k. unfold is_power_of_two. assert (2 ^ k <> 0)%N by (apply N.pow_nonzero; lia). destruct (N.eqb_spec (2 ^ k) 0); [contradiction|]. cbn [negb andb].
  apply N.eqb_eq. rewrite N.sub_1_r, <- N.ones_equiv, N.land_ones. apply N.mod_same. auto.
Qed.

Definition covers (w i x : N) : Prop := forall b, N.testbit x b = true <-> exists t, (t < i)%N /\ N.testbit w (b + t) = true.

Lemma smear_covers : forall w i x, covers w i x -> covers w (i + i) (smear x i).
Proof.
  intros w i x H b. unfold smear. rewrite N.lor_spec, N.shiftr_spec', orb_true_iff, (H b), (H (b + i)%N). split.
  - intros [[t [Ht B]]|[t [Ht B]]]; [exists t; split; [lia|auto]|exists (i + t)%N; split; [lia|]]. now rewrite N.add_assoc.
  - intros [t [Ht B]]. destruct (N.lt_ge_cases t i); [left; exists t; auto|right; exists (t - i)%N]. split; [lia|]. now replace (b + i + (t - i))%N with (b + t)%N by lia.
Qed.

Lemma round_up_spec : forall v, (0 < v < 2 ^ 64)%N -> exists k, round_up v = (2 ^ k)%N /\ (v <= 2 ^ k)%N.
Proof.
  intros v H. unfold round_up. destruct (is_power_of_two v) eqn:E.
  - apply power_of_two_spec in E. destruct E as [k ->]. exists k. split; [reflexivity|lia].
  - destruct (N.eqb_spec v 0); [lia|]. assert (Hv : (v <> 1)%N) by (intros ->; discriminate). set (w := (v - 1)%N). assert (Hw : (0 < w)%N) by (unfold w; lia).
    assert (C : covers w 64 (fold_left smear [1; 2; 4; 8; 16; 32]%N w)).
    { cbn [fold_left]. change 64%N with (32 + 32)%N. apply smear_covers. change 32%N with (16 + 16)%N at 1. apply smear_covers. change 16%N with (8 + 8)%N at 1. apply smear_covers.
      change 8%N with (4 + 4)%N at 1. apply smear_covers. change 4%N with (2 + 2)%N at 1. apply smear_covers. change 2%N with (1 + 1)%N at 1. apply smear_covers.
      intros b. split; [intros B; exists 0%N; split; [lia|now rewrite N.add_0_r]|intros [t [Ht B]]]. now replace (b + t)%N with b in B by lia. }
    assert (E2 : fold_left smear [1; 2; 4; 8; 16; 32]%N w = N.ones (N.succ (N.log2 w))).
    { apply N.bits_inj. intros b. assert (L : (N.log2 w < 64)%N) by (apply N.log2_lt_pow2; unfold w in *; lia). destruct (N.lt_ge_cases b (N.succ (N.log2 w))) as [Hb|Hb].
      - rewrite N.ones_spec_low by auto. apply C. exists (N.log2 w - b)%N. split; [lia|]. replace (b + (N.log2 w - b))%N with (N.log2 w) by lia. apply N.bit_log2. lia.
      - rewrite N.ones_spec_high by auto. apply not_true_is_false. intros B. apply C in B. destruct B as [t [_ B]]. rewrite N.bits_above_log2 in B by lia. discriminate. }
    rewrite E2. exists (N.succ (N.log2 w)). rewrite N.ones_equiv. pose proof (N.log2_spec w Hw) as [_ U]. assert (0 < 2 ^ N.succ (N.log2 w))%N by lia. split; [lia|]. unfold w in *. lia.
Qed.

(** ** Positions *)
Definition nx (c i : nat) : nat := (i + 1) mod c.

(** A number of buckets and the mask that goes with it. *)
Definition count_ok (c : nat) (mask : N) : Prop := exists k, c = N.to_nat (2 ^ k) /\ mask = (2 ^ k - 1)%N.

Lemma count_pos : forall c mask, count_ok c mask -> 0 < c.
Proof. intros c mask [k [-> _]]. assert (2 ^ k <> 0)%N by (apply N.pow_nonzero; lia). lia. Qed.

Lemma land_mask : forall k h, N.land h (2 ^ k - 1) = (h mod 2 ^ k)%N.
Proof. intros. rewrite N.sub_1_r, <- N.ones_equiv. apply N.land_ones. Qed.

Lemma next_bucket_nx : forall c mask i, count_ok c mask -> next_bucket mask i = nx c i.
Proof.
  intros c mask i [k [-> ->]]. unfold next_bucket, nx. rewrite land_mask. rewrite N2Nat.inj_mod by (apply N.pow_nonzero; lia). f_equal. lia.
Qed.

Lemma bucket_lt : forall c mask h, count_ok c mask -> bucket_for_hash mask h < c.
Proof.
  intros c mask h [k [-> ->]]. unfold bucket_for_hash. rewrite land_mask. pose proof (N.mod_lt h (2 ^ k)) as M. specialize (M ltac:(apply N.pow_nonzero; lia)). lia.
Qed.

(** 32 bits of the hash are enough for a mask of at most 32 bits. *)
Lemma bucket_truncated : forall c mask h, count_ok c mask -> (mask <= 4294967295)%N -> bucket_for_hash mask (h mod 4294967296) = bucket_for_hash mask h.
Proof.
  intros c mask h [k [_ ->]] Hm. unfold bucket_for_hash. rewrite !land_mask. f_equal. assert (Hk : (k <= 32)%N).
  { destruct (N.le_gt_cases k 32); [auto|]. assert (2 ^ 33 <= 2 ^ k)%N by (apply N.pow_le_mono_r; lia). change (2 ^ 33)%N with 8589934592%N in *. lia. }
  assert (E : 4294967296%N = (2 ^ k * 2 ^ (32 - k))%N) by (rewrite <- N.pow_add_r; replace (k + (32 - k))%N with 32%N by lia; reflexivity).
  assert (P1 : (2 ^ k <> 0)%N) by (apply N.pow_nonzero; lia). assert (P2 : (2 ^ (32 - k) <> 0)%N) by (apply N.pow_nonzero; lia).
  rewrite E. rewrite N.mod_mul_r by auto. rewrite N.add_comm, N.mul_comm, N.add_mod, N.mod_mul, N.add_0_l, !N.mod_mod by auto. reflexivity.
Qed.

Lemma nx_lt : forall c i, 0 < c -> nx c i < c.
Proof. intros. apply Nat.mod_upper_bound. lia. Qed.

Lemma pos_next : forall c a j, 0 < c -> nx c ((a + j) mod c) = (a + S j) mod c.
Proof. intros c a j H. unfold nx. rewrite Nat.add_mod_idemp_l by lia. f_equal. lia. Qed.

Lemma pos_inj : forall c a j j', 0 < c -> j < c -> j' < c -> (a + j) mod c = (a + j') mod c -> j = j'.
Proof.
  assert (G : forall c a j j', 0 < c -> j <= j' -> j' < c -> (a + j) mod c = (a + j') mod c -> j = j').
  { intros c a j j' Hc Hj Hj' E. pose proof (Nat.div_mod (a + j) c ltac:(lia)) as D. pose proof (Nat.div_mod (a + j') c ltac:(lia)) as D'. rewrite <- E in D'. set (q := (a + j) / c) in *. set (q' := (a + j') / c) in *. set (r := (a + j) mod c) in *.
    destruct (Nat.lt_trichotomy q q') as [Q|[Q|Q]]; [|rewrite Q in *; lia|]; [assert (c * S q <= c * q') by (apply Nat.mul_le_mono_l; lia)|assert (c * S q' <= c * q) by (apply Nat.mul_le_mono_l; lia)]; rewrite Nat.mul_succ_r in *; lia. }
  intros c a j j' Hc Hj Hj' E. destruct (Nat.le_ge_cases j j'); [eapply G; eauto|symmetry; eapply G; eauto].
Qed.

Lemma nx_inj : forall c i j, 0 < c -> i < c -> j < c -> nx c i = nx c j -> i = j.
Proof. intros c i j Hc Hi Hj E. apply (pos_inj c 1 i j Hc Hi Hj). unfold nx in E. now rewrite (Nat.add_comm 1 i), (Nat.add_comm 1 j). Qed.

Lemma reach : forall c p i, 0 < c -> p < c -> i < c -> exists m, m < c /\ (p + m) mod c = i.
Proof.
  intros c p i Hc Hp Hi. exists ((i + (c - p)) mod c). split; [apply Nat.mod_upper_bound; lia|]. rewrite Nat.add_mod_idemp_r by lia. replace (p + (i + (c - p))) with (i + 1 * c) by lia.
  rewrite Nat.mod_add by lia. apply Nat.mod_small. auto.
Qed.

Lemma nx_neq : forall c i, 1 < c -> i < c -> nx c i <> i.
Proof.
  intros c i Hc Hi E. unfold nx in E. destruct (Nat.eq_dec (i + 1) c) as [H|H]; [rewrite H, Nat.mod_same in E by lia; lia|]. rewrite Nat.mod_small in E by lia. lia.
Qed.

(** ** Conversions to float *)
Lemma doubled_pos : forall n, (0 < n < 2 ^ 62)%N -> (n < doubled n < 2 ^ 64)%N.
Proof.
  intros n H. unfold doubled. destruct n as [|p]; [lia|]. cbn [Z.of_N]. pose proof (digits2_bounds p) as B. set (d := Zpos (digits2_pos p)) in *.
  assert (Hd : (1 <= d)%Z) by (unfold d; lia). assert (Hd2 : (d - 1 < 62)%Z) by (apply (Z.pow_lt_mono_r_iff 2); lia).
  assert (P62 : (2 ^ d <= 2 ^ 62)%Z) by (apply Z.pow_le_mono_r; lia). change (2 ^ 62)%N with 4611686018427387904%N in *. change (2 ^ 64)%N with 18446744073709551616%N. change (2 ^ 62)%Z with 4611686018427387904%Z in *.
  assert (D2 : (2 ^ d = 2 * 2 ^ (d - 1))%Z) by (rewrite <- Z.pow_succ_r by lia; f_equal; lia).
  destruct (Z_le_gt_dec d 24) as [L|G].
  - destruct (conv_small p L) as [m [E Em]]. fold d in E, Em. rewrite E. cbn [trunc cond_Zopp]. destruct (Z.leb_spec 0 (d - 24)) as [L1|L1].
    + replace (d - 24)%Z with 0%Z by lia. replace (24 - d)%Z with 0%Z in Em by lia. rewrite Z.pow_0_r in *. lia.
    + replace (- (d - 24))%Z with (24 - d)%Z by lia. rewrite Em, Z.div_mul by (apply Z.pow_nonzero; lia). lia.
  - assert (Q : exists q, d = (24 + Zpos q)%Z) by (destruct (d - 24)%Z as [|q|q] eqn:Eq; try lia; exists q; lia). destruct Q as [q Eq].
    pose proof (round_ne_bounds (Zpos p) q ltac:(lia)) as R. assert (Pq : (0 < 2 ^ Zpos q)%Z) by (apply Z.pow_pos_nonneg; lia).
    assert (Q1 : (2 ^ 23 <= Zpos p / 2 ^ Zpos q)%Z). { apply Z.div_le_lower_bound; [auto|]. rewrite Z.mul_comm, <- Z.pow_add_r by lia. replace (23 + Zpos q)%Z with (d - 1)%Z by lia. lia. }
    destruct (conv_large p q Eq ltac:(lia)) as [[R1 E]|[R1 E]]; rewrite E; cbn [trunc cond_Zopp].
    + rewrite (proj2 (Z.leb_le 0 (Zpos q))) by lia. rewrite Z2Pos.id by lia.
      assert (V : (2 ^ (d - 1) <= round_ne (Zpos p) q * 2 ^ Zpos q)%Z) by (replace (d - 1)%Z with (23 + Zpos q)%Z by lia; rewrite Z.pow_add_r by lia; apply Z.mul_le_mono_nonneg_r; lia).
      assert (V2 : (round_ne (Zpos p) q * 2 ^ Zpos q <= 2 ^ d)%Z) by (rewrite Eq, Z.pow_add_r by lia; apply Z.mul_le_mono_nonneg_r; lia). lia.
    + rewrite (proj2 (Z.leb_le 0 (Zpos q + 1))) by lia. assert (V : (8388608 * 2 ^ (Zpos q + 1) = 2 ^ d)%Z) by (change 8388608%Z with (2 ^ 23)%Z; rewrite <- Z.pow_add_r by lia; f_equal; lia). rewrite V. lia.
Qed.

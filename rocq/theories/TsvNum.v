(** * Rounding to six decimal digits and to a float, in rational numbers. *)
From Coq Require Import ZArith NArith QArith Qpower Qabs Qround Lia Lqa List Bool SpecFloat.
From Verif Require Import Base Float32 FloatBits TsvModel.
Local Open Scope Q_scope.

(** ** Powers *)

Definition bp (b k : Z) : Q := Qpower (inject_Z b) k.

Lemma bp_pos : forall b k, (0 < b)%Z -> 0 < bp b k.
Proof. intros b k H. apply Qpower_0_lt. change 0 with (inject_Z 0). rewrite <- Zlt_Qlt. auto. Qed.

Lemma inj_nz : forall b, (0 < b)%Z -> ~ inject_Z b == 0.
Proof. intros b H E. apply (proj1 (inject_Z_injective b 0)) in E. lia. Qed.

Lemma bp_add : forall b j k, (0 < b)%Z -> bp b (j + k) == bp b j * bp b k.
Proof. intros b j k H. apply Qpower_plus. apply inj_nz. auto. Qed.

Lemma bp_nonneg : forall b k, (0 <= k)%Z -> bp b k == inject_Z (b ^ k).
Proof. intros b k H. unfold bp. rewrite <- Zpower_Qpower by auto. reflexivity. Qed.

Lemma bp_neg : forall b k, (0 < b)%Z -> bp b (- k) == / bp b k.
Proof. intros b k H. apply Qpower_opp. Qed.

Lemma bp_succ : forall b k, (0 < b)%Z -> bp b (k + 1) == inject_Z b * bp b k.
Proof. intros b k H. rewrite bp_add by auto. change (bp b 1) with (inject_Z b). ring. Qed.

Lemma bp_inv : forall b k, (0 < b)%Z -> bp b k * bp b (- k) == 1.
Proof. intros b k H. rewrite <- bp_add by auto. rewrite Z.add_opp_diag_r. reflexivity. Qed.

Lemma bp_le : forall b j k, (1 < b)%Z -> (j <= k)%Z -> bp b j <= bp b k.
Proof.
  intros b j k H L. replace k with (j + (k - j))%Z by lia. rewrite bp_add by lia.
  pose proof (bp_pos b j ltac:(lia)) as P. rewrite (bp_nonneg b (k - j)) by lia.
  assert (1 <= inject_Z (b ^ (k - j))).
  { change 1 with (inject_Z 1). rewrite <- Zle_Qle. assert (0 < b ^ (k - j))%Z by (apply Z.pow_pos_nonneg; lia). lia. }
  setoid_replace (bp b j) with (bp b j * 1) at 1 by ring. apply Qmult_le_l; auto.
Qed.

Lemma bp_lt : forall b j k, (1 < b)%Z -> (j < k)%Z -> bp b j < bp b k.
Proof.
  intros b j k H L. apply Qlt_le_trans with (bp b (j + 1)); [|apply bp_le; lia]. rewrite bp_succ by lia.
  pose proof (bp_pos b j ltac:(lia)) as P. assert (1 < inject_Z b) by (change 1 with (inject_Z 1); rewrite <- Zlt_Qlt; auto). nra.
Qed.

Lemma bp_lt_inv : forall b j k, (1 < b)%Z -> bp b j < bp b k -> (j < k)%Z.
Proof.
  intros b j k H L. destruct (Z.lt_ge_cases j k) as [|G]; auto. pose proof (bp_le b k j H G). lra.
Qed.

(** ** The fraction of the model *)

Definition fr (n d : Z) : Q := inject_Z n / inject_Z d.

Lemma fr_le : forall a n d, (0 < d)%Z -> (a <= fr n d <-> a * inject_Z d <= inject_Z n).
Proof.
  intros a n d H. assert (P : 0 < inject_Z d) by (change 0 with (inject_Z 0); rewrite <- Zlt_Qlt; auto). unfold fr. split; intro E.
  - apply (Qmult_le_r _ _ (inject_Z d) P) in E. unfold Qdiv in E. rewrite <- Qmult_assoc, (Qmult_comm (/ _)), Qmult_inv_r in E; [lra|lra].
  - apply Qle_shift_div_l; auto.
Qed.

Lemma pow_le_spec : forall b k n d, (0 < b)%Z -> (0 < d)%Z -> (pow_le b k n d = true <-> bp b k <= fr n d).
Proof.
  intros b k n d B D. rewrite fr_le by auto. unfold pow_le. destruct (Z.leb_spec 0 k) as [K|K].
  - rewrite bp_nonneg by auto. rewrite Z.leb_le, <- inject_Z_mult, <- Zle_Qle. reflexivity.
  - rewrite Z.leb_le, Zle_Qle, inject_Z_mult. rewrite <- (bp_nonneg b (- k)) by lia.
    pose proof (bp_pos b k B) as P. pose proof (bp_inv b k B) as I. pose proof (bp_pos b (- k) B) as P'.
    set (x := bp b k) in *. set (y := bp b (- k)) in *. split; intro E.
    + setoid_replace (inject_Z n) with (x * (inject_Z n * y)) by (setoid_replace (x * (inject_Z n * y)) with (x * y * inject_Z n) by ring; rewrite I; ring).
      apply Qmult_le_l; auto.
    + setoid_replace (inject_Z d) with (x * inject_Z d * y) by (setoid_replace (x * inject_Z d * y) with (x * y * inject_Z d) by ring; rewrite I; ring).
      apply Qmult_le_r; auto.
Qed.

Lemma scale_spec : forall b k n d, (0 < b)%Z -> (0 < d)%Z ->
  (0 < snd (scale b k n d))%Z /\ fr (fst (scale b k n d)) (snd (scale b k n d)) == fr n d * bp b k /\
  ((0 < n)%Z -> (0 < fst (scale b k n d))%Z).
Proof.
  intros b k n d B D. pose proof (inj_nz d D) as ND. unfold scale. destruct (Z.leb_spec 0 k) as [K|K]; cbn [fst snd].
  - split; [auto|]. split; [|intro; assert (0 < b ^ k)%Z by (apply Z.pow_pos_nonneg; lia); nia].
    unfold fr. rewrite inject_Z_mult, bp_nonneg by auto. field. auto.
  - assert (P : (0 < b ^ (- k))%Z) by (apply Z.pow_pos_nonneg; lia). pose proof (inj_nz _ P) as NP.
    split; [nia|]. split; [|auto].
    unfold fr. replace k with (- - k)%Z at 2 by lia. rewrite bp_neg by auto. rewrite bp_nonneg by lia. rewrite inject_Z_mult. field. auto.
Qed.

Lemma fr_pos : forall n d, (0 < n)%Z -> (0 < d)%Z -> 0 < fr n d.
Proof.
  intros n d N D. unfold fr. apply Qlt_shift_div_l; [change 0 with (inject_Z 0); rewrite <- Zlt_Qlt; auto|].
  rewrite Qmult_0_l. change 0 with (inject_Z 0). rewrite <- Zlt_Qlt. auto.
Qed.

(** ** The nearest integer *)

Definition near (x : Q) (r : Z) : Prop :=
  (inject_Z r - x <= 1 # 2 /\ x - inject_Z r <= 1 # 2) /\
  (inject_Z r - x == 1 # 2 \/ x - inject_Z r == 1 # 2 -> Z.even r = true).

Lemma rne_near : forall n d, (0 < d)%Z -> near (fr n d) (rne n d).
Proof.
  intros n d D. assert (P : 0 < inject_Z d) by (change 0 with (inject_Z 0); rewrite <- Zlt_Qlt; auto).
  pose proof (Z.div_mod (2 * n + d) (2 * d) ltac:(lia)) as E. pose proof (Z.mod_pos_bound (2 * n + d) (2 * d) ltac:(lia)) as M.
  set (q := ((2 * n + d) / (2 * d))%Z) in *. set (r := ((2 * n + d) mod (2 * d))%Z) in *.
  (* n / d - q = (r - d) / 2d *)
  assert (V : fr n d == inject_Z q + inject_Z (r - d) / inject_Z (2 * d)).
  { assert (E' : (2 * n = 2 * d * q + (r - d))%Z) by lia. apply (f_equal inject_Z) in E'.
    rewrite inject_Z_plus, !inject_Z_mult in E'. unfold fr. rewrite inject_Z_mult. change (inject_Z 2) with (2 # 1) in *.
    assert (X : inject_Z n == inject_Z d * inject_Z q + inject_Z (r - d) * (1 # 2)).
    { assert (Y : inject_Z 2 * inject_Z n == inject_Z 2 * inject_Z d * inject_Z q + inject_Z (r - d)) by (change (inject_Z 2) with (2 # 1); rewrite E'; reflexivity).
      change (inject_Z 2) with (2 # 1) in Y. lra. }
    rewrite X. field. lra. }
  assert (P2 : 0 < inject_Z (2 * d)) by (change 0 with (inject_Z 0); rewrite <- Zlt_Qlt; lia).
  set (t := inject_Z (r - d) / inject_Z (2 * d)) in *.
  assert (T1 : - (1 # 2) <= t).
  { unfold t. apply Qle_shift_div_l; auto. rewrite inject_Z_mult. assert (inject_Z (- d) <= inject_Z (r - d)) by (rewrite <- Zle_Qle; lia).
    rewrite inject_Z_opp in H. change (inject_Z 2) with (2 # 1). lra. }
  assert (T2 : t < 1 # 2).
  { unfold t. apply Qlt_shift_div_r; auto. rewrite inject_Z_mult. assert (inject_Z (r - d) < inject_Z d) by (rewrite <- Zlt_Qlt; lia).
    change (inject_Z 2) with (2 # 1). lra. }
  assert (T3 : t == - (1 # 2) -> r = 0%Z).
  { intro T. unfold t in T. assert (Y : inject_Z (r - d) == - (1 # 2) * inject_Z (2 * d)).
    { rewrite <- T. field. lra. }
    rewrite inject_Z_mult in Y. change (inject_Z 2) with (2 # 1) in Y. assert (Z2 : inject_Z (r - d) == inject_Z (- d)) by (rewrite inject_Z_opp; lra).
    apply (proj1 (inject_Z_injective _ _)) in Z2. lia. }
  unfold rne. fold q r. destruct (Z.eqb_spec r 0) as [R|R]; cbn [andb].
  - assert (T : t == - (1 # 2)).
    { unfold t. rewrite R. rewrite inject_Z_mult. change (0 - d)%Z with (- d)%Z. rewrite inject_Z_opp. change (inject_Z 2) with (2 # 1). field. lra. }
    destruct (Z.odd q) eqn:O; unfold near.
    + change (q - 1)%Z with (q + -1)%Z. rewrite inject_Z_plus. change (inject_Z (-1)) with (-1 # 1). split; [split; rewrite V; lra|].
      intros _. rewrite Z.even_add. rewrite <- (Z.negb_odd q), O. reflexivity.
    + split; [split; rewrite V; lra|]. intros _. rewrite <- Z.negb_odd, O. reflexivity.
  - unfold near. split; [split; rewrite V; lra|]. intros [H|H]; exfalso; [apply R, T3|]; rewrite V in H; lra.
Qed.

Lemma near_unique : forall x y r s, x == y -> near x r -> near y s -> r = s.
Proof.
  intros x y r s E [[A1 A2] A3] [[B1 B2] B3]. rewrite <- E in *.
  destruct (Z.lt_trichotomy r s) as [L|[L|L]]; auto; exfalso.
  - assert (S1 : (s = r + 1)%Z).
    { assert (H : inject_Z s - inject_Z r <= 1) by lra. assert (inject_Z s <= inject_Z (r + 1)) by (rewrite inject_Z_plus; change (inject_Z 1) with 1; lra).
      rewrite <- Zle_Qle in H0. lia. }
    subst s. rewrite inject_Z_plus in *. change (inject_Z 1) with 1 in *.
    assert (Z.even r = true) by (apply A3; right; lra). assert (Z.even (r + 1) = true) by (apply B3; left; lra).
    rewrite Z.even_add in H0. rewrite H in H0. discriminate.
  - assert (S1 : (r = s + 1)%Z).
    { assert (H : inject_Z r - inject_Z s <= 1) by lra. assert (inject_Z r <= inject_Z (s + 1)) by (rewrite inject_Z_plus; change (inject_Z 1) with 1; lra).
      rewrite <- Zle_Qle in H0. lia. }
    subst r. rewrite inject_Z_plus in *. change (inject_Z 1) with 1 in *.
    assert (Z.even (s + 1) = true) by (apply A3; left; lra). assert (Z.even s = true) by (apply B3; right; lra).
    rewrite Z.even_add in H. rewrite H0 in H. discriminate.
Qed.

Lemma near_strict : forall x r, inject_Z r - x < 1 # 2 -> x - inject_Z r < 1 # 2 -> near x r.
Proof. intros x r A B. split; [split; lra|]. intros [H|H]; lra. Qed.

Lemma rne_unique : forall n d x r, (0 < d)%Z -> fr n d == x -> near x r -> rne n d = r.
Proof. intros n d x r D E H. apply (near_unique (fr n d) x); auto. apply rne_near. auto. Qed.

(** ** The first digit *)

Definition firstd (b : Z) (x : Q) (k : Z) : Prop := bp b k <= x < bp b (k + 1).

Lemma firstd_unique : forall b x y j k, (1 < b)%Z -> x == y -> firstd b x j -> firstd b y k -> j = k.
Proof.
  intros b x y j k B E [A1 A2] [B1 B2]. rewrite <- E in *.
  assert (j < k + 1)%Z by (apply (bp_lt_inv b); auto; lra). assert (k < j + 1)%Z by (apply (bp_lt_inv b); auto; lra). lia.
Qed.

Lemma first_digit_spec : forall fuel k n d, (0 < d)%Z -> fr n d < bp 10 (k + 1) -> bp 10 (k - Z.of_nat fuel + 1) <= fr n d ->
  firstd 10 (fr n d) (first_digit fuel k n d).
Proof.
  induction fuel as [|fuel IH]; intros k n d D U L; cbn [first_digit].
  - change (Z.of_nat 0) with 0%Z in L. replace (k - 0 + 1)%Z with (k + 1)%Z in L by lia. lra.
  - destruct (pow_le 10 k n d) eqn:E.
    + apply pow_le_spec in E; [|lia|auto]. split; auto.
    + apply IH; auto.
      * replace (k - 1 + 1)%Z with k by lia. destruct (Qlt_le_dec (fr n d) (bp 10 k)) as [|G]; auto.
        apply pow_le_spec in G; [congruence|lia|auto].
      * replace (k - 1 - Z.of_nat fuel + 1)%Z with (k - Z.of_nat (S fuel) + 1)%Z by lia. auto.
Qed.

Lemma first_bit_spec : forall n d, (0 < n)%Z -> (0 < d)%Z -> firstd 2 (fr n d) (first_bit n d).
Proof.
  intros n d N D. destruct (Z.log2_spec n N) as [N1 N2]. destruct (Z.log2_spec d D) as [D1 D2].
  pose proof (Z.log2_nonneg n) as LN. pose proof (Z.log2_nonneg d) as LD.
  set (a := Z.log2 n) in *. set (b := Z.log2 d) in *.
  assert (P : 0 < inject_Z d) by (change 0 with (inject_Z 0); rewrite <- Zlt_Qlt; auto).
  assert (Qn1 : bp 2 a <= inject_Z n) by (rewrite bp_nonneg by auto; rewrite <- Zle_Qle; auto).
  assert (Qn2 : inject_Z n < bp 2 (a + 1)) by (rewrite bp_nonneg by lia; rewrite <- Zlt_Qlt; auto).
  assert (Qd1 : bp 2 b <= inject_Z d) by (rewrite bp_nonneg by auto; rewrite <- Zle_Qle; auto).
  assert (Qd2 : inject_Z d < bp 2 (b + 1)) by (rewrite bp_nonneg by lia; rewrite <- Zlt_Qlt; auto).
  (* 2^(a-b-1) <= n/d < 2^(a-b+1) *)
  assert (U : fr n d < bp 2 (a - b + 1)).
  { unfold fr. apply Qlt_shift_div_r; auto. apply Qlt_le_trans with (bp 2 (a - b + 1) * bp 2 b).
    - rewrite <- bp_add by lia. replace (a - b + 1 + b)%Z with (a + 1)%Z by lia. auto.
    - apply Qmult_le_l; [apply bp_pos; lia|auto]. }
  assert (L : bp 2 (a - b - 1) <= fr n d).
  { apply fr_le; auto. apply Qle_trans with (bp 2 (a - b - 1) * bp 2 (b + 1)).
    - apply Qmult_le_l; [apply bp_pos; lia|]. lra.
    - rewrite <- bp_add by lia. replace (a - b - 1 + (b + 1))%Z with a by lia. auto. }
  unfold first_bit. fold a b. destruct (pow_le 2 (a - b) n d) eqn:E.
  - apply pow_le_spec in E; [|lia|auto]. split; auto.
  - split; [exact L|]. replace (a - b - 1 + 1)%Z with (a - b)%Z by lia.
    destruct (Qlt_le_dec (fr n d) (bp 2 (a - b))) as [|G]; auto. apply pow_le_spec in G; [congruence|lia|auto].
Qed.

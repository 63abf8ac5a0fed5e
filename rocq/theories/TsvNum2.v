(** * Six-digit decimals and floats: the text of a float and the float of a text. *)
From Coq Require Import ZArith NArith QArith Qpower Qabs Lia Lqa List Bool SpecFloat.
From Verif Require Import Base Float32 FloatBits DivFacts TsvModel TsvSpec TsvNum.
Local Open Scope Q_scope.

(** ** Nearest in a floating grid *)

Lemma inj_pos : forall z, (0 < z)%Z -> 0 < inject_Z z.
Proof. intros z H. change 0 with (inject_Z 0). rewrite <- Zlt_Qlt. auto. Qed.

Lemma near_least : forall x r k, near x r -> Qabs (x - inject_Z r) <= Qabs (x - inject_Z k).
Proof.
  intros x r k [[A1 A2] _]. destruct (Z.eq_dec k r) as [->|N]; [apply Qle_refl|].
  apply Qle_trans with (1 # 2); [apply Qabs_Qle_condition; split; lra|].
  destruct (Z.lt_ge_cases k r) as [L|L].
  - assert (H : inject_Z k <= inject_Z (r + -1)) by (rewrite <- Zle_Qle; lia). rewrite inject_Z_plus in H. change (inject_Z (-1)) with (- (1)) in H.
    rewrite Qabs_pos; lra.
  - assert (H : inject_Z (r + 1) <= inject_Z k) by (rewrite <- Zle_Qle; lia). rewrite inject_Z_plus in H. change (inject_Z 1) with 1 in H.
    rewrite Qabs_neg; lra.
Qed.

Lemma Qabs_mult_pos : forall a u, 0 < u -> Qabs (a * u) == Qabs a * u.
Proof. intros a u H. rewrite Qabs_Qmult. rewrite (Qabs_pos u) by lra. reflexivity. Qed.

(** Spacing [b ^ c] at [v]: nothing of the form D' * b ^ q' is closer than the nearest
    multiple, if either D' * b ^ q' is a multiple too or it is below the first digit. *)
Lemma grid_nearest : forall b p c v r D' q', (1 < b)%Z -> (0 < p)%Z -> near (v * bp b (- c)) r ->
  (Z.abs D' < b ^ p)%Z -> ((c <= q')%Z \/ bp b (c + p - 1) <= v) ->
  Qabs (v - inject_Z r * bp b c) <= Qabs (v - inject_Z D' * bp b q').
Proof.
  intros b p c v r D' q' B P N HD C. pose proof (bp_pos b c ltac:(lia)) as U. pose proof (bp_inv b c ltac:(lia)) as I.
  assert (Sc : forall z, v - z * bp b c == (v * bp b (- c) - z) * bp b c).
  { intro z. setoid_replace ((v * bp b (- c) - z) * bp b c) with (v * (bp b c * bp b (- c)) - z * bp b c) by ring. rewrite I. ring. }
  assert (M : forall z, Qabs (v - inject_Z r * bp b c) <= Qabs (v - inject_Z z * bp b c)).
  { intro z. rewrite !Sc. rewrite !Qabs_mult_pos by auto. apply Qmult_le_r; auto. apply near_least. auto. }
  destruct (Z.le_gt_cases c q') as [L|G].
  - specialize (M (D' * b ^ (q' - c))%Z). replace q' with ((q' - c) + c)%Z at 1 by lia. rewrite bp_add by lia.
    rewrite (bp_nonneg b (q' - c)) by lia. rewrite inject_Z_mult in M. rewrite Qmult_assoc. exact M.
  - destruct C as [C|C]; [lia|]. specialize (M (b ^ (p - 1))%Z).
    rewrite <- (bp_nonneg b (p - 1)) in M by lia. rewrite <- bp_add in M by lia. replace (p - 1 + c)%Z with (c + p - 1)%Z in M by lia.
    eapply Qle_trans; [exact M|]. rewrite (Qabs_pos (v - bp b (c + p - 1))) by lra.
    assert (E : inject_Z D' * bp b q' <= bp b (c + p - 1)).
    { apply Qle_trans with (inject_Z (b ^ p) * bp b q').
      - apply Qmult_le_r; [apply bp_pos; lia|]. rewrite <- Zle_Qle. lia.
      - rewrite <- bp_nonneg by lia. rewrite <- bp_add by lia. apply bp_le; lia. }
    rewrite Qabs_pos; lra.
Qed.

(** ** Six digits *)

Lemma bp_const : forall b k z, (0 < b)%Z -> (0 <= k)%Z -> (b ^ k = z)%Z -> bp b k == inject_Z z.
Proof. intros b k z B K <-. apply bp_nonneg. auto. Qed.

Lemma near_range : forall x r a, near x r -> inject_Z a <= x -> (a <= r)%Z.
Proof.
  intros x r a [[A1 A2] A3] H. destruct (Z.le_gt_cases a r) as [|G]; auto. exfalso.
  assert (E : inject_Z (r + 1) <= inject_Z a) by (rewrite <- Zle_Qle; lia). rewrite inject_Z_plus in E. change (inject_Z 1) with 1 in E. lra.
Qed.

Lemma near_range_up : forall x r a, near x r -> x <= inject_Z a -> (r <= a)%Z.
Proof.
  intros x r a [[A1 A2] A3] H. destruct (Z.le_gt_cases r a) as [|G]; auto. exfalso.
  assert (E : inject_Z (a + 1) <= inject_Z r) by (rewrite <- Zle_Qle; lia). rewrite inject_Z_plus in E. change (inject_Z 1) with 1 in E. lra.
Qed.

Definition in_range (v : Q) : Prop := bp 10 (-51) <= v < bp 10 39.

Lemma dec6_spec : forall n d, (0 < n)%Z -> (0 < d)%Z -> in_range (fr n d) ->
  exists k0 D0, firstd 10 (fr n d) k0 /\ near (fr n d * bp 10 (- (k0 - 5))) D0 /\
    (100000 <= D0 <= 1000000)%Z /\
    dec6 n d = (if (D0 =? 1000000)%Z then (100000, k0 + 1) else (D0, k0))%Z.
Proof.
  intros n d N D [L U]. unfold dec6. set (k0 := first_digit 90 38 n d).
  assert (F : firstd 10 (fr n d) k0) by (apply first_digit_spec; auto).
  destruct (scale_spec 10 (5 - k0) n d ltac:(lia) D) as [S1 [S2 S3]]. destruct (scale 10 (5 - k0) n d) as [n' d']. cbn [fst snd] in *.
  replace (5 - k0)%Z with (- (k0 - 5))%Z in S2 by lia.
  exists k0, (rne n' d'). pose proof (rne_near n' d' S1) as R.
  assert (R' : near (fr n d * bp 10 (- (k0 - 5))) (rne n' d')).
  { destruct R as [[R1 R2] R3]. unfold near. rewrite S2 in *. auto. }
  split; [exact F|]. split; [exact R'|]. split; [|reflexivity].
  destruct F as [F1 F2]. pose proof (bp_pos 10 (- (k0 - 5)) ltac:(lia)) as P. split.
  - apply (near_range _ _ _ R'). setoid_replace (inject_Z 100000) with (bp 10 k0 * bp 10 (- (k0 - 5))).
    + apply Qmult_le_r; auto.
    + rewrite <- bp_add by lia. replace (k0 + - (k0 - 5))%Z with 5%Z by lia. reflexivity.
  - apply (near_range_up _ _ _ R'). setoid_replace (inject_Z 1000000) with (bp 10 (k0 + 1) * bp 10 (- (k0 - 5))).
    + apply Qmult_le_r; auto. lra.
    + rewrite <- bp_add by lia. replace (k0 + 1 + - (k0 - 5))%Z with 6%Z by lia. reflexivity.
Qed.

(** The value the digits stand for. *)
Definition dval (Dk : Z * Z) : Q := inject_Z (fst Dk) * bp 10 (snd Dk - 5).

Lemma dval_carry : forall k0, dval (100000, k0 + 1)%Z == inject_Z 1000000 * bp 10 (k0 - 5).
Proof.
  intros k0. unfold dval. cbn [fst snd]. replace (k0 + 1 - 5)%Z with (k0 - 5 + 1)%Z by lia. rewrite bp_succ by lia.
  change (inject_Z 1000000) with (inject_Z (100000 * 10)). rewrite inject_Z_mult. ring.
Qed.

Record six (v : Q) (D k : Z) : Prop := {
  six_range : (100000 <= D < 1000000)%Z;
  six_err : exists k0, firstd 10 v k0 /\ (k0 <= k <= k0 + 1)%Z /\
              Qabs (v - dval (D, k)) <= (1 # 2) * bp 10 (k0 - 5) /\
              forall D' q', (Z.abs D' < 10 ^ 6)%Z -> Qabs (v - dval (D, k)) <= Qabs (v - inject_Z D' * bp 10 q') }.

Lemma dec6_six : forall n d, (0 < n)%Z -> (0 < d)%Z -> in_range (fr n d) ->
  six (fr n d) (fst (dec6 n d)) (snd (dec6 n d)).
Proof.
  intros n d N D R. destruct (dec6_spec n d N D R) as [k0 [D0 [F [Nr [B E]]]]].
  assert (V : dval (fst (dec6 n d), snd (dec6 n d)) == inject_Z D0 * bp 10 (k0 - 5) /\ (100000 <= fst (dec6 n d) < 1000000)%Z /\ (k0 <= snd (dec6 n d) <= k0 + 1)%Z).
  { rewrite E. destruct (Z.eqb_spec D0 1000000) as [->|NE]; cbn [fst snd].
    - split; [apply dval_carry|lia].
    - split; [reflexivity|lia]. }
  destruct V as [V [V1 V2]]. constructor; [exact V1|]. exists k0. split; [exact F|]. split; [exact V2|]. rewrite !V.
  pose proof (bp_pos 10 (k0 - 5) ltac:(lia)) as P. split.
  - setoid_replace (fr n d - inject_Z D0 * bp 10 (k0 - 5)) with ((fr n d * bp 10 (- (k0 - 5)) - inject_Z D0) * bp 10 (k0 - 5)).
    + rewrite Qabs_mult_pos by auto. apply Qmult_le_r; auto. destruct Nr as [[? ?] _]. apply Qabs_Qle_condition. split; lra.
    + pose proof (bp_inv 10 (k0 - 5) ltac:(lia)) as I. setoid_replace ((fr n d * bp 10 (- (k0 - 5)) - inject_Z D0) * bp 10 (k0 - 5)) with
        (fr n d * (bp 10 (k0 - 5) * bp 10 (- (k0 - 5))) - inject_Z D0 * bp 10 (k0 - 5)) by ring. rewrite I. ring.
  - intros D' q' HD. rewrite V. apply (grid_nearest 10 6); auto; try lia. right. replace (k0 - 5 + 6 - 1)%Z with k0 by lia. apply F.
Qed.

(** Which fraction gets given digits. *)
Lemma dec6_unique : forall n d D k, (0 < n)%Z -> (0 < d)%Z -> in_range (fr n d) -> (100000 <= D < 1000000)%Z ->
  Qabs (fr n d - dval (D, k)) < (1 # 2) * bp 10 (k - 5) ->
  (D = 100000%Z -> Qabs (fr n d - dval (D, k)) < (1 # 2) * bp 10 (k - 6)) ->
  dec6 n d = (D, k).
Proof.
  intros n d D k N Hd R HD E1 E2. destruct (dec6_spec n d N Hd R) as [k0 [D0 [F [Nr [B E]]]]].
  set (v := fr n d) in *. pose proof (bp_pos 10 (k - 5) ltac:(lia)) as P. set (u := bp 10 (k - 5)) in *.
  assert (U5 : bp 10 k == 100000 * u). { replace k with (5 + (k - 5))%Z by lia. rewrite bp_add by lia. reflexivity. }
  assert (U6 : bp 10 (k + 1) == 1000000 * u). { replace (k + 1)%Z with (6 + (k - 5))%Z by lia. rewrite bp_add by lia. reflexivity. }
  apply Qabs_Qlt_condition in E1. unfold dval in E1. cbn [fst snd] in E1. fold u in E1.
  assert (HD1 : 100000 <= inject_Z D) by (change 100000 with (inject_Z 100000); rewrite <- Zle_Qle; lia).
  assert (HD2 : inject_Z D <= 999999) by (change 999999 with (inject_Z 999999); rewrite <- Zle_Qle; lia).
  assert (Du1 : 100000 * u <= inject_Z D * u) by (apply Qmult_le_r; auto).
  assert (Du2 : inject_Z D * u <= 999999 * u) by (apply Qmult_le_r; auto).
  destruct (Qlt_le_dec v (bp 10 k)) as [L|L].
  - (* just below a power of ten *)
    assert (D = 100000%Z).
    { destruct (Z.eq_dec D 100000) as [|NE]; auto. exfalso.
      assert (H : inject_Z 100001 <= inject_Z D) by (rewrite <- Zle_Qle; lia). change (inject_Z 100001) with 100001 in H.
      assert (100001 * u <= inject_Z D * u) by (apply Qmult_le_r; auto). lra. }
    subst D. specialize (E2 eq_refl). apply Qabs_Qlt_condition in E2. unfold dval in E2. cbn [fst snd] in E2. fold u in E2.
    pose proof (bp_pos 10 (k - 6) ltac:(lia)) as P'. set (w := bp 10 (k - 6)) in *.
    assert (Uw : u == 10 * w). { unfold u, w. replace (k - 5)%Z with (1 + (k - 6))%Z by lia. rewrite bp_add by lia. reflexivity. }
    change (inject_Z 100000) with 100000 in *.
    assert (Fk : firstd 10 v (k - 1)).
    { split; [|replace (k - 1 + 1)%Z with k by lia; auto]. replace (k - 1)%Z with (5 + (k - 6))%Z by lia. rewrite bp_add by lia.
      fold w. change (bp 10 5) with 100000. lra. }
    assert (k0 = k - 1)%Z by (apply (firstd_unique 10 v v); auto; [lia|reflexivity]). subst k0.
    assert (D0 = 1000000%Z).
    { apply (near_unique _ _ _ _ (Qeq_refl _) Nr). pose proof (bp_inv 10 (k - 6) ltac:(lia)) as I. replace (k - 1 - 5)%Z with (k - 6)%Z by lia.
      fold w in I. pose proof (bp_pos 10 (- (k - 6)) ltac:(lia)) as P2. set (w' := bp 10 (- (k - 6))) in *.
      assert (A1 : v * w' <= 1000000). { setoid_replace 1000000 with (1000000 * (w * w')) by (rewrite I; ring). rewrite Qmult_assoc. apply Qmult_le_r; auto. lra. }
      assert (A2 : 1000000 - (1 # 2) < v * w'). { setoid_replace (1000000 - (1 # 2)) with ((1000000 * w - (1 # 2) * w) * w') by (setoid_replace ((1000000 * w - (1 # 2) * w) * w') with ((1000000 - (1 # 2)) * (w * w')) by ring; rewrite I; ring). apply Qmult_lt_r; auto. lra. }
      apply near_strict; change (inject_Z 1000000) with 1000000; lra. }
    subst D0. rewrite E. cbn. f_equal. lia.
  - assert (Fk : firstd 10 v k) by (split; [auto|rewrite U6; lra]).
    assert (k0 = k) by (apply (firstd_unique 10 v v); auto; [lia|reflexivity]). subst k0.
    assert (D0 = D).
    { apply (near_unique _ _ _ _ (Qeq_refl _) Nr). pose proof (bp_inv 10 (k - 5) ltac:(lia)) as I. fold u in I.
      pose proof (bp_pos 10 (- (k - 5)) ltac:(lia)) as P2. set (u' := bp 10 (- (k - 5))) in *.
      assert (A1 : v * u' < inject_Z D + (1 # 2)). { setoid_replace (inject_Z D + (1 # 2)) with ((inject_Z D * u + (1 # 2) * u) * u') by (setoid_replace ((inject_Z D * u + (1 # 2) * u) * u') with ((inject_Z D + (1 # 2)) * (u * u')) by ring; rewrite I; ring). apply Qmult_lt_r; auto. lra. }
      assert (A2 : inject_Z D - (1 # 2) < v * u'). { setoid_replace (inject_Z D - (1 # 2)) with ((inject_Z D * u - (1 # 2) * u) * u') by (setoid_replace ((inject_Z D * u - (1 # 2) * u) * u') with ((inject_Z D - (1 # 2)) * (u * u')) by ring; rewrite I; ring). apply Qmult_lt_r; auto. lra. }
      apply near_strict; lra. }
    subst D0. rewrite E. destruct (Z.eqb_spec D 1000000); [lia|reflexivity].
Qed.

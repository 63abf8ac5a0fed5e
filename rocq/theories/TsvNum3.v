(** * The float of a text is the nearest one, and writing it again gives the same digits. *)
From Coq Require Import ZArith NArith QArith Qpower Qabs Lia Lqa List Bool SpecFloat.
From Verif Require Import Base Float32 FloatBits DivFacts TsvModel TsvSpec TsvNum TsvNum2.
Local Open Scope Q_scope.

(** The largest float. *)
Definition maxq : Q := inject_Z 16777215 * bp 2 104.

Lemma round32_eq : forall s n d n' d', (0 < n)%Z -> (0 < d)%Z -> (0 < n')%Z -> (0 < d')%Z -> fr n d == fr n' d' ->
  round32 s n d = round32 s n' d'.
Proof.
  intros s n d n' d' N D N' D' E. unfold round32.
  assert (B : first_bit n d = first_bit n' d').
  { apply (firstd_unique 2 (fr n d) (fr n' d')); auto; [lia|apply first_bit_spec; auto|apply first_bit_spec; auto]. }
  rewrite B. set (e := Z.max (first_bit n' d' - 23) (-149)).
  destruct (scale_spec 2 (- e) n d ltac:(lia) D) as [S1 [S2 _]]. destruct (scale_spec 2 (- e) n' d' ltac:(lia) D') as [T1 [T2 _]].
  destruct (scale 2 (- e) n d) as [a b]. destruct (scale 2 (- e) n' d') as [a' b']. cbn [fst snd] in *.
  assert (R : rne a b = rne a' b').
  { apply (near_unique (fr a b) (fr a' b')); [rewrite S2, T2, E; reflexivity|apply rne_near; auto|apply rne_near; auto]. }
  rewrite R. reflexivity.
Qed.

Lemma round32_spec : forall s n d, (0 < n)%Z -> (0 < d)%Z -> fr n d <= maxq ->
  exists e m x, round32 s n d = Some x /\ near (fr n d * bp 2 (- e)) m /\ (-149 <= e)%Z /\
    (e = (-149)%Z \/ bp 2 (e + 23) <= fr n d) /\ fr n d < bp 2 (e + 24) /\ (0 <= m <= 16777216)%Z /\
    (m = 0%Z -> x = S754_zero s) /\
    ((0 < m)%Z -> exists p e', x = S754_finite s p e' /\ f32_valid x = true /\ inject_Z (Zpos p) * bp 2 e' == inject_Z m * bp 2 e).
Proof.
  intros s n d N D M. pose proof (first_bit_spec n d N D) as F. unfold round32. set (E := first_bit n d) in *.
  set (e := Z.max (E - 23) (-149)). destruct (scale_spec 2 (- e) n d ltac:(lia) D) as [S1 [S2 S3]].
  destruct (scale 2 (- e) n d) as [a b]. cbn [fst snd] in *. specialize (S3 N). pose proof (rne_near a b S1) as R. set (m := rne a b) in *.
  assert (R' : near (fr n d * bp 2 (- e)) m). { destruct R as [[R1 R2] R3]. unfold near. rewrite S2 in *. auto. }
  pose proof (bp_pos 2 e ltac:(lia)) as P. pose proof (bp_pos 2 (- e) ltac:(lia)) as P'. pose proof (bp_inv 2 e ltac:(lia)) as I.
  assert (U : fr n d < bp 2 (e + 24)). { apply Qlt_le_trans with (bp 2 (E + 1)); [apply F|]. apply bp_le; unfold e; lia. }
  assert (L : e = (-149)%Z \/ bp 2 (e + 23) <= fr n d).
  { destruct (Z.eq_dec e (-149)) as [|NE]; [auto|right]. apply Qle_trans with (bp 2 E); [apply bp_le; unfold e in *; lia|apply F]. }
  pose proof (fr_pos n d N D) as V.
  assert (M0 : (0 <= m)%Z). { apply (near_range _ _ _ R'). change (inject_Z 0) with 0. assert (0 < fr n d * bp 2 (- e)) by (apply Qmult_lt_0_compat; auto). lra. }
  assert (M1 : (m <= 16777216)%Z).
  { apply (near_range_up _ _ _ R'). setoid_replace (inject_Z 16777216) with (bp 2 (e + 24) * bp 2 (- e)).
    - apply Qmult_le_r; auto. lra.
    - rewrite <- bp_add by lia. replace (e + 24 + - e)%Z with 24%Z by lia. reflexivity. }
  assert (M2 : (8388608 <= m)%Z \/ e = (-149)%Z).
  { destruct L as [L|L]; [auto|left]. apply (near_range _ _ _ R'). setoid_replace (inject_Z 8388608) with (bp 2 (e + 23) * bp 2 (- e)).
    - apply Qmult_le_r; auto.
    - rewrite <- bp_add by lia. replace (e + 23 + - e)%Z with 23%Z by lia. reflexivity. }
  assert (E1 : (e <= 104)%Z).
  { destruct (Z.le_gt_cases e 104) as [|G]; auto. exfalso. destruct L as [L|L]; [lia|].
    assert (H : bp 2 (24 + 104) <= bp 2 (e + 23)) by (apply bp_le; lia). rewrite bp_add in H by lia. change (bp 2 24) with (inject_Z 16777216) in H.
    unfold maxq in M. pose proof (bp_pos 2 104 ltac:(lia)). assert (inject_Z 16777215 * bp 2 104 < inject_Z 16777216 * bp 2 104).
    { apply Qmult_lt_r; [auto|reflexivity]. } lra. }
  assert (E2 : e = 104%Z -> (m <= 16777215)%Z).
  { intro E2. apply (near_range_up _ _ _ R'). rewrite E2 in *. unfold maxq in M. apply (Qmult_le_r _ _ _ P') in M.
    rewrite <- Qmult_assoc, I, Qmult_1_r in M. exact M. }
  exists e, m. destruct (Z.eqb_spec m 16777216) as [Em|Em].
  - assert (e <> 104%Z) by (intro; specialize (E2 H); lia). destruct (Z.ltb_spec 104 (e + 1)); [lia|].
    eexists. split; [reflexivity|]. repeat (split; auto). { unfold e. lia. } { lia. }
    intros _. exists 8388608%positive, (e + 1)%Z. split; [reflexivity|]. split.
    + apply valid_intro; [reflexivity|unfold e in *; lia|right; reflexivity || lia].
    + rewrite Em. rewrite bp_succ by lia. change (inject_Z 16777216) with (inject_Z (8388608 * 2)). rewrite inject_Z_mult. ring.
  - destruct (Z.ltb_spec 104 e); [lia|]. destruct m as [|p|p] eqn:Hm; [| |lia].
    + eexists. split; [reflexivity|]. repeat (split; auto). { unfold e. lia. } lia.
    + eexists. split; [reflexivity|]. repeat (split; auto). { unfold e. lia. } { discriminate. }
      intros _. exists p, e. split; [reflexivity|]. split; [|reflexivity].
      apply valid_intro; [change (2 ^ 24)%Z with 16777216%Z; lia|unfold e in *; lia|]. destruct M2; [right; change (2 ^ 23)%Z with 8388608%Z; lia|left; lia].
Qed.

(** The value of a finite float as a fraction. *)
Lemma float_frac : forall m e, (0 < fst (scale 2 e (Zpos m) 1))%Z /\ (0 < snd (scale 2 e (Zpos m) 1))%Z /\
  fr (fst (scale 2 e (Zpos m) 1)) (snd (scale 2 e (Zpos m) 1)) == inject_Z (Zpos m) * bp 2 e.
Proof.
  intros m e. destruct (scale_spec 2 e (Zpos m) 1 ltac:(lia) ltac:(lia)) as [A [B C]]. split; [apply C; lia|]. split; [auto|].
  rewrite B. unfold fr. change (inject_Z 1) with 1. field.
Qed.

Lemma dec_frac : forall D q, (0 < D)%Z -> (0 < fst (scale 10 q D 1))%Z /\ (0 < snd (scale 10 q D 1))%Z /\
  fr (fst (scale 10 q D 1)) (snd (scale 10 q D 1)) == inject_Z D * bp 10 q.
Proof.
  intros D q H. destruct (scale_spec 10 q D 1 ltac:(lia) ltac:(lia)) as [A [B C]]. split; [apply C; lia|]. split; [auto|].
  rewrite B. unfold fr. change (inject_Z 1) with 1. field.
Qed.

Lemma qcmp : forall a b c d : Z, (0 < b)%Z -> (0 < d)%Z -> (a * d < c * b)%Z -> fr a b < fr c d.
Proof.
  intros a b c d B D H. unfold fr. apply Qlt_shift_div_r; [apply inj_pos; auto|].
  setoid_replace (inject_Z c / inject_Z d * inject_Z b) with (inject_Z (c * b) / inject_Z d).
  - apply Qlt_shift_div_l; [apply inj_pos; auto|]. rewrite <- inject_Z_mult, <- Zlt_Qlt. auto.
  - rewrite inject_Z_mult. field. apply inj_nz. auto.
Qed.

Lemma tiny : bp 10 (-51) < bp 2 (-149).
Proof. vm_compute. reflexivity. Qed.
Lemma huge : maxq < bp 10 39.
Proof. vm_compute. reflexivity. Qed.

(** Every positive float is in the range the digits are computed for. *)
Lemma float_range : forall s m e, f32_valid (S754_finite s m e) = true ->
  bp 2 (-149) <= inject_Z (Zpos m) * bp 2 e /\ inject_Z (Zpos m) * bp 2 e <= maxq.
Proof.
  intros s m e H. destruct (digits_range m s e H) as [A [B C]]. change (2 ^ 24)%Z with 16777216%Z in A.
  pose proof (bp_pos 2 e ltac:(lia)) as P. split.
  - apply Qle_trans with (inject_Z 1 * bp 2 e).
    + change (inject_Z 1) with 1. rewrite Qmult_1_l. apply bp_le; lia.
    + apply Qmult_le_r; auto. rewrite <- Zle_Qle. lia.
  - unfold maxq. apply Qle_trans with (inject_Z 16777215 * bp 2 e).
    + apply Qmult_le_r; auto. rewrite <- Zle_Qle. lia.
    + apply Qmult_le_l; [apply inj_pos; lia|]. apply bp_le; lia.
Qed.

Lemma range_ok : forall v, bp 2 (-149) <= v -> v <= maxq -> in_range v.
Proof. intros v A B. pose proof tiny. pose proof huge. split; lra. Qed.

Lemma sci6_six : forall s m e, f32_valid (S754_finite s m e) = true ->
  six (inject_Z (Zpos m) * bp 2 e) (fst (sci6 m e)) (snd (sci6 m e)).
Proof.
  intros s m e H. destruct (float_frac m e) as [A [B C]]. unfold sci6. destruct (scale 2 e (Zpos m) 1) as [n d]. cbn [fst snd] in *.
  destruct (float_range s m e H) as [R1 R2].
  destruct (dec6_six n d A B) as [S1 [k0 [S2 [S3 [S4 S5]]]]]; [apply range_ok; rewrite C; auto|].
  constructor; [exact S1|]. exists k0. unfold firstd in *. rewrite C in *. split; [exact S2|]. split; [exact S3|]. split; [exact S4|].
  intros D' q' HD. rewrite <- C. apply S5. auto.
Qed.

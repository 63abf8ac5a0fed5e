(** * Writing a float, reading the text and writing again. *)
From Coq Require Import ZArith NArith QArith Qpower Qabs Lia Lqa List Bool SpecFloat.
From Verif Require Import Base Float32 FloatBits DivFacts TsvModel TsvSpec TsvNum TsvNum2 TsvNum3.
Local Open Scope Q_scope.

Definition limit : Q := inject_Z 340282 * bp 10 33.
Lemma limit_max : limit <= maxq.
Proof. vm_compute. discriminate. Qed.

(** The six digits of a float never exceed those of the largest float. *)
Lemma six_max : forall v D k, 0 < v -> v <= maxq -> six v D k -> dval (D, k) <= limit.
Proof.
  intros v D k V M [R [k0 [F [K [E _]]]]]. pose proof (bp_pos 10 (k - 5) ltac:(lia)) as P.
  assert (K0 : (k0 <= 38)%Z). { assert (k0 < 39)%Z; [|lia]. apply (bp_lt_inv 10); [lia|]. pose proof huge. destruct F. lra. }
  assert (Eu : bp 10 (k0 - 5) <= bp 10 (k - 5)) by (apply bp_le; lia). apply Qabs_Qle_condition in E.
  destruct (Z.lt_ge_cases k 38) as [L|L].
  - unfold dval, limit. cbn [fst snd]. apply Qle_trans with (inject_Z 1000000 * bp 10 (k - 5)).
    + apply Qmult_le_r; auto. rewrite <- Zle_Qle. lia.
    + apply Qle_trans with (inject_Z 1000000 * bp 10 32); [apply Qmult_le_l; [reflexivity|apply bp_le; lia]|vm_compute; discriminate].
  - (* k = 38 or 39 *)
    destruct (Qlt_le_dec limit (dval (D, k))) as [G|]; auto. exfalso.
    destruct (Z.eq_dec k 38) as [->|NE].
    + unfold dval in *. cbn [fst snd] in *. change (38 - 5)%Z with 33%Z in *. unfold limit in G.
      assert (HD : (340283 <= D)%Z). { apply Qmult_lt_r in G; auto. rewrite <- Zlt_Qlt in G. lia. }
      assert (G' : inject_Z 340283 * bp 10 33 <= inject_Z D * bp 10 33) by (apply Qmult_le_r; auto; rewrite <- Zle_Qle; auto).
      assert (X : maxq < inject_Z 340283 * bp 10 33 - (1 # 2) * bp 10 33) by (vm_compute; reflexivity). lra.
    + assert (k = 39%Z) by lia. subst k. assert (k0 = 38%Z) by lia. subst k0. unfold dval in *. cbn [fst snd] in *.
      assert (G' : inject_Z 100000 * bp 10 (39 - 5) <= inject_Z D * bp 10 (39 - 5)) by (apply Qmult_le_r; auto; rewrite <- Zle_Qle; lia).
      assert (X : maxq < inject_Z 100000 * bp 10 (39 - 5) - (1 # 2) * bp 10 (38 - 5)) by (vm_compute; reflexivity). lra.
Qed.

Lemma near_eq : forall x y r, x == y -> near x r -> near y r.
Proof. intros x y r E [[A B] C]. unfold near. rewrite <- E. auto. Qed.

(** The float strtof gives. *)
Lemma strtof_spec : forall s D q, (0 < D)%Z -> inject_Z D * bp 10 q <= maxq ->
  exists e m x, strtof s D q = Some x /\ near (inject_Z D * bp 10 q * bp 2 (- e)) m /\ (-149 <= e)%Z /\
    (e = (-149)%Z \/ bp 2 (e + 23) <= inject_Z D * bp 10 q) /\ inject_Z D * bp 10 q < bp 2 (e + 24) /\ (0 <= m <= 16777216)%Z /\
    (m = 0%Z -> x = S754_zero s) /\
    ((0 < m)%Z -> exists p e', x = S754_finite s p e' /\ f32_valid x = true /\ inject_Z (Zpos p) * bp 2 e' == inject_Z m * bp 2 e).
Proof.
  intros s D q H M. destruct (dec_frac D q H) as [A [B C]]. unfold strtof. destruct (Z.eqb_spec D 0); [lia|].
  destruct (scale 10 q D 1) as [n' d']. cbn [fst snd] in *. rewrite <- C in M.
  destruct (round32_spec s n' d' A B M) as [e [m [x [X1 [X2 [X3 [X4 [X5 X6]]]]]]]]. exists e, m, x.
  split; [exact X1|]. split; [apply (near_eq _ _ _ (Qmult_comp _ _ C _ _ (Qeq_refl _)) X2)|]. rewrite C in X4. rewrite C in X5. auto.
Qed.

Lemma canonical_unique : forall p e q f s, f32_valid (S754_finite s p e) = true -> f32_valid (S754_finite s q f) = true ->
  inject_Z (Zpos p) * bp 2 e == inject_Z (Zpos q) * bp 2 f -> S754_finite s p e = S754_finite s q f.
Proof.
  intros p e q f s V W E.
  assert (X : forall p e q f, f32_valid (S754_finite s p e) = true -> f32_valid (S754_finite s q f) = true ->
    inject_Z (Zpos p) * bp 2 e == inject_Z (Zpos q) * bp 2 f -> (e <= f)%Z -> S754_finite s p e = S754_finite s q f).
  { clear. intros p e q f V W E L. destruct (digits_range p s e V) as [P1 [P2 P3]]. destruct (digits_range q s f W) as [Q1 [Q2 Q3]].
    replace f with ((f - e) + e)%Z in E by lia. rewrite bp_add in E by lia. rewrite (bp_nonneg 2 (f - e)) in E by lia.
    rewrite Qmult_assoc, <- inject_Z_mult in E. pose proof (bp_pos 2 e ltac:(lia)) as P.
    apply Qmult_inj_r in E; [|lra]. apply (proj1 (inject_Z_injective _ _)) in E.
    destruct (Z.eq_dec e f) as [->|NE].
    - rewrite Z.sub_diag in E. cbn in E. f_equal. lia.
    - exfalso. assert (H : (2 ^ 1 <= 2 ^ (f - e))%Z) by (apply Z.pow_le_mono_r; lia). destruct Q3 as [Q3|Q3]; [lia|].
      change (2 ^ 23)%Z with 8388608%Z in *. change (2 ^ 24)%Z with 16777216%Z in *. change (2 ^ 1)%Z with 2%Z in H. nia. }
  destruct (Z.le_ge_cases e f); [apply X; auto|symmetry; apply X; auto; symmetry; auto].
Qed.

Lemma near_err : forall y e m, near (y * bp 2 (- e)) m -> Qabs (y - inject_Z m * bp 2 e) <= (1 # 2) * bp 2 e.
Proof.
  intros y e m [[A B] _]. pose proof (bp_pos 2 e ltac:(lia)) as P. pose proof (bp_inv 2 e ltac:(lia)) as I.
  setoid_replace (y - inject_Z m * bp 2 e) with ((y * bp 2 (- e) - inject_Z m) * bp 2 e).
  - rewrite Qabs_mult_pos by auto. apply Qmult_le_r; auto. apply Qabs_Qle_condition. split; lra.
  - setoid_replace ((y * bp 2 (- e) - inject_Z m) * bp 2 e) with (y * (bp 2 e * bp 2 (- e)) - inject_Z m * bp 2 e) by ring. rewrite I. ring.
Qed.

(** Writing, reading and writing again gives the same digits. *)
Lemma again : forall s m e, f32_valid (S754_finite s m e) = true ->
  exists p e', strtof s (fst (sci6 m e)) (snd (sci6 m e) - 5) = Some (S754_finite s p e') /\
    f32_valid (S754_finite s p e') = true /\ sci6 p e' = sci6 m e.
Proof.
  intros s m e V. destruct (float_range s m e V) as [R1 R2]. pose proof (sci6_six s m e V) as S6.
  set (v := inject_Z (Zpos m) * bp 2 e) in *. destruct (sci6 m e) as [D k] eqn:Hs. cbn [fst snd] in *.
  assert (Vp : 0 < v) by (pose proof (bp_pos 2 (-149) ltac:(lia)); lra).
  pose proof (six_max v D k Vp R2 S6) as Ly. destruct S6 as [RD [k0 [F [K [E _]]]]].
  set (y := dval (D, k)) in *. assert (Ey : y = inject_Z D * bp 10 (k - 5)) by reflexivity.
  pose proof (bp_pos 10 (k - 5) ltac:(lia)) as Pu. set (u := bp 10 (k - 5)) in *.
  assert (Y1 : inject_Z 100000 * u <= y) by (rewrite Ey; apply Qmult_le_r; auto; rewrite <- Zle_Qle; lia).
  assert (Y2 : y <= inject_Z 999999 * u) by (rewrite Ey; apply Qmult_le_r; auto; rewrite <- Zle_Qle; lia).
  change (inject_Z 100000) with 100000 in Y1. change (inject_Z 999999) with 999999 in Y2.
  assert (U0 : bp 10 (k0 - 5) <= u) by (apply bp_le; lia). apply Qabs_Qle_condition in E.
  assert (V0 : 100000 * bp 10 (k0 - 5) <= v).
  { destruct F as [F _]. replace k0 with (5 + (k0 - 5))%Z in F by lia. rewrite bp_add in F by lia. exact F. }
  pose proof (bp_pos 10 (k0 - 5) ltac:(lia)) as P0.
  assert (Yv : (1 # 2) * v < y) by lra.
  destruct (strtof_spec s D (k - 5)) as [e2 [m2 [x [X1 [X2 [X3 [X4 [X5 [X6 [X7 X8]]]]]]]]]]; [lia|fold u; rewrite <- Ey; pose proof limit_max; lra|].
  fold u in X2, X4, X5. rewrite <- Ey in X2, X4, X5. pose proof (near_err y e2 m2 X2) as Er. apply Qabs_Qle_condition in Er.
  pose proof (bp_pos 2 e2 ltac:(lia)) as Pe.
  destruct (Z.le_gt_cases k (-40)) as [KS|KS].
  - (* u < 2^-149: the float is read back *)
    assert (U1 : u < bp 2 (-149)). { apply Qle_lt_trans with (bp 10 (-45)); [apply bp_le; lia|vm_compute; reflexivity]. }
    assert (Ymax : y < bp 2 (-127)).
    { apply Qle_lt_trans with (999999 * bp 10 (-45)); [|vm_compute; reflexivity].
      apply Qle_trans with (999999 * u); auto. apply Qmult_le_l; [reflexivity|apply bp_le; lia]. }
    assert (e2 = (-149)%Z).
    { destruct X4 as [X4|X4]; auto. assert (e2 + 23 < -127)%Z; [|lia]. apply (bp_lt_inv 2); [lia|]. lra. }
    subst e2.
    assert (Vmax : v < bp 2 (-126)).
    { assert (B1 : bp 2 (-127) + bp 2 (-149) < bp 2 (-126)) by (vm_compute; reflexivity). lra. }
    assert (Ee : e = (-149)%Z).
    { destruct (digits_range m s e V) as [G1 [G2 G3]]. destruct G3 as [G3|G3]; auto.
      assert (23 + e < -126)%Z; [|lia]. apply (bp_lt_inv 2); [lia|]. rewrite bp_add by lia.
      apply Qle_lt_trans with v; auto. unfold v. apply Qmult_le_r; [apply bp_pos; lia|]. change (bp 2 23) with (inject_Z (2 ^ 23)). rewrite <- Zle_Qle. auto. }
    subst e. assert (m2 = Zpos m).
    { apply (near_unique _ _ _ _ (Qeq_refl _) X2). pose proof (bp_inv 2 (-149) ltac:(lia)) as I. pose proof (bp_pos 2 (- -149) ltac:(lia)) as P2.
      set (w := bp 2 (-149)) in *. set (w' := bp 2 (- -149)) in *.
      assert (I1 : inject_Z (Zpos m) == v * w') by (unfold v; rewrite <- Qmult_assoc, I; ring).
      assert (I2 : (1 # 2) == (1 # 2) * w * w') by (rewrite <- Qmult_assoc, I; ring).
      apply near_strict.
      - rewrite I1. rewrite I2. setoid_replace (v * w' - y * w') with ((v - y) * w') by ring. apply Qmult_lt_r; auto. lra.
      - rewrite I1. rewrite I2. setoid_replace (y * w' - v * w') with ((y - v) * w') by ring. apply Qmult_lt_r; auto. lra. }
    destruct (X8 ltac:(lia)) as [p [e' [-> [Vx Ex]]]].
    assert (Eq : S754_finite s p e' = S754_finite s m (-149)) by (apply canonical_unique; auto; rewrite Ex, H; reflexivity).
    inversion Eq; subst. exists m, (-149)%Z. auto.
  - (* the float is within half a digit of the text *)
    assert (M2 : (0 < m2)%Z).
    { destruct (Z.eq_dec m2 0) as [Z0|]; [|lia]. exfalso. rewrite Z0 in Er. change (inject_Z 0) with 0 in Er. rewrite Qmult_0_l in Er.
      destruct X4 as [->|X4].
      - assert (B1 : bp 10 (-39) <= y). { apply Qle_trans with (bp 10 k); [apply bp_le; lia|]. replace k with (5 + (k - 5))%Z by lia. rewrite bp_add by lia. exact Y1. }
        assert (B2 : bp 2 (-149) < bp 10 (-39)) by (vm_compute; reflexivity). lra.
      - rewrite bp_add in X4 by lia. change (bp 2 23) with 8388608 in X4. lra. }
    destruct (X8 M2) as [p [e' [-> [Vx Ex]]]]. exists p, e'. split; [exact X1|]. split; [exact Vx|].
    destruct (float_range s p e' Vx) as [T1 T2]. destruct (float_frac p e') as [A [B C]]. unfold sci6 in *. destruct (scale 2 e' (Zpos p) 1) as [n' d'] eqn:Hsc. cbn [fst snd] in *.
    assert (IR : in_range (fr n' d')) by (unfold in_range; rewrite C; apply range_ok; auto).
    destruct (Z.eq_dec D 100000) as [HD|HD]; [destruct (Z.eq_dec k (-39)) as [Hk|Hk]|].
    + subst D k. assert (W : strtof s 100000 (-39 - 5) = Some (S754_finite s 713624 (-149))) by (destruct s; vm_compute; reflexivity).
      rewrite W in X1. inversion X1; subst p e'. cbn in Hsc. inversion Hsc; subst n' d'. vm_compute. reflexivity.
    + (* a power of ten *)
      assert (Ht : (1 # 2) * bp 2 e2 < (1 # 2) * bp 10 (k - 6)).
      { assert (bp 2 e2 < bp 10 (k - 6)); [|lra]. assert (Eu : u == 10 * bp 10 (k - 6)).
        { unfold u. replace (k - 5)%Z with (1 + (k - 6))%Z by lia. rewrite bp_add by lia. reflexivity. }
        destruct X4 as [->|X4].
        - apply Qlt_le_trans with (bp 10 (-44)); [vm_compute; reflexivity|apply bp_le; lia].
        - rewrite bp_add in X4 by lia. change (bp 2 23) with 8388608 in X4. assert (y == 100000 * u) by (rewrite Ey, HD; reflexivity). lra. }
      assert (Eu : bp 10 (k - 6) <= u) by (apply bp_le; lia).
      apply dec6_unique; auto.
      * rewrite C, Ex. fold y u. apply Qabs_Qlt_condition. lra.
      * intros _. rewrite C, Ex. fold y. apply Qabs_Qlt_condition. lra.
    + assert (Ht : (1 # 2) * bp 2 e2 < (1 # 2) * u).
      { assert (bp 2 e2 < u); [|lra]. destruct X4 as [->|X4].
        - apply Qlt_le_trans with (bp 10 (-44)); [vm_compute; reflexivity|apply bp_le; lia].
        - rewrite bp_add in X4 by lia. change (bp 2 23) with 8388608 in X4. lra. }
      apply dec6_unique; auto.
      * rewrite C, Ex. fold y u. apply Qabs_Qlt_condition. lra.
      * intro; contradiction.
Qed.

(** ** Nearest: the statements of the specification *)

Lemma fvalue_bp : forall s m e, fvalue (S754_finite s m e) == (if s then - (inject_Z (Zpos m) * bp 2 e) else inject_Z (Zpos m) * bp 2 e).
Proof. intros s m e. unfold fvalue, signed. change ((2 # 1) ^ e) with (bp 2 e). destruct s; [rewrite inject_Z_opp; ring|reflexivity]. Qed.

(** A finite float is an integer below 2^24 times a power of two from 2^-149 on. *)
Lemma finite_form : forall g, finite g -> exists z q, (Z.abs z < 2 ^ 24)%Z /\ (-149 <= q)%Z /\ fvalue g == inject_Z z * bp 2 q.
Proof.
  intros g H. destruct g as [s|s| |s m e]; cbn in H; try contradiction.
  - exists 0%Z, 0%Z. split; [reflexivity|]. split; [lia|]. reflexivity.
  - destruct (digits_range m s e H) as [A [B _]]. exists (signed s (Zpos m)), e. split; [unfold signed; destruct s; lia|]. split; [lia|]. reflexivity.
Qed.

Lemma Qabs_flip : forall a b, Qabs (- a - - b) == Qabs (a - b).
Proof. intros a b. setoid_replace (- a - - b) with (- (a - b)) by ring. apply Qabs_opp. Qed.

Lemma finite_neg : forall g, finite g -> finite (SFopp g) /\ fvalue (SFopp g) == - fvalue g.
Proof.
  intros g H. destruct g as [s|s| |s m e]; cbn in H; try contradiction; cbn [SFopp].
  - split; [exact I|reflexivity].
  - split; [exact H|]. rewrite !fvalue_bp. destruct s; cbn [negb]; ring.
Qed.

Lemma strtof_closest : forall s D q x, (0 < D)%Z -> inject_Z D * bp 10 q <= maxq -> strtof s D q = Some x ->
  closest_float (if s then - (inject_Z D * bp 10 q) else inject_Z D * bp 10 q) x.
Proof.
  intros s D q x HD M X. destruct (strtof_spec s D q HD M) as [e [m [x' [X1 [X2 [X3 [X4 [X5 [X6 [X7 X8]]]]]]]]]].
  assert (x' = x) by congruence. subst x'. set (y := inject_Z D * bp 10 q) in *.
  assert (Fv : fvalue x == (if s then - (inject_Z m * bp 2 e) else inject_Z m * bp 2 e) /\ finite x).
  { destruct (Z.eq_dec m 0) as [Em|Em].
    - rewrite (X7 Em). split; [|exact I]. rewrite Em. change (inject_Z 0) with 0. cbn [fvalue]. destruct s; ring.
    - destruct (X8 ltac:(lia)) as [p [e' [-> [Vx Ex]]]]. split; [|exact Vx]. rewrite fvalue_bp. destruct s; rewrite Ex; reflexivity. }
  destruct Fv as [Fv Fx]. split; [exact Fx|].
  assert (Pos : forall g, finite g -> Qabs (y - inject_Z m * bp 2 e) <= Qabs (y - fvalue g)).
  { intros g Hg. destruct (finite_form g Hg) as [z [f [Z1 [Z2 Z3]]]]. rewrite Z3. apply (grid_nearest 2 24); auto; try lia.
    destruct X4 as [->|X4]; [left; lia|right]. replace (e + 24 - 1)%Z with (e + 23)%Z by lia. auto. }
  intros g Hg. rewrite Fv. destruct s; [|apply Pos; auto].
  destruct (finite_neg g Hg) as [G1 G2]. specialize (Pos _ G1). rewrite Qabs_flip. eapply Qle_trans; [exact Pos|].
  rewrite G2. rewrite <- (Qabs_flip y (- fvalue g)). setoid_replace (- y - - - fvalue g) with (- y - fvalue g) by ring. apply Qle_refl.
Qed.

Lemma six_closest : forall (s : bool) v D k, six v D k ->
  closest_decimal (if s then - v else v) (if s then - dval (D, k) else dval (D, k)).
Proof.
  intros s v D k [R [k0 [F [K [E C]]]]]. split.
  - exists (signed s D), (k - 5)%Z. split; [unfold signed; destruct s; lia|]. unfold dval, signed. cbn [fst snd]. change ((10 # 1) ^ (k - 5)) with (bp 10 (k - 5)).
    destruct s; [rewrite inject_Z_opp; ring|reflexivity].
  - intros y' [D' [q' [HD Hy]]]. change ((10 # 1) ^ q') with (bp 10 q') in Hy. rewrite Hy. destruct s; [|apply C; lia].
    rewrite Qabs_flip. specialize (C (- D')%Z q' ltac:(lia)). rewrite inject_Z_opp in C. eapply Qle_trans; [exact C|].
    rewrite <- (Qabs_flip v). setoid_replace (- v - - (- inject_Z D' * bp 10 q')) with (- v - inject_Z D' * bp 10 q') by ring. apply Qle_refl.
Qed.

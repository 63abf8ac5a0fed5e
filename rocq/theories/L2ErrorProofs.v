(** Error of the float distances against the exact real sums, in every order of additions. *)
From Coq Require Import ZArith Reals Lra Lia List Arith Bool Permutation Floats.SpecFloat.
From Flocq Require Import Core Relative Plus_error.
From Verif Require Import Base Float32 DivFacts DistSpec DistModel FusedModel RealSpec FloatReal.
Import ListNotations.
Local Open Scope R_scope.

Lemma ulp_bpow : ulp = / 2 * bpow radix2 (-24 + 1).
Proof.
  unfold ulp. change 2 with (IZR radix2) at 1. rewrite <- bpow_powerRZ. change (-24)%Z with (-1 + (-24 + 1))%Z at 1. rewrite bpow_plus. f_equal.
Qed.
Lemma tiny_bpow : tiny = / 2 * bpow radix2 (-149).
Proof.
  unfold tiny. change 2 with (IZR radix2) at 1. rewrite <- bpow_powerRZ. change (-150)%Z with (-1 + -149)%Z. rewrite bpow_plus. f_equal.
Qed.
Lemma ulp_pos : 0 < ulp < 1.
Proof.
  unfold ulp. change 2 with (IZR radix2) at 1 2. rewrite <- bpow_powerRZ. split; [apply bpow_gt_0|].
  change 1 with (bpow radix2 0). apply bpow_lt. lia.
Qed.
Lemma tiny_pos : 0 < tiny.
Proof. unfold tiny. apply powerRZ_lt. lra. Qed.

Lemma real_format : forall x, f32_valid x = true -> generic_format radix2 (FLT_exp (-149) 24) (real x).
Proof. intros x V. destruct (to_B x V) as [b <-]. rewrite real_B2R. apply B_format. Qed.

Lemma ro_bound : u_ro radix2 24 / (1 + u_ro radix2 24) <= ulp.
Proof.
  unfold u_ro. pose proof ulp_bpow as U. change (-24 + 1)%Z with (- (24) + 1)%Z in U. rewrite <- U. pose proof ulp_pos. apply Rmult_le_reg_r with (1 + ulp); [lra|].
  unfold Rdiv. rewrite Rmult_assoc, Rinv_l by lra. nra.
Qed.

Lemma fadd_real : forall x y, f32_valid x = true -> f32_valid y = true -> finite x -> finite y -> finite (fadd x y) ->
  f32_valid (fadd x y) = true /\ exists d, Rabs d <= ulp /\ real (fadd x y) = (real x + real y) * (1 + d).
Proof.
  intros x y Vx Vy Fx Fy F. destruct (fadd_rnd x y Vx Vy Fx Fy F) as [V E]. split; [auto|].
  destruct (FLT_plus_error_N_ex radix2 (-149) 24 (fun z => negb (Z.even z)) (real x) (real y) (real_format x Vx) (real_format y Vy)) as [d [Hd H]].
  exists d. split; [pose proof ro_bound; lra|]. rewrite E. exact H.
Qed.

Lemma fsub_real : forall x y, f32_valid x = true -> f32_valid y = true -> finite x -> finite y -> finite (fsub x y) ->
  f32_valid (fsub x y) = true /\ exists d, Rabs d <= ulp /\ real (fsub x y) = (real x - real y) * (1 + d).
Proof.
  intros x y Vx Vy Fx Fy F. destruct (fsub_rnd x y Vx Vy Fx Fy F) as [V E]. split; [auto|].
  destruct (FLT_plus_error_N_ex radix2 (-149) 24 (fun z => negb (Z.even z)) (real x) (- real y) (real_format x Vx)) as [d [Hd H]].
  { apply generic_format_opp, real_format, Vy. }
  exists d. split; [pose proof ro_bound; lra|]. rewrite E. exact H.
Qed.

Lemma fmul_real : forall x y, f32_valid x = true -> f32_valid y = true -> finite (fmul x y) ->
  f32_valid (fmul x y) = true /\ exists d e, Rabs d <= ulp /\ Rabs e <= tiny /\ real (fmul x y) = real x * real y * (1 + d) + e.
Proof.
  intros x y Vx Vy F. destruct (fmul_rnd x y Vx Vy F) as [V E]. split; [auto|].
  destruct (relative_error_N_FLT'_ex radix2 (-149) 24 prec_pos (fun z => negb (Z.even z)) (real x * real y)) as [d [e [Hd [He [_ H]]]]].
  exists d, e. split; [pose proof ro_bound; lra|]. split; [rewrite tiny_bpow; exact He|]. rewrite E. exact H.
Qed.

Lemma ffma_real : forall x y z, finite x -> finite y -> finite z -> finite (ffma x y z) ->
  f32_valid (ffma x y z) = true /\ exists d e, Rabs d <= ulp /\ Rabs e <= tiny /\ real (ffma x y z) = (real x * real y + real z) * (1 + d) + e.
Proof.
  intros x y z Fx Fy Fz F. destruct (ffma_rnd x y z Fx Fy Fz F) as [V E]. split; [auto|].
  destruct (relative_error_N_FLT'_ex radix2 (-149) 24 prec_pos (fun z => negb (Z.even z)) (real x * real y + real z)) as [d [e [Hd [He [_ H]]]]].
  exists d, e. split; [pose proof ro_bound; lra|]. split; [rewrite tiny_bpow; exact He|]. rewrite E. exact H.
Qed.

(** A finite result has finite arguments. *)
Lemma fadd_finite : forall x y, finite (fadd x y) -> finite x /\ finite y.
Proof. intros [s|[]| |s m e] [s'|[]| |s' m' e'] H; cbn in *; tauto. Qed.
Lemma fsub_finite : forall x y, finite (fsub x y) -> finite x /\ finite y.
Proof. intros [s|[]| |s m e] [s'|[]| |s' m' e'] H; cbn in *; tauto. Qed.
Lemma fmul_finite : forall x y, finite (fmul x y) -> finite x /\ finite y.
Proof. intros [s|[]| |s m e] [s'|[]| |s' m' e'] H; cbn in *; tauto. Qed.
Lemma ffma_finite : forall x y z, finite (ffma x y z) -> finite x /\ finite y /\ finite z.
Proof.
  intros x y z H. unfold ffma in H.
  destruct (f_int x) as [[mx ex]|] eqn:Ex; [|apply fadd_finite in H; destruct H as [H ?]; apply fmul_finite in H; tauto].
  destruct (f_int y) as [[my ey]|] eqn:Ey; [|apply fadd_finite in H; destruct H as [H ?]; apply fmul_finite in H; tauto].
  destruct x; try discriminate; destruct y; try discriminate; (split; [exact I|]; split; [exact I|]); destruct z; cbn in *; tauto.
Qed.

(** ** Real sums *)
Notation E k := ((1 + ulp) ^ k).
Lemma E_ge : forall k, 1 <= E k.
Proof. intros k. apply pow_R1_Rle. pose proof ulp_pos. lra. Qed.
Lemma E_mono : forall k l, (k <= l)%nat -> E k <= E l.
Proof. intros k l H. apply Rle_pow; auto. pose proof ulp_pos. lra. Qed.

Definition isum (f : nat -> R) (l : list nat) : R := real_sum (map f l).
Lemma isum_app : forall f l m, isum f (l ++ m) = isum f l + isum f m.
Proof. intros f l m. unfold isum, real_sum. induction l as [|x l IH]; cbn; [lra|]. rewrite IH. lra. Qed.
Lemma isum_cons : forall f i l, isum f (i :: l) = f i + isum f l.
Proof. reflexivity. Qed.
Lemma isum_nonneg : forall f l, (forall i, In i l -> 0 <= f i) -> 0 <= isum f l.
Proof.
  intros f l. unfold isum, real_sum. induction l as [|x l IH]; cbn; intros H; [lra|]. pose proof (H x (or_introl eq_refl)).
  assert (0 <= fold_right Rplus 0 (map f l)) by (apply IH; auto). lra.
Qed.
Lemma isum_abs : forall e m l, (forall i, In i l -> Rabs (e i) <= m i) -> Rabs (isum e l) <= isum m l.
Proof.
  intros e m l. unfold isum, real_sum. induction l as [|x l IH]; cbn; intros H; [rewrite Rabs_R0; lra|].
  assert (Rabs (fold_right Rplus 0 (map e l)) <= fold_right Rplus 0 (map m l)) by (apply IH; auto). specialize (H x (or_introl eq_refl)).
  pose proof (Rabs_triang (e x) (fold_right Rplus 0 (map e l))). lra.
Qed.
Lemma isum_perm : forall f l m, Permutation l m -> isum f l = isum f m.
Proof. intros f l m H. unfold isum, real_sum. induction H; cbn in *; lra. Qed.

(** ** The error of one addition *)
(** [err c n S M v]: v is within the allowed error of S, a sum of n products, the sum of
    whose magnitudes is M. *)
Definition err (c n : nat) (S M v : R) : Prop :=
  match n with
  | O => v = 0
  | Datatypes.S k => Rabs (v - S) <= (E (c + k) - 1) * M + INR n * tiny * E k
  end.

Lemma err_weak : forall c n S M v k, n <> O -> (n <= Datatypes.S k)%nat -> 0 <= M -> err c n S M v -> Rabs (v - S) <= (E (c + k) - 1) * M + INR n * tiny * E k.
Proof.
  intros c [|n] S M v k N H P B; [congruence|]. unfold err in B. eapply Rle_trans; [exact B|]. apply Rplus_le_compat.
  - apply Rmult_le_compat_r; auto. apply Rplus_le_compat_r, E_mono. lia.
  - apply Rmult_le_compat_l; [|apply E_mono; lia]. pose proof tiny_pos. apply Rmult_le_pos; [apply pos_INR|lra].
Qed.

(** Adding two sums, with relative error d. *)
Lemma err_add : forall c n n' S S' M M' v v' d, n <> O -> n' <> O -> 0 <= M -> 0 <= M' -> Rabs S <= M -> Rabs S' <= M' ->
  err c n S M v -> err c n' S' M' v' -> Rabs d <= ulp -> err c (n + n') (S + S') (M + M') ((v + v') * (1 + d)).
Proof.
  intros c n n' S S' M M' v v' d N N' P P' A A' B B' Hd.
  destruct (n + n')%nat as [|k] eqn:K; [lia|]. unfold err.
  apply (err_weak c n S M v (k - 1)) in B; [|auto|lia|auto]. apply (err_weak c n' S' M' v' (k - 1)) in B'; [|auto|lia|auto].
  pose proof ulp_pos as U. pose proof tiny_pos as T.
  assert (Es : E (c + k) = E (c + (k - 1)) * (1 + ulp)) by (replace (c + k)%nat with (Datatypes.S (c + (k - 1))) by lia; cbn; ring).
  assert (Es' : E k = E (k - 1) * (1 + ulp)) by (replace k with (Datatypes.S (k - 1)) at 1 by lia; cbn; ring).
  rewrite <- K, plus_INR, Es, Es'. set (G := E (c + (k - 1))) in *. set (G' := E (k - 1)) in *.
  replace ((v + v') * (1 + d) - (S + S')) with ((v - S + (v' - S')) * (1 + d) + d * (S + S')) by ring.
  eapply Rle_trans; [apply Rabs_triang|]. rewrite !Rabs_mult.
  assert (Hd1 : Rabs (1 + d) <= 1 + ulp) by (eapply Rle_trans; [apply Rabs_triang|]; rewrite Rabs_R1; lra).
  assert (S1 : Rabs (S + S') <= M + M') by (eapply Rle_trans; [apply Rabs_triang|]; lra).
  assert (S2 : Rabs (v - S + (v' - S')) <= (G - 1) * (M + M') + (INR n + INR n') * tiny * G') by (eapply Rle_trans; [apply Rabs_triang|]; lra).
  assert (Q1 : Rabs (v - S + (v' - S')) * Rabs (1 + d) <= ((G - 1) * (M + M') + (INR n + INR n') * tiny * G') * (1 + ulp)) by (apply Rmult_le_compat; auto using Rabs_pos).
  assert (Q2 : Rabs d * Rabs (S + S') <= ulp * (M + M')) by (apply Rmult_le_compat; auto using Rabs_pos).
  replace ((INR n + INR n') * tiny * (G' * (1 + ulp))) with ((INR n + INR n') * tiny * G' * (1 + ulp)) by ring. lra.
Qed.

(** A rounded product: the factors' product p is within (1+ulp)^c. *)
Lemma err_item : forall c S M p d e, 0 <= M -> Rabs S <= M -> Rabs (p - S) <= (E c - 1) * M -> Rabs d <= ulp -> Rabs e <= tiny -> err (Datatypes.S c) 1 S M (p * (1 + d) + e).
Proof.
  intros c S M p d e P A B Hd He. unfold err. pose proof ulp_pos as U. rewrite Nat.add_0_r. cbn [INR pow]. rewrite !Rmult_1_r, Rmult_1_l.
  replace (p * (1 + d) + e - S) with ((p - S) * (1 + d) + d * S + e) by ring.
  assert (Hd1 : Rabs (1 + d) <= 1 + ulp) by (eapply Rle_trans; [apply Rabs_triang|]; rewrite Rabs_R1; lra).
  eapply Rle_trans; [apply Rabs_triang|]. assert (Q := Rabs_triang ((p - S) * (1 + d)) (d * S)). rewrite !Rabs_mult in Q.
  assert (Q1 : Rabs (p - S) * Rabs (1 + d) <= (E c - 1) * M * (1 + ulp)) by (apply Rmult_le_compat; auto using Rabs_pos).
  assert (Q2 : Rabs d * Rabs S <= ulp * M) by (apply Rmult_le_compat; auto using Rabs_pos). lra.
Qed.

(** A fused product and sum. *)
Lemma err_fma : forall c n S S' M M' p v d e, n <> O -> 0 <= M -> 0 <= M' -> Rabs S <= M -> Rabs S' <= M' ->
  Rabs (p - S) <= (E c - 1) * M -> err (Datatypes.S c) n S' M' v -> Rabs d <= ulp -> Rabs e <= tiny ->
  err (Datatypes.S c) (Datatypes.S n) (S + S') (M + M') ((p + v) * (1 + d) + e).
Proof.
  intros c n S S' M M' p v d e N P P' A A' B B' Hd He.
  assert (Bp : Rabs (p - S) <= (E (Datatypes.S c + (n - 1)) - 1) * M).
  { eapply Rle_trans; [exact B|]. apply Rmult_le_compat_r; auto. apply Rplus_le_compat_r, E_mono. lia. }
  apply (err_weak _ n S' M' v (n - 1)) in B'; [|auto|lia|auto].
  unfold err. pose proof ulp_pos as U. pose proof tiny_pos as T.
  assert (Es : E (Datatypes.S c + n) = E (Datatypes.S c + (n - 1)) * (1 + ulp)) by (replace (Datatypes.S c + n)%nat with (Datatypes.S (Datatypes.S c + (n - 1))) by lia; cbn; ring).
  assert (Es' : E n = E (n - 1) * (1 + ulp)) by (replace n with (Datatypes.S (n - 1)) at 1 by lia; cbn; ring).
  pose proof (E_ge n) as G1.
  rewrite S_INR. rewrite Es. set (G := E (Datatypes.S c + (n - 1))) in *.
  replace ((p + v) * (1 + d) + e - (S + S')) with ((p - S + (v - S')) * (1 + d) + d * (S + S') + e) by ring.
  eapply Rle_trans; [apply Rabs_triang|]. assert (Q := Rabs_triang ((p - S + (v - S')) * (1 + d)) (d * (S + S'))). rewrite !Rabs_mult in Q.
  assert (Hd1 : Rabs (1 + d) <= 1 + ulp) by (eapply Rle_trans; [apply Rabs_triang|]; rewrite Rabs_R1; lra).
  assert (S1 : Rabs (S + S') <= M + M') by (eapply Rle_trans; [apply Rabs_triang|]; lra).
  assert (S2 : Rabs (p - S + (v - S')) <= (G - 1) * (M + M') + INR n * tiny * E (n - 1)) by (eapply Rle_trans; [apply Rabs_triang|]; lra).
  assert (Q1 : Rabs (p - S + (v - S')) * Rabs (1 + d) <= ((G - 1) * (M + M') + INR n * tiny * E (n - 1)) * (1 + ulp)) by (apply Rmult_le_compat; auto using Rabs_pos).
  assert (Q2 : Rabs d * Rabs (S + S') <= ulp * (M + M')) by (apply Rmult_le_compat; auto using Rabs_pos).
  assert (Q3 : INR n * tiny * E n = INR n * tiny * E (n - 1) * (1 + ulp)) by (rewrite Es'; ring).
  assert (Q4 : tiny * 1 <= tiny * E n) by (apply Rmult_le_compat_l; lra).
  replace ((INR n + 1) * tiny * E n) with (INR n * tiny * E n + tiny * E n) by ring. lra.
Qed.

(** ** Any order, contracted or not *)
Definition factors_ok (fac : nat -> res (f32 * f32)) (e m : nat -> R) (c : nat) (i : nat) : Prop :=
  forall x y, fac i = Ok (x, y) -> finite x -> finite y ->
    f32_valid x = true /\ f32_valid y = true /\ Rabs (e i) <= m i /\ Rabs (real x * real y - e i) <= (E c - 1) * m i.

Lemma nonneg_of_abs : forall e m : R, Rabs e <= m -> 0 <= m.
Proof. intros e m H. pose proof (Rabs_pos e). lra. Qed.

Lemma fred_error : forall fac e m c t r,
  (forall i, In i (fred_items t) -> Rabs (e i) <= m i) ->
  (forall i, In i (fred_items t) -> factors_ok fac e m c i) ->
  fred_eval fac t = Ok r -> finite r ->
  f32_valid r = true /\ err (S c) (length (fred_items t)) (isum e (fred_items t)) (isum m (fred_items t)) (real r).
Proof.
  intros fac e m c t. induction t as [|i|l IHl r IHr|i r IHr]; intros v Hm Hi H F; cbn [fred_eval fred_items] in *.
  - injection H as <-. split; reflexivity.
  - apply bind_ok in H. destruct H as [[x y] [Hx H]]. injection H as <-. cbn [fst snd] in *.
    destruct (fmul_finite x y F) as [Fx Fy]. destruct (Hi i (or_introl eq_refl) x y Hx Fx Fy) as [Vx [Vy [A B]]].
    destruct (fmul_real x y Vx Vy F) as [V [d [q [Hd [Hq R]]]]]. split; [exact V|]. rewrite R. unfold isum, real_sum. cbn [map fold_right length]. rewrite !Rplus_0_r.
    apply err_item; auto. eapply nonneg_of_abs, A.
  - apply bind_ok in H. destruct H as [x [Hx H]]. apply bind_ok in H. destruct H as [y [Hy H]]. injection H as <-.
    destruct (fadd_finite x y F) as [Fx Fy].
    assert (Il : forall i, In i (fred_items l) -> In i (fred_items l ++ fred_items r)) by (intros; apply in_or_app; auto).
    assert (Ir : forall i, In i (fred_items r) -> In i (fred_items l ++ fred_items r)) by (intros; apply in_or_app; auto).
    destruct (IHl x) as [Vx Bx]; auto. destruct (IHr y) as [Vy By]; auto. clear IHl IHr.
    destruct (fadd_real x y Vx Vy Fx Fy F) as [V [d [Hd R]]]. split; [exact V|]. rewrite app_length, !isum_app.
    assert (Al : Rabs (isum e (fred_items l)) <= isum m (fred_items l)) by (apply isum_abs; auto).
    assert (Ar : Rabs (isum e (fred_items r)) <= isum m (fred_items r)) by (apply isum_abs; auto).
    destruct (Nat.eq_dec (length (fred_items l)) 0) as [Zl|Zl]; [|destruct (Nat.eq_dec (length (fred_items r)) 0) as [Zr|Zr]].
    + rewrite Zl in Bx. cbn in Bx. apply length_zero_iff_nil in Zl. rewrite Zl. cbn [length Nat.add isum]. unfold isum at 1 3. unfold real_sum at 1 2. cbn [map fold_right]. rewrite !Rplus_0_l.
      destruct (fadd_rnd x y Vx Vy Fx Fy F) as [_ Er]. rewrite Er, Bx, Rplus_0_l, round_generic by (auto with typeclass_instances; apply real_format, Vy). exact By.
    + rewrite Zr in By. cbn in By. apply length_zero_iff_nil in Zr. rewrite Zr. cbn [length isum]. unfold isum at 2 4. unfold real_sum at 1 2. cbn [map fold_right]. rewrite !Rplus_0_r, Nat.add_0_r.
      destruct (fadd_rnd x y Vx Vy Fx Fy F) as [_ Er]. rewrite Er, By, Rplus_0_r, round_generic by (auto with typeclass_instances; apply real_format, Vx). exact Bx.
    + rewrite R. apply err_add; auto; eapply nonneg_of_abs; eauto.
  - apply bind_ok in H. destruct H as [[x y] [Hx H]]. apply bind_ok in H. destruct H as [z [Hz H]]. injection H as <-. cbn [fst snd] in *.
    destruct (ffma_finite x y z F) as [Fx [Fy Fz]]. destruct (Hi i (or_introl eq_refl) x y Hx Fx Fy) as [Vx [Vy [A B]]].
    assert (Ir : forall j, In j (fred_items r) -> In j (i :: fred_items r)) by (intros; right; auto).
    destruct (IHr z) as [Vz Bz]; auto. clear IHr.
    destruct (ffma_real x y z Fx Fy Fz F) as [V [d [q [Hd [Hq R]]]]]. split; [exact V|]. rewrite !isum_cons. cbn [length]. rewrite R.
    assert (Ar : Rabs (isum e (fred_items r)) <= isum m (fred_items r)) by (apply isum_abs; auto).
    destruct (Nat.eq_dec (length (fred_items r)) 0) as [Zr|Zr].
    + rewrite Zr in *. cbn in Bz. rewrite Bz. apply length_zero_iff_nil in Zr. rewrite Zr. unfold isum, real_sum. cbn [map fold_right]. rewrite !Rplus_0_r.
      apply err_item; auto. eapply nonneg_of_abs, A.
    + apply err_fma; auto; eapply nonneg_of_abs; eauto.
Qed.

(** ** No overflow *)
Lemma rnd_small : forall x, Rabs x <= bpow radix2 127 -> Rabs (rnd x) < bpow radix2 128.
Proof.
  intros x H. apply Rle_lt_trans with (bpow radix2 127); [|apply bpow_lt; lia].
  apply abs_round_le_generic; auto with typeclass_instances. apply generic_format_bpow'; [auto with typeclass_instances|]. unfold FLT_exp. lia.
Qed.

Lemma err_abs : forall c n S M v, 0 <= M -> Rabs S <= M -> err c n S M v -> Rabs v <= E (c + n) * M + INR n * tiny * E n.
Proof.
  intros c [|n] S M v P A B; unfold err in B.
  - rewrite B, Rabs_R0. cbn [INR]. pose proof (E_ge (c + 0)). assert (0 <= E (c + 0) * M) by (apply Rmult_le_pos; lra). lra.
  - apply (err_weak c (Datatypes.S n) S M v (Datatypes.S n)) in B; [|lia|lia|auto].
    replace v with (v - S + S) by ring. eapply Rle_trans; [apply Rabs_triang|]. lra.
Qed.

Lemma big_mono : forall c n k M N, 0 <= M -> M <= N -> (n <= k)%nat -> E (c + n) * M + INR n * tiny * E n <= E (c + k) * N + INR k * tiny * E k.
Proof.
  intros c n k M N P H L. pose proof tiny_pos as T. apply Rplus_le_compat.
  - apply Rmult_le_compat; auto; [pose proof (E_ge (c + n)); lra|apply E_mono; lia].
  - apply Rmult_le_compat; [apply Rmult_le_pos; [apply pos_INR|lra]|pose proof (E_ge n); lra| |apply E_mono; lia].
    apply Rmult_le_compat_r; [lra|apply le_INR, L].
Qed.

Lemma fred_finite : forall fac e m c t,
  (forall i, In i (fred_items t) -> Rabs (e i) <= m i) ->
  (forall i, In i (fred_items t) -> factors_ok fac e m c i) ->
  (forall i, In i (fred_items t) -> exists x y, fac i = Ok (x, y) /\ finite x /\ finite y) ->
  E (S c + length (fred_items t)) * isum m (fred_items t) + INR (length (fred_items t)) * tiny * E (length (fred_items t)) <= bpow radix2 127 ->
  exists r, fred_eval fac t = Ok r /\ finite r.
Proof.
  intros fac e m c t. induction t as [|i|l IHl r IHr|i r IHr]; intros Hm Hi Hf Hb; cbn [fred_eval fred_items] in *.
  - eexists. split; [reflexivity|exact I].
  - destruct (Hf i (or_introl eq_refl)) as [x [y [Hx [Fx Fy]]]]. rewrite Hx. cbn [bind fst snd]. eexists. split; [reflexivity|].
    destruct (Hi i (or_introl eq_refl) x y Hx Fx Fy) as [Vx [Vy [A B]]]. apply fmul_fin; auto. apply rnd_small. eapply Rle_trans; [|exact Hb].
    unfold isum, real_sum. cbn [map fold_right length]. rewrite Rplus_0_r. pose proof (nonneg_of_abs _ _ A) as P.
    replace (real x * real y) with (real x * real y - e i + e i) by ring. eapply Rle_trans; [apply Rabs_triang|].
    assert (E c * m i <= E (S c + 1) * m i) by (apply Rmult_le_compat_r; [auto|apply E_mono; lia]).
    assert (0 <= INR 1 * tiny * E 1) by (pose proof tiny_pos; pose proof (E_ge 1); cbn [INR]; apply Rmult_le_pos; lra). lra.
  - assert (Il : forall i, In i (fred_items l) -> In i (fred_items l ++ fred_items r)) by (intros; apply in_or_app; auto).
    assert (Ir : forall i, In i (fred_items r) -> In i (fred_items l ++ fred_items r)) by (intros; apply in_or_app; auto).
    assert (Al : Rabs (isum e (fred_items l)) <= isum m (fred_items l)) by (apply isum_abs; auto).
    assert (Ar : Rabs (isum e (fred_items r)) <= isum m (fred_items r)) by (apply isum_abs; auto).
    pose proof (nonneg_of_abs _ _ Al) as Pl. pose proof (nonneg_of_abs _ _ Ar) as Pr.
    rewrite app_length, isum_app in Hb.
    destruct IHl as [x [Hx Fx]]; auto. { eapply Rle_trans; [|exact Hb]. apply big_mono; [auto|lra|lia]. }
    destruct IHr as [y [Hy Fy]]; auto. { eapply Rle_trans; [|exact Hb]. apply big_mono; [auto|lra|lia]. }
    rewrite Hx, Hy. cbn [bind]. eexists. split; [reflexivity|].
    destruct (fred_error fac e m c l x) as [Vx Bx]; auto. destruct (fred_error fac e m c r y) as [Vy By]; auto.
    apply fadd_fin; auto. apply rnd_small. eapply Rle_trans; [|exact Hb]. eapply Rle_trans; [apply Rabs_triang|].
    apply err_abs in Bx; auto. apply err_abs in By; auto. set (nl := length (fred_items l)) in *. set (nr := length (fred_items r)) in *. pose proof tiny_pos as T.
    assert (E (S c + nl) * isum m (fred_items l) <= E (S c + (nl + nr)) * isum m (fred_items l)) by (apply Rmult_le_compat_r; [auto|apply E_mono; lia]).
    assert (E (S c + nr) * isum m (fred_items r) <= E (S c + (nl + nr)) * isum m (fred_items r)) by (apply Rmult_le_compat_r; [auto|apply E_mono; lia]).
    assert (INR nl * tiny * E nl <= INR nl * tiny * E (nl + nr)) by (apply Rmult_le_compat_l; [apply Rmult_le_pos; [apply pos_INR|lra]|apply E_mono; lia]).
    assert (INR nr * tiny * E nr <= INR nr * tiny * E (nl + nr)) by (apply Rmult_le_compat_l; [apply Rmult_le_pos; [apply pos_INR|lra]|apply E_mono; lia]).
    rewrite plus_INR. lra.
  - assert (Ir : forall j, In j (fred_items r) -> In j (i :: fred_items r)) by (intros; right; auto).
    destruct (Hf i (or_introl eq_refl)) as [x [y [Hx [Fx Fy]]]].
    destruct (Hi i (or_introl eq_refl) x y Hx Fx Fy) as [Vx [Vy [A B]]].
    assert (Ar : Rabs (isum e (fred_items r)) <= isum m (fred_items r)) by (apply isum_abs; auto).
    pose proof (nonneg_of_abs _ _ A) as P. pose proof (nonneg_of_abs _ _ Ar) as Pr. rewrite isum_cons in Hb. cbn [length] in Hb.
    destruct IHr as [z [Hz Fz]]; auto. { eapply Rle_trans; [|exact Hb]. apply big_mono; [auto|lra|lia]. }
    rewrite Hx, Hz. cbn [bind fst snd]. eexists. split; [reflexivity|].
    destruct (fred_error fac e m c r z) as [Vz Bz]; auto.
    apply ffma_fin; auto. apply rnd_small. eapply Rle_trans; [|exact Hb]. eapply Rle_trans; [apply Rabs_triang|].
    apply err_abs in Bz; auto. set (n := length (fred_items r)) in *. pose proof tiny_pos as T.
    assert (Q := Rabs_triang (real x * real y - e i) (e i)). replace (real x * real y - e i + e i) with (real x * real y) in Q by ring.
    assert (E c * m i <= E (S c + S n) * m i) by (apply Rmult_le_compat_r; [auto|apply E_mono; lia]).
    assert (E (S c + n) * isum m (fred_items r) <= E (S c + S n) * isum m (fred_items r)) by (apply Rmult_le_compat_r; [auto|apply E_mono; lia]).
    assert (INR n * tiny * E n <= INR (S n) * tiny * E (S n)).
    { apply Rmult_le_compat; [apply Rmult_le_pos; [apply pos_INR|lra]|pose proof (E_ge n); lra| |apply E_mono; lia]. apply Rmult_le_compat_r; [lra|apply le_INR; lia]. }
    lra.
Qed.

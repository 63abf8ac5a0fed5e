(** Error bounds, order and exactness of the float distances. *)
From Coq Require Import ZArith Reals Lra Lia List Arith Bool Permutation Floats.SpecFloat.
From Flocq Require Import Core Relative Plus_error.
From Flocq Require BinarySingleNaN.
From Verif Require Import Base Float32 DivFacts DistSpec DistModel DistProofs2 FusedModel RealSpec FloatReal L2ErrorProofs.
Import ListNotations.
Local Open Scope R_scope.

(** ** Contraction *)
Fixpoint embed (t : red) : fred :=
  match t with RZero => FZero | RItem i => FItem i | RAdd l r => FAdd (embed l) (embed r) end.

Lemma embed_contracts : forall t, contracts t (embed t).
Proof. induction t; cbn; constructor; auto. Qed.

Lemma embed_eval : forall fac t, fred_eval fac (embed t) = red_eval f32_zero (fun x y => Ok (fadd x y)) (fun i => do p <- fac i; Ok (fmul (fst p) (snd p))) t.
Proof. intros fac. induction t as [|i|l IHl r IHr]; cbn; [reflexivity|reflexivity|]. now rewrite IHl, IHr. Qed.

Lemma red_eval_ext : forall (A : Type) (z : A) add f g t, (forall i, f i = g i) -> red_eval z add f t = red_eval z add g t.
Proof. intros A z add f g t H. induction t as [|i|l IHl r IHr]; cbn; [reflexivity|apply H|]. now rewrite IHl, IHr. Qed.

Lemma uncontracted_l2 : forall t, contracts t (embed t) /\ forall a b, l2_float t a b = l2_fused (embed t) a b.
Proof.
  intros t. split; [apply embed_contracts|]. intros a b. unfold l2_float, l2_fused. rewrite embed_eval. apply red_eval_ext.
  intros i. destruct (rd a i); cbn; try reflexivity. destruct (rd b i); reflexivity.
Qed.

Lemma uncontracted_ip : forall t, contracts t (embed t) /\ forall a b,
  red_eval f32_zero (fun x y => Ok (fadd x y)) (fun i => do x <- rd a i; do y <- rd b i; Ok (fmul x y)) t = ip_fused (embed t) a b.
Proof.
  intros t. split; [apply embed_contracts|]. intros a b. unfold ip_fused. rewrite embed_eval. apply red_eval_ext.
  intros i. destruct (rd a i); cbn; try reflexivity. destruct (rd b i); reflexivity.
Qed.

Lemma contracts_items : forall t f, contracts t f -> Permutation (fred_items f) (red_items t).
Proof.
  intros t f H. induction H; cbn; auto using Permutation_app.
  etransitivity; [apply perm_skip; eassumption|]. apply Permutation_cons_append.
Qed.

(** ** Sums over indices and over pairs *)
Lemma combine_seq : forall (A B : Type) (f : A -> B -> R) (a : list A) (b : list B) da db, length a = length b ->
  map (fun p => f (fst p) (snd p)) (combine a b) = map (fun i => f (nth i a da) (nth i b db)) (seq 0 (length a)).
Proof.
  intros A B f a. induction a as [|x a IH]; intros [|y b] da db H; try discriminate; [reflexivity|]. cbn [combine map length seq nth fst snd]. f_equal.
  rewrite <- seq_shift, map_map. cbn [nth]. apply IH. cbn in H. congruence.
Qed.

Lemma rd_nth : forall (A : Type) (a : list A) i x d, rd a i = Ok x -> nth i a d = x.
Proof. intros A a i x d H. apply rd_ok in H. now apply nth_error_nth. Qed.

Definition good (l : list f32) : Prop := forall x, In x l -> finite x /\ f32_valid x = true.
Lemma good_rd : forall l i x, good l -> rd l i = Ok x -> finite x /\ f32_valid x = true.
Proof. intros l i x H E. apply H. apply rd_ok in E. eapply nth_error_In, E. Qed.

Definition ei (a b : list f32) (i : nat) : R := (real (nth i a f32_zero) - real (nth i b f32_zero)) ^ 2.
Definition pi (a b : list f32) (i : nat) : R := real (nth i a f32_zero) * real (nth i b f32_zero).

Lemma ei_sum : forall a b : list f32, length a = length b -> exact_l2 a b = isum (ei a b) (seq 0 (length a)).
Proof. intros a b H. unfold exact_l2, isum. f_equal. apply (combine_seq _ _ (fun x y => (real x - real y) ^ 2)). auto. Qed.
Lemma pi_sum : forall a b : list f32, length a = length b -> exact_ip a b = isum (pi a b) (seq 0 (length a)).
Proof. intros a b H. unfold exact_ip, isum. f_equal. apply (combine_seq _ _ (fun x y => real x * real y)). auto. Qed.
Lemma api_sum : forall a b : list f32, length a = length b -> exact_abs_ip a b = isum (fun i => Rabs (pi a b i)) (seq 0 (length a)).
Proof. intros a b H. unfold exact_abs_ip, isum. f_equal. apply (combine_seq _ _ (fun x y => Rabs (real x * real y))). auto. Qed.

Lemma sq_nonneg : forall x : R, 0 <= x ^ 2.
Proof. intros x. cbn. nra. Qed.

(** ** Squared distance *)
Definition l2_fac (a b : list f32) (i : nat) : res (f32 * f32) := do x <- rd a i; do y <- rd b i; Ok (fsub x y, fsub x y).

Lemma l2_factors : forall a b i, good a -> good b -> factors_ok (l2_fac a b) (ei a b) (ei a b) 2 i.
Proof.
  intros a b i Ga Gb x y H Fx _. unfold l2_fac in H. apply bind_ok in H. destruct H as [p [Hp H]]. apply bind_ok in H. destruct H as [q [Hq H]]. injection H as <- <-.
  destruct (good_rd _ _ _ Ga Hp) as [Fp Vp]. destruct (good_rd _ _ _ Gb Hq) as [Fq Vq].
  destruct (fsub_real p q Vp Vq Fp Fq Fx) as [V [d [Hd R]]]. split; [exact V|]. split; [exact V|].
  unfold ei. rewrite (rd_nth _ _ _ _ _ Hp), (rd_nth _ _ _ _ _ Hq), R. set (D := real p - real q). pose proof (sq_nonneg D) as P. split.
  - rewrite Rabs_pos_eq by auto. lra.
  - replace (D * (1 + d) * (D * (1 + d)) - D ^ 2) with (D ^ 2 * (2 * d + d * d)) by ring. rewrite Rabs_mult, (Rabs_pos_eq (D ^ 2)) by auto.
    rewrite (Rmult_comm (E 2 - 1)). apply Rmult_le_compat_l; auto. replace (E 2 - 1) with (2 * ulp + ulp * ulp) by (cbn; ring).
    pose proof ulp_pos. eapply Rle_trans; [apply Rabs_triang|]. rewrite !Rabs_mult, (Rabs_pos_eq 2) by lra.
    assert (Rabs d * Rabs d <= ulp * ulp) by (apply Rmult_le_compat; auto using Rabs_pos). lra.
Qed.

Lemma err_bound : forall c n S M v, 0 <= M -> S = 0 \/ n <> O -> err (Datatypes.S c) n S M v ->
  Rabs (v - S) <= ((1 + ulp) ^ (n + c) - 1) * M + INR n * tiny * (1 + ulp) ^ n.
Proof.
  intros c [|n] S M v P N B.
  - destruct N as [->|N]; [|congruence]. unfold err in B. rewrite B, Rminus_0_r, Rabs_R0. cbn [INR]. pose proof (E_ge (0 + c)). assert (0 <= (E (0 + c) - 1) * M) by (apply Rmult_le_pos; lra). lra.
  - unfold err in B. replace (Datatypes.S n + c)%nat with (Datatypes.S c + n)%nat by lia.
    eapply Rle_trans; [exact B|]. apply Rplus_le_compat_l, Rmult_le_compat_l; [|apply E_mono; lia]. pose proof tiny_pos. apply Rmult_le_pos; [apply pos_INR|lra].
Qed.

Lemma l2_sum_items : forall (f : fred) (e : nat -> R) n, Permutation (fred_items f) (seq 0 n) -> isum e (fred_items f) = isum e (seq 0 n) /\ length (fred_items f) = n.
Proof. intros f e n H. split; [apply isum_perm, H|]. rewrite (Permutation_length H). apply seq_length. Qed.

Lemma l2_error : forall t f a b r, Permutation (red_items t) (seq 0 (length a)) -> contracts t f -> length a = length b -> good a -> good b ->
  l2_fused f a b = Ok r -> finite r ->
  Rabs (real r - exact_l2 a b) <= ((1 + ulp) ^ (length a + 2) - 1) * exact_l2 a b + INR (length a) * tiny * (1 + ulp) ^ length a.
Proof.
  intros t f a b r Ht Hc L Ga Gb H F. assert (Hf : Permutation (fred_items f) (seq 0 (length a))) by (etransitivity; [apply contracts_items, Hc|exact Ht]).
  destruct (l2_sum_items f (ei a b) _ Hf) as [Hs Hl]. rewrite (ei_sum a b L).
  destruct (fred_error (l2_fac a b) (ei a b) (ei a b) 2 f r) as [_ B]; auto.
  - intros i _. unfold ei. rewrite Rabs_pos_eq by apply sq_nonneg. lra.
  - intros i _. apply l2_factors; auto.
  - rewrite Hs, Hl in B. apply err_bound; auto.
    + apply isum_nonneg. intros i _. apply sq_nonneg.
    + clear. destruct a; [left; reflexivity|right; discriminate].
Qed.

(** No overflow while the distance is well below the largest float. *)
Lemma isum_ge : forall f l i, (forall j, In j l -> 0 <= f j) -> In i l -> f i <= isum f l.
Proof.
  intros f l i. induction l as [|x l IH]; intros H HI; [destruct HI|]. rewrite isum_cons. pose proof (H x (or_introl eq_refl)).
  assert (0 <= isum f l) by (apply isum_nonneg; intros; apply H; right; auto).
  destruct HI as [->|HI]; [lra|]. assert (f i <= isum f l) by (apply IH; auto; intros; apply H; right; auto). lra.
Qed.

Lemma l2_finite : forall t f a b, Permutation (red_items t) (seq 0 (length a)) -> contracts t f -> length a = length b -> good a -> good b ->
  (1 + ulp) ^ (length a + 3) * exact_l2 a b + INR (length a) * tiny * (1 + ulp) ^ length a <= powerRZ 2 127 ->
  exists r, l2_fused f a b = Ok r /\ finite r.
Proof.
  intros t f a b Ht Hc L Ga Gb Hb. assert (Hf : Permutation (fred_items f) (seq 0 (length a))) by (etransitivity; [apply contracts_items, Hc|exact Ht]).
  destruct (l2_sum_items f (ei a b) _ Hf) as [Hs Hl]. rewrite (ei_sum a b L) in Hb.
  assert (P : 0 <= isum (ei a b) (seq 0 (length a))) by (apply isum_nonneg; intros i _; apply sq_nonneg).
  change 2 with (IZR radix2) in Hb at 1. rewrite <- bpow_powerRZ in Hb.
  assert (Small : forall i, In i (fred_items f) -> ei a b i <= bpow radix2 127).
  { intros i Hi. apply Rle_trans with (isum (ei a b) (seq 0 (length a))).
    - apply isum_ge; [intros j _; apply sq_nonneg|]. apply (Permutation_in _ Hf), Hi.
    - eapply Rle_trans; [|exact Hb]. pose proof (E_ge (length a + 3)) as G. pose proof (E_ge (length a)). pose proof tiny_pos. pose proof (pos_INR (length a)).
      assert (0 <= INR (length a) * tiny * E (length a)) by (apply Rmult_le_pos; [apply Rmult_le_pos|]; lra).
      assert (1 * isum (ei a b) (seq 0 (length a)) <= E (length a + 3) * isum (ei a b) (seq 0 (length a))) by (apply Rmult_le_compat_r; auto). lra. }
  apply (fred_finite (l2_fac a b) (ei a b) (ei a b) 2).
  - intros i _. unfold ei. rewrite Rabs_pos_eq by apply sq_nonneg. lra.
  - intros i _. apply l2_factors; auto.
  - intros i Hi. pose proof (Permutation_in _ Hf Hi) as Hi'. apply in_seq in Hi'.
    destruct (rd_lt _ a i) as [x Hx]; [lia|]. destruct (rd_lt _ b i) as [y Hy]; [lia|]. destruct (good_rd _ _ _ Ga Hx) as [Fx Vx]. destruct (good_rd _ _ _ Gb Hy) as [Fy Vy].
    unfold l2_fac. rewrite Hx, Hy. cbn [bind]. eexists _, _. split; [reflexivity|].
    assert (F : finite (fsub x y)); [|auto]. apply fsub_fin; auto. apply rnd_small. specialize (Small i Hi). unfold ei in Small. rewrite (rd_nth _ _ _ _ _ Hx), (rd_nth _ _ _ _ _ Hy) in Small.
    set (D := real x - real y) in *. assert (G : 1 <= bpow radix2 127) by (change 1 with (bpow radix2 0); apply bpow_le; lia).
    destruct (Rle_dec (Rabs D) 1) as [Q|Q]; [lra|]. apply Rle_trans with (Rabs D * Rabs D); [nra|]. rewrite <- Rabs_mult. rewrite Rabs_pos_eq by nra. replace (D ^ 2) with (D * D) in Small by ring. lra.
  - rewrite Hs, Hl. replace (3 + length a)%nat with (length a + 3)%nat by lia. exact Hb.
Qed.

(** ** Inner product *)
Definition ip_fac (a b : list f32) (i : nat) : res (f32 * f32) := do x <- rd a i; do y <- rd b i; Ok (x, y).

Lemma ip_factors : forall a b i, good a -> good b -> factors_ok (ip_fac a b) (pi a b) (fun i => Rabs (pi a b i)) 0 i.
Proof.
  intros a b i Ga Gb x y H Fx Fy. unfold ip_fac in H. apply bind_ok in H. destruct H as [p [Hp H]]. apply bind_ok in H. destruct H as [q [Hq H]]. injection H as <- <-.
  destruct (good_rd _ _ _ Ga Hp) as [_ Vp]. destruct (good_rd _ _ _ Gb Hq) as [_ Vq]. split; [auto|]. split; [auto|]. split; [lra|].
  unfold pi. rewrite (rd_nth _ _ _ _ _ Hp), (rd_nth _ _ _ _ _ Hq). rewrite Rminus_diag_eq by reflexivity. rewrite Rabs_R0. cbn. lra.
Qed.

Lemma ip_error : forall t f a b r, Permutation (red_items t) (seq 0 (length a)) -> contracts t f -> length a = length b -> good a -> good b ->
  ip_fused f a b = Ok r -> finite r ->
  Rabs (real r - exact_ip a b) <= ((1 + ulp) ^ length a - 1) * exact_abs_ip a b + INR (length a) * tiny * (1 + ulp) ^ length a.
Proof.
  intros t f a b r Ht Hc L Ga Gb H F. assert (Hf : Permutation (fred_items f) (seq 0 (length a))) by (etransitivity; [apply contracts_items, Hc|exact Ht]).
  destruct (l2_sum_items f (pi a b) _ Hf) as [Hs Hl]. destruct (l2_sum_items f (fun i => Rabs (pi a b i)) _ Hf) as [Hs' _]. rewrite (pi_sum a b L), (api_sum a b L).
  destruct (fred_error (ip_fac a b) (pi a b) (fun i => Rabs (pi a b i)) 0 f r) as [_ B]; auto.
  - intros i _. cbn. lra.
  - intros i _. apply ip_factors; auto.
  - rewrite Hs, Hs', Hl in B. replace (E (length a) - 1) with (E (length a + 0) - 1) by (now rewrite Nat.add_0_r). apply err_bound; auto.
    + apply isum_nonneg. intros i _. apply Rabs_pos.
    + clear. destruct a; [left; reflexivity|right; discriminate].
Qed.

Lemma avx_ip_error : forall size, exists t, (forall D, (D mod 8 = 0)%nat -> (size <= D < size + 8)%nat -> Permutation (red_items t) (seq 0 D)) /\
  (forall D a b, (D mod 8 = 0)%nat -> (size <= D < size + 8)%nat -> length a = D -> length b = D ->
     exists f, contracts t f /\ avx_ip f32_zero fadd fmul size a b = ip_fused f a b) /\
  forall D f a b r, (D mod 8 = 0)%nat -> (size <= D < size + 8)%nat -> contracts t f -> length a = D -> length b = D -> good a -> good b -> ip_fused f a b = Ok r -> finite r ->
    Rabs (real r - exact_ip a b) <= ((1 + ulp) ^ D - 1) * exact_abs_ip a b + INR D * tiny * (1 + ulp) ^ D.
Proof.
  intros size. destruct (avx_covers size) as [t [Ht Hv]]. exists t. split; [exact Ht|]. split.
  - intros D a b H8 Hs La Lb. destruct (uncontracted_ip t) as [C E]. exists (embed t). split; [exact C|]. rewrite <- E. apply (Hv f32 f32_zero fadd fmul D a b H8 Hs); lia.
  - intros D f a b r H8 Hs C La Lb Ga Gb H F. rewrite <- La. refine (ip_error t f a b r _ C _ Ga Gb H F); [|congruence]. rewrite La. apply Ht; auto.
Qed.

(** ** Comparisons *)
Lemma flt_real : forall x y, f32_valid x = true -> f32_valid y = true -> finite x -> finite y -> (flt x y = true <-> real x < real y).
Proof.
  intros x y Vx Vy Fx Fy. destruct (to_B x Vx) as [bx <-]. destruct (to_B y Vy) as [by' <-]. apply finite_B in Fx, Fy. rewrite !real_B2R.
  pose proof (BinarySingleNaN.Bltb_correct 24 128 bx by' Fx Fy) as C. unfold BinarySingleNaN.Bltb in C. unfold flt. rewrite C. destruct (Rlt_bool_spec (BinarySingleNaN.B2R bx) (BinarySingleNaN.B2R by')); split; intros; auto; try discriminate; lra.
Qed.
Lemma feq_real : forall x y, f32_valid x = true -> f32_valid y = true -> finite x -> finite y -> (feq x y = true <-> real x = real y).
Proof.
  intros x y Vx Vy Fx Fy. destruct (to_B x Vx) as [bx <-]. destruct (to_B y Vy) as [by' <-]. apply finite_B in Fx, Fy. rewrite !real_B2R.
  pose proof (BinarySingleNaN.Beqb_correct 24 128 bx by' Fx Fy) as C. unfold BinarySingleNaN.Beqb in C. unfold feq. rewrite C. destruct (Req_bool_spec (BinarySingleNaN.B2R bx) (BinarySingleNaN.B2R by')); split; intros; auto; try discriminate; lra.
Qed.

Lemma l2_valid : forall f a b r, good a -> good b -> l2_fused f a b = Ok r -> finite r -> f32_valid r = true.
Proof.
  intros f a b r Ga Gb H F. destruct (fred_error (l2_fac a b) (ei a b) (ei a b) 2 f r) as [V _]; auto.
  - intros i _. unfold ei. rewrite Rabs_pos_eq by apply sq_nonneg. lra.
  - intros i _. apply l2_factors; auto.
Qed.

(** ** A simple form of the bound *)
Lemma E_simple : forall k, INR k * ulp <= 1 -> E k <= 1 + INR k * ulp + (INR k * ulp) * (INR k * ulp).
Proof.
  pose proof ulp_pos as U. intros k. induction k as [|k IH]; intros H; [cbn; lra|]. rewrite S_INR in *. cbn [pow]. pose proof (pos_INR k) as P.
  assert (Hk : INR k * ulp <= 1) by lra. specialize (IH Hk). set (x := INR k * ulp) in *. assert (0 <= x) by (unfold x; apply Rmult_le_pos; lra).
  replace ((INR k + 1) * ulp) with (x + ulp) by (unfold x; ring).
  apply Rle_trans with ((1 + ulp) * (1 + x + x * x)); [apply Rmult_le_compat_l; lra|].
  assert (ulp * (x * x) <= ulp * x) by (apply Rmult_le_compat_l; nra). assert (0 <= ulp * x) by nra. nra.
Qed.

Lemma E_lin : forall k, INR k * ulp <= 1 -> E k - 1 <= 2 * INR k * ulp.
Proof. intros k H. pose proof (E_simple k H). pose proof ulp_pos. pose proof (pos_INR k). assert (0 <= INR k * ulp) by nra. nra. Qed.

Lemma INR_ulp : forall k j, (0 <= j <= 24)%Z -> (Z.of_nat k <= 2 ^ j)%Z -> INR k * ulp <= bpow radix2 (j - 24).
Proof.
  intros k j Hj H. rewrite INR_IZR_INZ. apply IZR_le in H. rewrite pow_Z in H by lia.
  unfold ulp. change 2 with (IZR radix2) at 1. rewrite <- bpow_powerRZ. unfold Z.sub. rewrite bpow_plus. apply Rmult_le_compat_r; [apply bpow_ge_0|exact H].
Qed.

Lemma l2_error_simple : forall t f a b r, (Z.of_nat (length a) < 2 ^ 23)%Z -> Permutation (red_items t) (seq 0 (length a)) -> contracts t f -> length a = length b -> good a -> good b ->
  l2_fused f a b = Ok r -> finite r ->
  Rabs (real r - exact_l2 a b) <= (INR (length a) + 2) * powerRZ 2 (-23) * exact_l2 a b + INR (length a) * powerRZ 2 (-149).
Proof.
  intros t f a b r Hn Ht Hc L Ga Gb H F. eapply Rle_trans; [apply (l2_error t f a b r); auto|].
  set (n := length a) in *.
  assert (P : 0 <= exact_l2 a b) by (rewrite ei_sum by auto; apply isum_nonneg; intros; apply sq_nonneg).
  assert (B1 : INR n * ulp <= / 2).
  { apply Rle_trans with (bpow radix2 (23 - 24)); [apply INR_ulp; lia|]. cbn. lra. }
  assert (B2 : INR (n + 2) * ulp <= 1).
  { apply Rle_trans with (bpow radix2 (24 - 24)); [apply INR_ulp; lia|]. cbn. lra. }
  assert (U : powerRZ 2 (-23) = 2 * ulp) by (unfold ulp; change (-23)%Z with (1 + -24)%Z; rewrite powerRZ_add by lra; rewrite powerRZ_1; ring).
  assert (T : powerRZ 2 (-149) = 2 * tiny) by (unfold tiny; change (-149)%Z with (1 + -150)%Z; rewrite powerRZ_add by lra; rewrite powerRZ_1; ring).
  rewrite U, T. apply Rplus_le_compat.
  - apply Rmult_le_compat_r; auto. eapply Rle_trans; [apply E_lin, B2|]. rewrite plus_INR. cbn [INR]. lra.
  - pose proof (E_lin n) as G. assert (G' : E n <= 2) by (assert (E n - 1 <= 2 * INR n * ulp) by (apply G; lra); lra).
    pose proof tiny_pos. pose proof (pos_INR n). assert (0 <= INR n * tiny) by nra. nra.
Qed.

(** Distances further apart than the errors are ordered right. *)
Lemma l2_order : forall t f t' f' q a b ra rb, (Z.of_nat (length q) < 2 ^ 23)%Z -> Permutation (red_items t) (seq 0 (length q)) -> Permutation (red_items t') (seq 0 (length q)) -> contracts t f -> contracts t' f' ->
  length q = length a -> length q = length b -> good q -> good a -> good b -> l2_fused f q a = Ok ra -> l2_fused f' q b = Ok rb -> finite ra -> finite rb ->
  exact_l2 q a + (INR (length q) + 2) * powerRZ 2 (-23) * (exact_l2 q a + exact_l2 q b) + INR (length q) * powerRZ 2 (-148) < exact_l2 q b ->
  flt ra rb = true.
Proof.
  intros t f t' f' q a b ra rb Hn Ht Ht' Hc Hc' La Lb Gq Ga Gb Ea Eb Fa Fb H.
  apply flt_real; auto; [apply (l2_valid f q a ra); auto|apply (l2_valid f' q b rb); auto|].
  pose proof (l2_error_simple t f q a ra Hn Ht Hc La Gq Ga Ea Fa) as Ba. pose proof (l2_error_simple t' f' q b rb Hn Ht' Hc' Lb Gq Gb Eb Fb) as Bb.
  assert (T : powerRZ 2 (-148) = 2 * powerRZ 2 (-149)) by (change (-148)%Z with (1 + -149)%Z; rewrite powerRZ_add by lra; rewrite powerRZ_1; ring). rewrite T in H.
  apply Rabs_le_inv in Ba. apply Rabs_le_inv in Bb. lra.
Qed.

(** ** Integers below 2^24 *)
Definition isumZ (k : nat -> Z) (l : list nat) : Z := fold_right Z.add 0%Z (map k l).

Lemma int_format : forall z, (Z.abs z <= 2 ^ 24)%Z -> generic_format radix2 (FLT_exp (-149) 24) (IZR z).
Proof.
  intros z H. destruct (Z.eq_dec (Z.abs z) (2 ^ 24)) as [Q|Q].
  - assert (F : generic_format radix2 (FLT_exp (-149) 24) (IZR (2 ^ 24))).
    { rewrite pow_Z by lia. apply generic_format_bpow'; [auto with typeclass_instances|]. unfold FLT_exp. lia. }
    destruct (Z.abs_eq_or_opp z) as [A|A]; rewrite A in Q.
    + rewrite Q. exact F.
    + replace z with (- 2 ^ 24)%Z by lia. rewrite opp_IZR. apply generic_format_opp, F.
  - apply generic_format_FLT. exists (Float radix2 z 0); cbn [Fnum Fexp]; [unfold F2R; cbn; ring|change (Z.pow_pos 2 24) with (2 ^ 24)%Z|lia].
    change (radix2 ^ 24)%Z with (2 ^ 24)%Z. lia.
Qed.

Lemma int_rnd : forall z, (Z.abs z <= 2 ^ 24)%Z -> rnd (IZR z) = IZR z /\ Rabs (rnd (IZR z)) < bpow radix2 128.
Proof.
  intros z H. assert (R : rnd (IZR z) = IZR z) by (apply round_generic; [auto with typeclass_instances|apply int_format, H]). split; [exact R|].
  apply rnd_small. rewrite <- abs_IZR. apply Rle_trans with (IZR (2 ^ 24)); [apply IZR_le, H|]. rewrite pow_Z by lia. apply bpow_le. lia.
Qed.

Lemma fred_exact : forall fac (k : nat -> Z) t,
  (forall i, In i (fred_items t) -> exists x y, fac i = Ok (x, y) /\ finite x /\ finite y /\ f32_valid x = true /\ f32_valid y = true /\ real x * real y = IZR (k i)) ->
  (isumZ (fun i => Z.abs (k i)) (fred_items t) <= 2 ^ 24)%Z ->
  exists r, fred_eval fac t = Ok r /\ finite r /\ f32_valid r = true /\ real r = IZR (isumZ k (fred_items t)).
Proof.
  intros fac k.
  assert (App : forall (h : nat -> Z) l m, isumZ h (l ++ m) = (isumZ h l + isumZ h m)%Z) by (intros h l m; unfold isumZ; induction l as [|x l IH]; cbn; [lia|rewrite IH; lia]).
  assert (Abs : forall l, (Z.abs (isumZ k l) <= isumZ (fun i => Z.abs (k i)) l)%Z) by (intros l; unfold isumZ; induction l as [|x l IH]; cbn; lia).
  assert (Cons : forall (h : nat -> Z) i l, isumZ h (i :: l) = (h i + isumZ h l)%Z) by reflexivity.
  intros t. induction t as [|i|l IHl r IHr|i r IHr]; intros Hi Hb; cbn [fred_eval fred_items] in *.
  - eexists. repeat split.
  - destruct (Hi i (or_introl eq_refl)) as [x [y [Hx [Fx [Fy [Vx [Vy R]]]]]]]. rewrite Hx. cbn [bind fst snd]. eexists. split; [reflexivity|]. rewrite Cons in *. change (isumZ (fun i => Z.abs (k i)) []) with 0%Z in Hb. change (isumZ k []) with 0%Z.
    destruct (int_rnd (k i)) as [R1 R2]; [lia|]. assert (F : finite (fmul x y)) by (apply fmul_fin; auto; rewrite R; exact R2). destruct (fmul_rnd x y Vx Vy F) as [V Q].
    split; [exact F|]. split; [exact V|]. rewrite Q, R, R1. f_equal. lia.
  - rewrite App in *. pose proof (Abs (fred_items l)) as A1. pose proof (Abs (fred_items r)) as A2.
    destruct IHl as [x [Hx [Fx [Vx Rx]]]]; [intros; apply Hi, in_or_app; auto|lia|]. destruct IHr as [y [Hy [Fy [Vy Ry]]]]; [intros; apply Hi, in_or_app; auto|lia|].
    rewrite Hx, Hy. cbn [bind]. eexists. split; [reflexivity|].
    destruct (int_rnd (isumZ k (fred_items l) + isumZ k (fred_items r))) as [R1 R2]; [lia|]. rewrite plus_IZR in R1, R2. rewrite <- Rx, <- Ry in *.
    assert (F : finite (fadd x y)) by (apply fadd_fin; auto). destruct (fadd_rnd x y Vx Vy Fx Fy F) as [V Q]. split; [exact F|]. split; [exact V|]. rewrite Q, R1, plus_IZR, <- Rx, <- Ry. reflexivity.
  - rewrite Cons in *. pose proof (Abs (fred_items r)) as A2. destruct (Hi i (or_introl eq_refl)) as [x [y [Hx [Fx [Fy [Vx [Vy R]]]]]]].
    destruct IHr as [z [Hz [Fz [Vz Rz]]]]; [intros; apply Hi; right; auto|lia|]. rewrite Hx, Hz. cbn [bind fst snd]. eexists. split; [reflexivity|].
    destruct (int_rnd (k i + isumZ k (fred_items r))) as [R1 R2]; [lia|]. rewrite plus_IZR in R1, R2. rewrite <- R, <- Rz in R1, R2.
    assert (F : finite (ffma x y z)) by (apply ffma_fin; auto). destruct (ffma_rnd x y z Fx Fy Fz F) as [V Q]. split; [exact F|]. split; [exact V|]. rewrite Q, R1, plus_IZR, R, Rz. reflexivity.
Qed.

Lemma isumZ_perm : forall k l m, Permutation l m -> isumZ k l = isumZ k m.
Proof. intros k l m H. unfold isumZ. induction H; cbn in *; lia. Qed.

Lemma combine_seqZ : forall (f : Z -> Z -> Z) (a b : list Z), length a = length b ->
  map (fun p => f (fst p) (snd p)) (combine a b) = map (fun i => f (nth i a 0%Z) (nth i b 0%Z)) (seq 0 (length a)).
Proof.
  intros f a. induction a as [|x a IH]; intros [|y b] H; try discriminate; [reflexivity|]. cbn [combine map length seq nth fst snd]. f_equal.
  rewrite <- seq_shift, map_map. cbn [nth]. apply IH. cbn in H. congruence.
Qed.

Lemma holds_nth : forall (a : list f32) za i x, holds_ints a za -> rd a i = Ok x -> finite x /\ real x = IZR (nth i za 0%Z).
Proof.
  intros a za i x H. revert i. induction H as [|y z a za Hy H IH]; intros [|i] E; try discriminate.
  - injection E as <-. cbn [nth]. destruct y; try (destruct Hy; fail); split; try exact I; auto.
  - apply IH. exact E.
Qed.
Lemma holds_length : forall (a : list f32) za, holds_ints a za -> length a = length za.
Proof. intros a za H. induction H; cbn; congruence. Qed.

Lemma isumZ_ge : forall (k : nat -> Z) l i, (forall j, 0 <= k j)%Z -> In i l -> (k i <= isumZ k l)%Z.
Proof.
  intros k l i H. unfold isumZ. induction l as [|x l IH]; intros HI; [destruct HI|]. cbn. assert (0 <= fold_right Z.add 0 (map k l))%Z.
  { clear IH HI. induction l as [|y l IH]; cbn; [lia|]. specialize (H y). lia. }
  destruct HI as [->|HI]; [lia|]. specialize (IH HI). specialize (H x). lia.
Qed.

Lemma l2_exact : forall t f (a b : list f32) za zb, Permutation (red_items t) (seq 0 (length a)) -> contracts t f -> length a = length b -> holds_ints a za -> holds_ints b zb ->
  (forall x, In x a -> f32_valid x = true) -> (forall x, In x b -> f32_valid x = true) -> (sq_dist za zb <= 2 ^ 24)%Z ->
  exists r, l2_fused f a b = Ok r /\ finite r /\ f32_valid r = true /\ real r = IZR (sq_dist za zb).
Proof.
  intros t f a b za zb Ht Hc L Ha Hb Va Vb S. assert (Hf : Permutation (fred_items f) (seq 0 (length a))) by (etransitivity; [apply contracts_items, Hc|exact Ht]).
  pose proof (holds_length _ _ Ha) as La. pose proof (holds_length _ _ Hb) as Lb.
  set (k := fun i => ((nth i za 0 - nth i zb 0) * (nth i za 0 - nth i zb 0))%Z).
  assert (Ks : sq_dist za zb = isumZ k (seq 0 (length a))).
  { unfold sq_dist, zsum, isumZ. f_equal. rewrite (combine_seqZ (fun x y => ((x - y) * (x - y))%Z)) by congruence. rewrite <- La. reflexivity. }
  assert (Kn : forall j, (0 <= k j)%Z) by (intros j; unfold k; apply Z.square_nonneg).
  rewrite Ks, <- (isumZ_perm k _ _ Hf) in *. apply (fred_exact (l2_fac a b)).
  - intros i Hi. pose proof (isumZ_ge k _ i Kn Hi) as Ki. pose proof (Permutation_in _ Hf Hi) as Hi'. apply in_seq in Hi'.
    destruct (rd_lt _ a i) as [x Hx]; [lia|]. destruct (rd_lt _ b i) as [y Hy]; [lia|].
    destruct (holds_nth _ _ _ _ Ha Hx) as [Fx Rx]. destruct (holds_nth _ _ _ _ Hb Hy) as [Fy Ry].
    assert (Vx : f32_valid x = true) by (apply Va; apply rd_ok in Hx; eapply nth_error_In, Hx). assert (Vy : f32_valid y = true) by (apply Vb; apply rd_ok in Hy; eapply nth_error_In, Hy).
    set (z := (nth i za 0 - nth i zb 0)%Z) in *. assert (Kz : k i = (z * z)%Z) by reflexivity. assert (Bz : (Z.abs z <= 2 ^ 24)%Z) by nia.
    destruct (int_rnd z Bz) as [R1 R2]. assert (D : real x - real y = IZR z) by (unfold z; rewrite minus_IZR, Rx, Ry; reflexivity). rewrite <- D in R1, R2.
    assert (F : finite (fsub x y)) by (apply fsub_fin; auto). destruct (fsub_rnd x y Vx Vy Fx Fy F) as [V Q].
    exists (fsub x y), (fsub x y). unfold l2_fac. rewrite Hx, Hy. cbn [bind]. repeat split; auto. rewrite Q, R1, D, <- mult_IZR. reflexivity.
  - replace (isumZ (fun i => Z.abs (k i)) (fred_items f)) with (isumZ k (fred_items f)); [exact S|]. unfold isumZ. f_equal. apply map_ext. intros j. specialize (Kn j). lia.
Qed.

Lemma ip_exact : forall t f (a b : list f32) za zb, Permutation (red_items t) (seq 0 (length a)) -> contracts t f -> length a = length b -> holds_ints a za -> holds_ints b zb ->
  (forall x, In x a -> f32_valid x = true) -> (forall x, In x b -> f32_valid x = true) -> (dot (map Z.abs za) (map Z.abs zb) <= 2 ^ 24)%Z ->
  exists r, ip_fused f a b = Ok r /\ finite r /\ f32_valid r = true /\ real r = IZR (dot za zb).
Proof.
  intros t f a b za zb Ht Hc L Ha Hb Va Vb S. assert (Hf : Permutation (fred_items f) (seq 0 (length a))) by (etransitivity; [apply contracts_items, Hc|exact Ht]).
  pose proof (holds_length _ _ Ha) as La. pose proof (holds_length _ _ Hb) as Lb.
  set (k := fun i => (nth i za 0 * nth i zb 0)%Z).
  assert (Ks : dot za zb = isumZ k (seq 0 (length a))).
  { unfold dot, zsum, isumZ. f_equal. rewrite (combine_seqZ (fun x y => (x * y)%Z)) by congruence. rewrite <- La. reflexivity. }
  assert (Ks' : dot (map Z.abs za) (map Z.abs zb) = isumZ (fun i => Z.abs (k i)) (seq 0 (length a))).
  { unfold dot, zsum, isumZ. f_equal. rewrite (combine_seqZ (fun x y => (x * y)%Z)) by (rewrite !map_length; congruence). rewrite map_length, <- La. apply map_ext.
    intros i. unfold k. change 0%Z with (Z.abs 0) at 1 2. rewrite !map_nth. rewrite Z.abs_mul. reflexivity. }
  rewrite Ks, <- (isumZ_perm k _ _ Hf) in *. rewrite Ks', <- (isumZ_perm _ _ _ Hf) in S. apply (fred_exact (ip_fac a b)); [|exact S].
  intros i Hi. pose proof (Permutation_in _ Hf Hi) as Hi'. apply in_seq in Hi'.
  destruct (rd_lt _ a i) as [x Hx]; [lia|]. destruct (rd_lt _ b i) as [y Hy]; [lia|].
  destruct (holds_nth _ _ _ _ Ha Hx) as [Fx Rx]. destruct (holds_nth _ _ _ _ Hb Hy) as [Fy Ry].
  exists x, y. unfold ip_fac. rewrite Hx, Hy. cbn [bind]. repeat split; auto.
  - apply Va. apply rd_ok in Hx. eapply nth_error_In, Hx.
  - apply Vb. apply rd_ok in Hy. eapply nth_error_In, Hy.
  - unfold k. rewrite mult_IZR, Rx, Ry. reflexivity.
Qed.

Lemma of_Z_int : forall z, (Z.abs z <= 2 ^ 24)%Z -> finite (f32_of_Z z) /\ f32_valid (f32_of_Z z) = true /\ real (f32_of_Z z) = IZR z.
Proof.
  intros z H. destruct (int_rnd z H) as [R1 R2].
  assert (F : finite (f32_of_Z z)).
  { unfold f32_of_Z. apply (ffma_norm z 0 false). cbn [bpow]. rewrite Rmult_1_r. exact R2. }
  destruct (of_Z_rnd z F) as [V R]. split; [exact F|]. split; [exact V|]. now rewrite R, R1.
Qed.

Lemma of_Z_holds : forall z, (forall x, In x z -> Z.abs x <= 2 ^ 24)%Z -> holds_ints (map f32_of_Z z) z /\ forall x, In x (map f32_of_Z z) -> f32_valid x = true.
Proof.
  intros z H. split.
  - induction z as [|x z IH]; cbn [map]; [constructor|]. apply Forall2_cons; [|apply IH; intros; apply H; right; auto].
    destruct (of_Z_int x) as [F [_ R]]; [apply H; left; auto|]. destruct (f32_of_Z x); try (destruct F; fail); exact R.
  - intros x Hx. apply in_map_iff in Hx. destruct Hx as [y [<- Hy]]. apply of_Z_int, H, Hy.
Qed.

Lemma sq_dist_le : forall a b, uint8s a -> uint8s b -> length a = length b -> (sq_dist a b <= 65025 * Z.of_nat (length a))%Z.
Proof.
  intros a. unfold sq_dist, zsum. induction a as [|x a IH]; intros [|y b] Ha Hb L; [cbn; lia|discriminate L|discriminate L|]. cbn [combine map fold_right fst snd length].
  assert (fold_right Z.add 0 (map (fun p => ((fst p - snd p) * (fst p - snd p))%Z) (combine a b)) <= 65025 * Z.of_nat (length a))%Z.
  { apply IH; auto; [intros z Hz; apply Ha; right; auto|intros z Hz; apply Hb; right; auto]. }
  assert (0 <= x <= 255)%Z by (apply Ha; left; auto). assert (0 <= y <= 255)%Z by (apply Hb; left; auto). nia.
Qed.

Lemma l2_bytes : forall t f za zb, uint8s za -> uint8s zb -> length za = length zb -> (length za <= 258)%nat -> Permutation (red_items t) (seq 0 (length za)) -> contracts t f ->
  exists r, l2_fused f (map f32_of_Z za) (map f32_of_Z zb) = Ok r /\ real r = IZR (sq_dist za zb) /\ feq r (f32_of_Z (sq_dist za zb)) = true.
Proof.
  intros t f za zb Ha Hb L Hn Ht Hc. pose proof (sq_dist_le za zb Ha Hb L) as S. assert (S' : (sq_dist za zb <= 2 ^ 24)%Z) by lia.
  destruct (of_Z_holds za) as [Ia Va]; [intros x Hx; specialize (Ha x Hx); lia|]. destruct (of_Z_holds zb) as [Ib Vb]; [intros x Hx; specialize (Hb x Hx); lia|].
  destruct (l2_exact t f (map f32_of_Z za) (map f32_of_Z zb) za zb) as [r [Hr [F [V R]]]]; auto; [now rewrite map_length|now rewrite !map_length|].
  exists r. split; [exact Hr|]. split; [exact R|].
  assert (P : (0 <= sq_dist za zb)%Z). { unfold sq_dist, zsum. clear. induction (combine za zb) as [|p l IH]; cbn; [lia|]. pose proof (Z.square_nonneg (fst p - snd p)). lia. }
  destruct (of_Z_int (sq_dist za zb)) as [F' [V' R']]; [lia|]. apply feq_real; auto. congruence.
Qed.

Lemma l2_int_order : forall t f t' f' q a b zq za zb,
  Permutation (red_items t) (seq 0 (length q)) -> Permutation (red_items t') (seq 0 (length q)) -> contracts t f -> contracts t' f' ->
  length q = length a -> length q = length b -> holds_ints q zq -> holds_ints a za -> holds_ints b zb ->
  (forall x, In x q \/ In x a \/ In x b -> f32_valid x = true) -> (sq_dist zq za <= 2 ^ 24)%Z -> (sq_dist zq zb <= 2 ^ 24)%Z ->
  exists ra rb, l2_fused f q a = Ok ra /\ l2_fused f' q b = Ok rb /\
    (flt ra rb = true <-> (sq_dist zq za < sq_dist zq zb)%Z) /\ (feq ra rb = true <-> sq_dist zq za = sq_dist zq zb).
Proof.
  intros t f t' f' q a b zq za zb Ht Ht' Hc Hc' La Lb Iq Ia Ib V Sa Sb.
  destruct (l2_exact t f q a zq za) as [ra [Ha [Fa [Va Ra]]]]; auto. destruct (l2_exact t' f' q b zq zb) as [rb [Hb [Fb [Vb Rb]]]]; auto.
  exists ra, rb. split; [exact Ha|]. split; [exact Hb|]. split.
  - rewrite (flt_real ra rb Va Vb Fa Fb), Ra, Rb. split; [apply lt_IZR|apply IZR_lt].
  - rewrite (feq_real ra rb Va Vb Fa Fb), Ra, Rb. split; [apply eq_IZR|now intros ->].
Qed.

(** ** Close distances can be ordered wrong *)
Definition left_tree : red := RAdd (RAdd (RAdd RZero (RItem 0)) (RItem 1)) (RItem 2).
Definition close_q : list f32 := [f32_of_Z 0; f32_of_Z 0; f32_of_Z 0].
Definition close_a : list f32 := [f32_of_Z 4096; f32_of_Z 1; f32_of_Z 1].
Definition close_b : list f32 := [f32_of_Z 4096; S754_finite false 10485760 (-23); f32_of_Z 0].

Lemma close_wrong : exists t q a b ra rb, Permutation (red_items t) (seq 0 3) /\ length q = 3%nat /\ length a = 3%nat /\ length b = 3%nat /\
  (forall x, In x q \/ In x a \/ In x b -> finite x /\ f32_valid x = true) /\
  exact_l2 q b < exact_l2 q a /\ l2_float t q a = Ok ra /\ l2_float t q b = Ok rb /\ flt ra rb = true.
Proof.
  exists left_tree, close_q, close_a, close_b, (f32_of_Z 16777216), (f32_of_Z 16777218).
  split; [apply Permutation_refl|]. do 3 (split; [reflexivity|]). split.
  { intros x H. cbn in H. intuition; subst; split; try exact I; reflexivity. }
  split; [|split; [vm_compute; reflexivity|split; [vm_compute; reflexivity|vm_compute; reflexivity]]].
  unfold exact_l2, close_q, close_a, close_b, real_sum. cbn [combine map fold_right fst snd].
  rewrite (proj2 (proj2 (of_Z_int 0 ltac:(lia)))), (proj2 (proj2 (of_Z_int 4096 ltac:(lia)))), (proj2 (proj2 (of_Z_int 1 ltac:(lia)))).
  assert (Rb : real (S754_finite false 10485760 (-23)) = 5 / 4).
  { unfold real. change (powerRZ 2 (-23)) with (/ 2 ^ 23). replace (2 ^ 23) with 8388608 by (rewrite pow_IZR; apply f_equal; reflexivity). lra. }
  rewrite Rb. lra.
Qed.

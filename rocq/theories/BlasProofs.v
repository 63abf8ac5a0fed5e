(** Error of one entry of a matrix product, and how errors add up. *)
From Coq Require Import ZArith Reals Lra Lia List Arith Bool Permutation Floats.SpecFloat.
From Flocq Require Import Core Relative Plus_error.
From Flocq Require BinarySingleNaN.
From Verif Require Import Base Float32 DivFacts DistSpec DistModel FusedModel RealSpec FloatReal L2ErrorProofs RealDistProofs NormProofs PqModel BlasModel BlasSpec.
Import ListNotations.
Local Open Scope R_scope.

(** ** A tree of products *)
Definition num (x : f32) : Prop := finite x /\ f32_valid x = true.

Lemma tree_ok : forall fac (e : nat -> R) t n, Permutation (fred_items t) (seq 0 n) ->
  (forall i, (i < n)%nat -> exists x y, fac i = Ok (x, y) /\ num x /\ num y /\ real x * real y = e i) ->
  E (n + 1) * isum (fun i => Rabs (e i)) (seq 0 n) + INR n * tiny * E n <= bpow radix2 127 ->
  exists r, fred_eval fac t = Ok r /\ num r /\ Rabs (real r - isum e (seq 0 n)) <= (E n - 1) * isum (fun i => Rabs (e i)) (seq 0 n) + INR n * tiny * E n.
Proof.
  intros fac e t n P H B. destruct (l2_sum_items t e _ P) as [Hs Hl]. destruct (l2_sum_items t (fun i => Rabs (e i)) _ P) as [Hs' _].
  assert (I : forall i, In i (fred_items t) -> (i < n)%nat) by (intros i Hi; pose proof (Permutation_in _ P Hi) as Q; apply in_seq in Q; lia).
  assert (F : forall i, In i (fred_items t) -> factors_ok fac e (fun i => Rabs (e i)) 0 i).
  { intros i Hi x y Hxy _ _. destruct (H i (I i Hi)) as [x' [y' [Q [[Fx Vx] [[Fy Vy] R]]]]]. rewrite Q in Hxy. injection Hxy as -> ->. repeat split; auto; [lra|].
    rewrite R, Rminus_diag_eq by reflexivity. rewrite Rabs_R0. cbn. lra. }
  assert (Q : forall i, In i (fred_items t) -> Rabs (e i) <= (fun i => Rabs (e i)) i) by (intros; cbn; lra).
  destruct (fred_finite fac e (fun i => Rabs (e i)) 0 t Q F) as [r [Hr Fr]].
  - intros i Hi. destruct (H i (I i Hi)) as [x [y [Hxy [[Fx Vx] [[Fy Vy] _]]]]]. eauto.
  - rewrite Hs', Hl. replace (1 + n)%nat with (n + 1)%nat by lia. exact B.
  - destruct (fred_error fac e (fun i => Rabs (e i)) 0 t r Q F Hr Fr) as [V D]. rewrite Hs, Hs', Hl in D. exists r. split; [exact Hr|]. split; [split; auto|].
    replace (E n - 1) with (E (n + 0) - 1) by (now rewrite Nat.add_0_r). apply err_bound; auto.
    + apply isum_nonneg. intros; apply Rabs_pos.
    + destruct n; [left; reflexivity|right; discriminate].
Qed.

Lemma tree_exact : forall fac (z : nat -> Z) t n, Permutation (fred_items t) (seq 0 n) ->
  (forall i, (i < n)%nat -> exists x y, fac i = Ok (x, y) /\ num x /\ num y /\ real x * real y = IZR (z i)) ->
  (isumZ (fun i => Z.abs (z i)) (seq 0 n) <= 2 ^ 24)%Z ->
  exists r, fred_eval fac t = Ok r /\ num r /\ real r = IZR (isumZ z (seq 0 n)).
Proof.
  intros fac z t n P H B.
  destruct (fred_exact fac z t) as [r [Hr [F [V R]]]].
  - intros i Hi. pose proof (Permutation_in _ P Hi) as Q. apply in_seq in Q. destruct (H i) as [x [y [Hxy [[Fx Vx] [[Fy Vy] R]]]]]; [lia|]. exists x, y. auto 10.
  - rewrite (isumZ_perm _ _ _ P). exact B.
  - rewrite (isumZ_perm _ _ _ P) in R. exists r. repeat split; auto.
Qed.

(** ** Scaling by -2 and by 1 *)
Definition scales (alpha : f32) (a : R) : Prop :=
  num alpha /\ real alpha = a /\ forall x, num x -> Rabs (a * real x) <= bpow radix2 127 -> num (fmul alpha x) /\ real (fmul alpha x) = a * real x.

Lemma format_scale : forall x, generic_format radix2 (FLT_exp (-149) 24) x -> generic_format radix2 (FLT_exp (-149) 24) (-2 * x).
Proof.
  intros x H. replace (-2 * x) with (- (x * bpow radix2 1)) by (cbn; ring). apply generic_format_opp. apply generic_format_FLT. apply FLT_format_generic in H; [|reflexivity].
  destruct H as [f H1 H2 H3]. exists (Float radix2 (Fnum f) (Fexp f + 1)).
  - rewrite H1. unfold F2R. cbn [Fnum Fexp]. rewrite bpow_plus. ring.
  - exact H2.
  - cbn. lia.
Qed.

Lemma scales_one : scales f32_one 1.
Proof.
  destruct (of_Z_int 1 ltac:(lia)) as [F [V R]]. change (f32_of_Z 1) with f32_one in *. split; [split; auto|]. split; [exact R|].
  intros x [Fx Vx] B. assert (Ff : finite (fmul f32_one x)) by (apply fmul_fin; auto; rewrite R; apply rnd_small, B).
  destruct (fmul_rnd f32_one x V Vx Ff) as [Vf Q]. split; [split; auto|]. rewrite Q, R, Rmult_1_l. apply round_generic; auto with typeclass_instances. apply real_format, Vx.
Qed.
Lemma scales_m2 : scales f32_m2 (-2).
Proof.
  destruct (of_Z_int (-2) ltac:(lia)) as [F [V R]]. change (f32_of_Z (-2)) with f32_m2 in *. split; [split; auto|]. split; [exact R|].
  intros x [Fx Vx] B. assert (Ff : finite (fmul f32_m2 x)) by (apply fmul_fin; auto; rewrite R; apply rnd_small, B).
  destruct (fmul_rnd f32_m2 x V Vx Ff) as [Vf Q]. split; [split; auto|]. rewrite Q, R. apply round_generic; auto with typeclass_instances. apply format_scale, real_format, Vx.
Qed.

(** ** One entry *)
Definition val (c : option f32) : R := match c with Some v => real v | None => 0 end.
Definition has (c : option f32) : bool := match c with Some _ => true | None => false end.

Lemma isum_ext : forall f g l, (forall i, In i l -> f i = g i) -> isum f l = isum g l.
Proof. intros f g l H. unfold isum. f_equal. apply map_ext_in, H. Qed.
Lemma isum_scale : forall a f l, isum (fun i => a * f i) l = a * isum f l.
Proof. intros a f l. unfold isum, real_sum. induction l as [|x l IH]; cbn; [ring|rewrite IH; ring]. Qed.
Lemma isum_last : forall f k, isum f (seq 0 (k + 1)) = isum f (seq 0 k) + f k.
Proof. intros f k. rewrite seq_app, isum_app. cbn [seq Nat.add]. unfold isum at 2, real_sum. cbn. ring. Qed.

Lemma small_sum : forall f l i, In i l -> Rabs (f i) <= isum (fun i => Rabs (f i)) l.
Proof. intros f l i H. apply (isum_ge (fun i => Rabs (f i))); auto. intros; apply Rabs_pos. Qed.

Lemma entry_ok : forall w k alpha a fa fb (X Y : nat -> f32) c, scales alpha a -> 1 <= Rabs a <= 2 -> way_ok k (has c) w ->
  (forall l, (l < k)%nat -> fa l = Ok (X l) /\ fb l = Ok (Y l) /\ num (X l) /\ num (Y l) /\ Rabs (real (X l)) <= bpow radix2 125) -> (forall v, c = Some v -> num v) ->
  let S := isum (fun l => real (X l) * real (Y l)) (seq 0 k) in
  let M := Rabs a * isum (fun l => Rabs (real (X l) * real (Y l))) (seq 0 k) + Rabs (val c) in
  E (k + 3) * M + INR (2 * k + 3) * tiny * E (k + 3) <= bpow radix2 127 ->
  exists r, gemm_entry w k alpha fa fb c = Ok r /\ num r /\ Rabs (real r - (a * S + val c)) <= (E (k + 2) - 1) * M + INR (2 * k + 3) * tiny * E (k + 2).
Proof.
  intros w k alpha a fa fb X Y c [Na [Ra Sc]] Ha Hw Hl Hc S M B.
  set (A := isum (fun l => Rabs (real (X l) * real (Y l))) (seq 0 k)) in *.
  assert (PA : 0 <= A) by (apply isum_nonneg; intros; apply Rabs_pos). pose proof (Rabs_pos (val c)) as Pc. pose proof tiny_pos as PT.
  assert (PaA : A <= Rabs a * A) by (rewrite <- (Rmult_1_l A) at 1; apply Rmult_le_compat_r; lra).
  assert (PM : 0 <= M) by (unfold M; lra).
  pose proof (pos_INR k) as Pk. assert (Hk : INR (2 * k + 3) = 2 * INR k + 3) by (rewrite plus_INR, mult_INR; cbn; ring).
  assert (Weak : forall n, (n <= k + 2)%nat -> E n * M + (2 * INR k + 3) * tiny * E n <= bpow radix2 127).
  { intros n Hn. eapply Rle_trans; [|exact B]. rewrite Hk. assert (E n <= E (k + 3)) by (apply E_mono; lia). apply Rplus_le_compat; [apply Rmult_le_compat_r; auto|]. apply Rmult_le_compat_l; auto. apply Rmult_le_pos; lra. }
  destruct w as [t|t fused]; cbn [gemm_entry way_ok] in *.
  - (* Inside *)
    set (e := fun l => if (l =? k)%nat then val c else a * (real (X l) * real (Y l))).
    set (n := if has c then (k + 1)%nat else k) in *.
    assert (Hin : isum e (seq 0 k) = a * S).
    { unfold S. rewrite <- isum_scale. apply isum_ext. intros i Hi. apply in_seq in Hi. unfold e. destruct (Nat.eqb_spec i k); [lia|reflexivity]. }
    assert (HinA : isum (fun i => Rabs (e i)) (seq 0 k) = Rabs a * A).
    { unfold A. rewrite <- isum_scale. apply isum_ext. intros i Hi. apply in_seq in Hi. unfold e. destruct (Nat.eqb_spec i k); [lia|]. now rewrite Rabs_mult. }
    assert (He : isum e (seq 0 n) = a * S + val c /\ isum (fun i => Rabs (e i)) (seq 0 n) = M).
    { unfold n, M. destruct c as [v|]; cbn [has val]. 
      - rewrite !isum_last, Hin, HinA. unfold e. rewrite Nat.eqb_refl. cbn [val]. split; reflexivity.
      - rewrite Hin, HinA, Rabs_R0. split; ring. }
    destruct He as [He1 He2].
    assert (Nn : (n <= k + 1)%nat) by (unfold n; destruct (has c); lia).
    assert (INRn : 0 <= INR n <= 2 * INR k + 3). { split; [apply pos_INR|]. apply Rle_trans with (INR (k + 1)); [apply le_INR; lia|]. rewrite plus_INR. cbn. lra. }
    destruct (tree_ok (fun l => match c with
                          | Some v => if (l =? k)%nat then Ok (f32_one, v) else do x <- fa l; do y <- fb l; Ok (fmul alpha x, y)
                          | None => do x <- fa l; do y <- fb l; Ok (fmul alpha x, y)
                          end) e t n) as [r [Hr [Nr D]]].
    + exact Hw.
    + assert (Body : forall i, (i < k)%nat -> exists x y, (do x <- fa i; do y <- fb i; Ok (fmul alpha x, y)) = Ok (x, y) /\ num x /\ num y /\ real x * real y = e i).
      { intros i Hi. destruct (Hl i Hi) as [H1 [H2 [H3 [H4 H5]]]]. rewrite H1, H2. cbn [bind].
        destruct (Sc (X i) H3) as [Nf Rf].
        { rewrite Rabs_mult. apply Rle_trans with (2 * bpow radix2 125); [apply Rmult_le_compat; try apply Rabs_pos; lra|]. change 2 with (bpow radix2 1). rewrite <- bpow_plus. apply bpow_le. lia. }
        eexists _, _. split; [reflexivity|]. split; [exact Nf|]. split; [exact H4|]. rewrite Rf. unfold e. destruct (Nat.eqb_spec i k); [lia|ring]. }
      intros i Hi. unfold n in Hi. destruct c as [v|]; cbn [has] in Hi.
      * destruct (Nat.eqb_spec i k) as [->|Ne]; [|apply Body; lia]. eexists _, _. split; [reflexivity|]. destruct scales_one as [N1 [R1 _]]. split; [exact N1|]. split; [apply Hc; reflexivity|].
        rewrite R1. unfold e. rewrite Nat.eqb_refl. cbn [val]. ring.
      * apply Body, Hi.
    + rewrite He2. eapply Rle_trans; [|apply (Weak (n + 1)%nat); lia]. apply Rplus_le_compat; [lra|]. apply Rmult_le_compat; try (apply Rmult_le_pos; lra); [pose proof (E_ge n); lra| |apply E_mono; lia].
      apply Rmult_le_compat_r; lra.
    + exists r. split; [exact Hr|]. split; [exact Nr|]. rewrite He1, He2 in D. eapply Rle_trans; [exact D|]. rewrite Hk. assert (E n <= E (k + 2)) by (apply E_mono; lia). pose proof (E_ge n).
      apply Rplus_le_compat; [apply Rmult_le_compat_r; lra|]. apply Rmult_le_compat; try lra; [apply Rmult_le_pos; lra|]. apply Rmult_le_compat_r; lra.
  - (* Outside *)
    assert (Ek : E k <= E (k + 1)) by (apply E_mono; lia). assert (Ek1 : E (k + 1) = E k * (1 + ulp)) by (unfold E; rewrite pow_add, pow_1; reflexivity). pose proof (E_ge k) as Gk. pose proof ulp_pos as U.
    assert (Ek2 : E (k + 2) = E (k + 1) * (1 + ulp)) by (unfold E; replace (k + 2)%nat with (k + 1 + 1)%nat by lia; rewrite (pow_add _ (k + 1) 1), pow_1; reflexivity).
    assert (Ek12 : E (k + 1) <= E (k + 2)) by (apply E_mono; lia).
    destruct (tree_ok (fun l => do x <- fa l; do y <- fb l; Ok (x, y)) (fun l => real (X l) * real (Y l)) t k Hw) as [s [Hs [Ns D]]].
    + intros i Hi. destruct (Hl i Hi) as [H1 [H2 [H3 [H4 H5]]]]. rewrite H1, H2. cbn [bind]. eexists _, _. split; [reflexivity|]. auto.
    + fold A. eapply Rle_trans; [|apply (Weak (k + 1)%nat); lia]. apply Rplus_le_compat.
      * apply Rmult_le_compat_l; [lra|]. unfold M. lra.
      * apply Rmult_le_compat; try lra; [apply Rmult_le_pos; lra|]. apply Rmult_le_compat_r; lra.
    + fold A S in D. rewrite Hs. cbn [bind].
      set (K := INR k * tiny * E k) in *. assert (PK : 0 <= K) by (unfold K; apply Rmult_le_pos; [apply Rmult_le_pos|]; lra).
      assert (AS : Rabs S <= A) by (unfold S, A; apply isum_abs; intros; lra).
      set (m := Rabs a) in *.
      assert (Das : Rabs (a * real s - a * S) <= (E k - 1) * (m * A) + 2 * K).
      { replace (a * real s - a * S) with (a * (real s - S)) by ring. rewrite Rabs_mult. fold m. apply Rle_trans with (m * ((E k - 1) * A + K)); [apply Rmult_le_compat_l; lra|].
        rewrite Rmult_plus_distr_l. assert (m * K <= 2 * K) by (apply Rmult_le_compat_r; lra). replace (m * ((E k - 1) * A)) with ((E k - 1) * (m * A)) by ring. lra. }
      assert (Bas : Rabs (a * real s) <= E k * (m * A) + 2 * K).
      { replace (a * real s) with ((a * real s - a * S) + a * S) by ring. eapply Rle_trans; [apply Rabs_triang|]. rewrite (Rabs_mult a S). fold m. assert (m * Rabs S <= m * A) by (apply Rmult_le_compat_l; lra). lra. }
      assert (KK : 2 * K <= (2 * INR k + 3) * tiny * E k) by (unfold K; assert (0 <= tiny * E k) by (apply Rmult_le_pos; lra); replace ((2 * INR k + 3) * tiny * E k) with ((2 * INR k + 3) * (tiny * E k)) by ring; lra).
      assert (Hsum : Rabs (a * real s) + Rabs (val c) <= bpow radix2 127).
      { eapply Rle_trans; [|apply (Weak k); lia]. unfold M. rewrite Rmult_plus_distr_l. assert (Rabs (val c) <= E k * Rabs (val c)) by (rewrite <- (Rmult_1_l (Rabs (val c))) at 1; apply Rmult_le_compat_r; lra). lra. }
      destruct (Sc s Ns) as [Nf Rf]; [lra|].
      destruct c as [v|]; cbn [val] in *.
      * assert (Nv : num v) by (apply Hc; reflexivity). destruct Nv as [Fv Vv]. destruct Nf as [Ff Vf]. destruct Ns as [Fs Vs]. destruct Na as [Fa Va].
        assert (Step : forall r, real r = rnd (a * real s + real v) -> Rabs (real r - (a * S + real v)) <= (E (k + 2) - 1) * M + INR (2 * k + 3) * tiny * E (k + 2)).
        { intros r Hr. destruct (rnd_any (a * real s + real v)) as [d [q [Hd [Hq Q]]]]. rewrite Hr, Q.
          replace ((a * real s + real v) * (1 + d) + q - (a * S + real v)) with ((a * real s - a * S) + (d * (a * real s) + (d * real v + q))) by ring.
          eapply Rle_trans; [apply Rabs_triang|]. assert (T1 : Rabs (d * (a * real s) + (d * real v + q)) <= ulp * Rabs (a * real s) + (ulp * Rabs (real v) + tiny)).
          { eapply Rle_trans; [apply Rabs_triang|]. apply Rplus_le_compat; [rewrite Rabs_mult; apply Rmult_le_compat_r; [apply Rabs_pos|auto]|]. eapply Rle_trans; [apply Rabs_triang|]. apply Rplus_le_compat; [rewrite Rabs_mult; apply Rmult_le_compat_r; [apply Rabs_pos|auto]|auto]. }
          assert (T2 : ulp * Rabs (a * real s) <= ulp * (E k * (m * A)) + ulp * (2 * K)) by (rewrite <- Rmult_plus_distr_l; apply Rmult_le_compat_l; lra).
          assert (T3 : (E k - 1) * (m * A) + ulp * (E k * (m * A)) = (E (k + 1) - 1) * (m * A)) by (rewrite Ek1; ring).
          assert (T4 : (E (k + 1) - 1) * (m * A) <= (E (k + 2) - 1) * (m * A)) by (apply Rmult_le_compat_r; lra).
          assert (T5 : ulp * Rabs (real v) <= (E (k + 2) - 1) * Rabs (real v)) by (apply Rmult_le_compat_r; [apply Rabs_pos|]; rewrite Ek2; nra).
          assert (T6 : 2 * K + ulp * (2 * K) + tiny <= INR (2 * k + 3) * tiny * E (k + 2)).
          { replace (2 * K + ulp * (2 * K)) with (2 * INR k * tiny * E (k + 1)) by (unfold K; rewrite Ek1; ring). rewrite Hk.
            assert (Q1 : 2 * INR k * tiny * E (k + 1) <= 2 * INR k * tiny * E (k + 2)) by (apply Rmult_le_compat_l; [apply Rmult_le_pos; lra|lra]).
            assert (Q2 : tiny * 1 <= tiny * E (k + 2)) by (apply Rmult_le_compat_l; [lra|apply E_ge]).
            replace ((2 * INR k + 3) * tiny * E (k + 2)) with (2 * INR k * tiny * E (k + 2) + 3 * (tiny * E (k + 2))) by ring. lra. }
          unfold M. rewrite Rmult_plus_distr_l. lra. }
        assert (Small : Rabs (rnd (a * real s + real v)) < bpow radix2 128) by (apply rnd_small; eapply Rle_trans; [apply Rabs_triang|exact Hsum]).
        destruct fused.
        -- assert (F : finite (ffma alpha s v)) by (apply ffma_fin; auto; rewrite Ra; exact Small). destruct (ffma_rnd alpha s v Fa Fs Fv F) as [V Q]. rewrite Ra in Q.
           exists (ffma alpha s v). split; [reflexivity|]. split; [split; auto|]. apply Step, Q.
        -- assert (F : finite (fadd (fmul alpha s) v)) by (apply fadd_fin; auto; rewrite Rf; exact Small). destruct (fadd_rnd (fmul alpha s) v Vf Vv Ff Fv F) as [V Q]. rewrite Rf in Q.
           exists (fadd (fmul alpha s) v). split; [reflexivity|]. split; [split; auto|]. apply Step, Q.
      * exists (fmul alpha s). split; [reflexivity|]. split; [exact Nf|]. rewrite Rf, Rplus_0_r. eapply Rle_trans; [exact Das|]. rewrite Hk. unfold M. rewrite Rabs_R0, Rplus_0_r.
        apply Rplus_le_compat; [apply Rmult_le_compat_r; [apply Rmult_le_pos; lra|lra]|].
        eapply Rle_trans; [exact KK|]. apply Rmult_le_compat_l; [apply Rmult_le_pos; lra|lra].
Qed.

(** ** Adding two computed values *)
Lemma chain : forall g h X0 X1 C N x c r s t u, 1 <= g -> 1 <= h -> Rabs X0 <= X1 -> Rabs C <= N -> Rabs (x - X0) <= (g - 1) * X1 + s -> Rabs (c - C) <= (g - 1) * N + t ->
  Rabs (r - (x + c)) <= (h - 1) * (Rabs x + Rabs c) + u -> Rabs (r - (X0 + C)) <= (g * h - 1) * (X1 + N) + h * (s + t) + u.
Proof.
  intros g h X0 X1 C N x c r s t u G H HX HC Dx Dc Dr. 
  assert (Bx : Rabs x <= g * X1 + s) by (replace x with (x - X0 + X0) by ring; eapply Rle_trans; [apply Rabs_triang|]; lra).
  assert (Bc : Rabs c <= g * N + t) by (replace c with (c - C + C) by ring; eapply Rle_trans; [apply Rabs_triang|]; lra).
  replace (r - (X0 + C)) with ((r - (x + c)) + ((x - X0) + (c - C))) by ring. eapply Rle_trans; [apply Rabs_triang|]. pose proof (Rabs_triang (x - X0) (c - C)) as T.
  assert (B : (h - 1) * (Rabs x + Rabs c) <= (h - 1) * (g * X1 + s + (g * N + t))) by (apply Rmult_le_compat_l; lra).
  replace ((g * h - 1) * (X1 + N) + h * (s + t) + u) with ((h - 1) * (g * X1 + s + (g * N + t)) + u + ((g - 1) * X1 + s + ((g - 1) * N + t))) by ring. lra.
Qed.

(** Flushing subnormals: vectors it does not touch. *)
From Coq Require Import ZArith Reals Lra Lia List Arith Bool Floats.SpecFloat.
From Flocq Require Import Core.
From Verif Require Import Base Float32 DivFacts DistSpec DistModel FusedModel RealSpec FloatReal L2ErrorProofs RealDistProofs FlushModel FlushSpec.
Import ListNotations.
Local Open Scope R_scope.

Lemma flush_may : forall x, may_flush x (flush x).
Proof.
  intros [s|s| |s m e]; try (left; reflexivity). unfold flush, may_flush, at_most_normal, f_neg.
  destruct (Z.ltb_spec (Zpos m) 8388608); cbn [andb]; [|left; reflexivity]. destruct (Z.eqb_spec e (-149)); [|left; reflexivity].
  right. split; [|reflexivity]. rewrite andb_true_iff, Z.leb_le. split; [lia|reflexivity].
Qed.
Lemma may_self : forall x, may_flush x x.
Proof. left. reflexivity. Qed.

Lemma keeping_ok : fpu_ok keeping.
Proof.
  constructor; intros; cbn; [exists x, y| exists x, y| exists x, y| exists x, y, z]; repeat split; apply may_self.
Qed.
Lemma flushing_ok : fpu_ok flushing.
Proof.
  constructor; intros; cbn; [exists (flush x), (flush y)|exists (flush x), (flush y)|exists (flush x), (flush y)|exists (flush x), (flush y), (flush z)]; repeat split; apply flush_may.
Qed.

(** ** Multiples of a power of two *)
Definition on_grid (k : Z) (r : R) : Prop := exists n : Z, r = IZR n * bpow radix2 k.

Lemma grid_0 : forall k, on_grid k 0.
Proof. intros k. exists 0%Z. ring. Qed.
Lemma grid_add : forall k x y, on_grid k x -> on_grid k y -> on_grid k (x + y).
Proof. intros k x y [n ->] [m ->]. exists (n + m)%Z. rewrite plus_IZR. ring. Qed.
Lemma grid_sub : forall k x y, on_grid k x -> on_grid k y -> on_grid k (x - y).
Proof. intros k x y [n ->] [m ->]. exists (n - m)%Z. rewrite minus_IZR. ring. Qed.
Lemma grid_mul : forall k l x y, on_grid k x -> on_grid l y -> on_grid (k + l) (x * y).
Proof. intros k l x y [n ->] [m ->]. exists (n * m)%Z. rewrite mult_IZR, bpow_plus. ring. Qed.
Lemma grid_weak : forall k l x, (l <= k)%Z -> on_grid k x -> on_grid l x.
Proof.
  intros k l x H [n ->]. exists (n * 2 ^ (k - l))%Z. rewrite mult_IZR, pow_Z by lia. rewrite Rmult_assoc, <- bpow_plus. do 2 f_equal. lia.
Qed.

Lemma grid_rnd : forall k x, (-149 <= k)%Z -> on_grid k x -> on_grid k (rnd x).
Proof.
  intros k x Hk [n ->]. set (x := IZR n * bpow radix2 k). destruct (Z_le_gt_dec (cexp radix2 (FLT_exp (-149) 24) x) k) as [L|G].
  - rewrite round_generic; [exists n; reflexivity|auto with typeclass_instances|]. change x with (F2R (Float radix2 n k)). apply generic_format_F2R. intros _. exact L.
  - apply (grid_weak (cexp radix2 (FLT_exp (-149) 24) x)); [lia|]. unfold round, F2R, Fnum, Fexp. eexists. reflexivity.
Qed.

Lemma grid_big : forall k x, on_grid k x -> x <> 0 -> bpow radix2 k <= Rabs x.
Proof.
  intros k x [n ->] N. rewrite Rabs_mult, (Rabs_pos_eq (bpow radix2 k)) by apply bpow_ge_0.
  rewrite <- (Rmult_1_l (bpow radix2 k)) at 1. apply Rmult_le_compat_r; [apply bpow_ge_0|]. rewrite <- abs_IZR. apply IZR_le.
  destruct (Z.eq_dec n 0) as [->|]; [exfalso; apply N; ring|lia].
Qed.

(** ** Floats on a grid *)
Definition fgrid (k : Z) (x : f32) : Prop := finite x -> f32_valid x = true /\ on_grid k (real x).

Lemma at_most_real : forall x, at_most_normal x = true -> finite x /\ real x <> 0 /\ Rabs (real x) <= bpow radix2 (-126).
Proof.
  intros [s|s| |s m e] H; try discriminate. unfold at_most_normal in H. apply andb_true_iff in H. destruct H as [H E]. apply Z.leb_le in H. apply Z.eqb_eq in E. subst e.
  split; [exact I|]. unfold real. rewrite <- (bpow_powerRZ radix2).
  assert (P : 0 < IZR (Zpos m) * bpow radix2 (-149)) by (apply Rmult_lt_0_compat; [apply IZR_lt; lia|apply bpow_gt_0]).
  assert (Q : IZR (Zpos m) * bpow radix2 (-149) <= bpow radix2 (-126)).
  { change (-126)%Z with (23 + -149)%Z. rewrite bpow_plus. apply Rmult_le_compat_r; [apply bpow_ge_0|]. rewrite <- pow_Z by lia. apply IZR_le. exact H. }
  split; [destruct s; lra|]. destruct s; [rewrite Rabs_left1|rewrite Rabs_pos_eq]; lra.
Qed.

Lemma flush_grid : forall k x y, (-125 <= k)%Z -> fgrid k x -> may_flush x y -> y = x.
Proof.
  intros k x y Hk G [H|[A H]]; [exact H|]. exfalso. destruct (at_most_real x A) as [F [N B]]. destruct (G F) as [_ Q].
  pose proof (grid_big k _ Q N) as C. pose proof (bpow_lt radix2 (-126) k ltac:(lia)). lra.
Qed.

Lemma fgrid_weak : forall k l x, (l <= k)%Z -> fgrid k x -> fgrid l x.
Proof. intros k l x H G F. destruct (G F) as [V Q]. split; [exact V|]. eapply grid_weak; eauto. Qed.

Lemma fgrid_add : forall k x y, (-149 <= k)%Z -> fgrid k x -> fgrid k y -> fgrid k (fadd x y).
Proof.
  intros k x y Hk Gx Gy F. destruct (fadd_finite x y F) as [Fx Fy]. destruct (Gx Fx) as [Vx Qx]. destruct (Gy Fy) as [Vy Qy].
  destruct (fadd_rnd x y Vx Vy Fx Fy F) as [V E]. split; [exact V|]. rewrite E. apply grid_rnd; auto. now apply grid_add.
Qed.
Lemma fgrid_sub : forall k x y, (-149 <= k)%Z -> fgrid k x -> fgrid k y -> fgrid k (fsub x y).
Proof.
  intros k x y Hk Gx Gy F. destruct (fsub_finite x y F) as [Fx Fy]. destruct (Gx Fx) as [Vx Qx]. destruct (Gy Fy) as [Vy Qy].
  destruct (fsub_rnd x y Vx Vy Fx Fy F) as [V E]. split; [exact V|]. rewrite E. apply grid_rnd; auto. now apply grid_sub.
Qed.
Lemma fgrid_mul : forall k l x y, (-149 <= k + l)%Z -> fgrid k x -> fgrid l y -> fgrid (k + l) (fmul x y).
Proof.
  intros k l x y Hk Gx Gy F. destruct (fmul_finite x y F) as [Fx Fy]. destruct (Gx Fx) as [Vx Qx]. destruct (Gy Fy) as [Vy Qy].
  destruct (fmul_rnd x y Vx Vy F) as [V E]. split; [exact V|]. rewrite E. apply grid_rnd; auto. now apply grid_mul.
Qed.
Lemma fgrid_fma : forall k l x y z, (-149 <= k + l)%Z -> fgrid k x -> fgrid l y -> fgrid (k + l) z -> fgrid (k + l) (ffma x y z).
Proof.
  intros k l x y z Hk Gx Gy Gz F. destruct (ffma_finite x y z F) as [Fx [Fy Fz]]. destruct (Gx Fx) as [Vx Qx]. destruct (Gy Fy) as [Vy Qy]. destruct (Gz Fz) as [Vz Qz].
  destruct (ffma_rnd x y z Fx Fy Fz F) as [V E]. split; [exact V|]. rewrite E. apply grid_rnd; auto. apply grid_add; auto. now apply grid_mul.
Qed.

(** ** Sums *)
Lemma ured_same : forall u fac t, fpu_ok u ->
  (forall i x y, fac i = Ok (x, y) -> fgrid (-62) x /\ fgrid (-62) y) ->
  ured_eval u fac t = fred_eval fac t /\ forall r, fred_eval fac t = Ok r -> fgrid (-124) r.
Proof.
  intros u fac t U Hf. induction t as [|i|l [IHl Gl] r [IHr Gr]|i r [IHr Gr]]; cbn [ured_eval fred_eval].
  - split; [reflexivity|]. intros r H. injection H as <-. intros _. split; [reflexivity|]. apply grid_0.
  - destruct (fac i) as [[x y]| | | |] eqn:Ef; cbn [bind fst snd]; try (split; [reflexivity|discriminate]).
    destruct (Hf i x y Ef) as [Gx Gy]. pose proof (fgrid_mul (-62) (-62) x y ltac:(lia) Gx Gy) as G. change (-62 + -62)%Z with (-124)%Z in G.
    destruct (fo_mul u U x y) as [x' [y' [Hx [Hy H]]]]. apply (flush_grid (-62)) in Hx; [|lia|auto]. apply (flush_grid (-62)) in Hy; [|lia|auto]. subst x' y'.
    apply (flush_grid (-124)) in H; [|lia|exact G]. rewrite H. split; [reflexivity|]. intros r E. injection E as <-. exact G.
  - rewrite IHl, IHr. destruct (fred_eval fac l) as [x| | | |] eqn:El; cbn [bind]; try (split; [reflexivity|discriminate]).
    destruct (fred_eval fac r) as [y| | | |] eqn:Er; cbn [bind]; try (split; [reflexivity|discriminate]).
    specialize (Gl x eq_refl). specialize (Gr y eq_refl). pose proof (fgrid_add (-124) x y ltac:(lia) Gl Gr) as G.
    destruct (fo_add u U x y) as [x' [y' [Hx [Hy H]]]]. apply (flush_grid (-124)) in Hx; [|lia|auto]. apply (flush_grid (-124)) in Hy; [|lia|auto]. subst x' y'.
    apply (flush_grid (-124)) in H; [|lia|exact G]. rewrite H. split; [reflexivity|]. intros q E. injection E as <-. exact G.
  - rewrite IHr. destruct (fac i) as [[x y]| | | |] eqn:Ef; cbn [bind fst snd]; try (split; [reflexivity|discriminate]).
    destruct (fred_eval fac r) as [z| | | |] eqn:Er; cbn [bind]; try (split; [reflexivity|discriminate]).
    destruct (Hf i x y Ef) as [Gx Gy]. specialize (Gr z eq_refl). pose proof (fgrid_fma (-62) (-62) x y z ltac:(lia) Gx Gy Gr) as G. change (-62 + -62)%Z with (-124)%Z in G.
    destruct (fo_fma u U x y z) as [x' [y' [z' [Hx [Hy [Hz H]]]]]]. apply (flush_grid (-62)) in Hx; [|lia|auto]. apply (flush_grid (-62)) in Hy; [|lia|auto]. apply (flush_grid (-124)) in Hz; [|lia|auto]. subst x' y' z'.
    apply (flush_grid (-124)) in H; [|lia|exact G]. rewrite H. split; [reflexivity|]. intros q E. injection E as <-. exact G.
Qed.

(** A float that is zero or at least 2^-39 is a multiple of 2^-62. *)
Lemma coarse_grid : forall x, f32_valid x = true -> (real x = 0 \/ powerRZ 2 (-39) <= Rabs (real x)) -> fgrid (-62) x.
Proof.
  intros x V H F. split; [exact V|]. destruct H as [->|H]; [apply grid_0|].
  pose proof (real_format x V) as G. unfold generic_format in G. rewrite G. unfold F2R, Fnum, Fexp.
  apply (grid_weak (cexp radix2 (FLT_exp (-149) 24) (real x))); [|eexists; reflexivity].
  change 2 with (IZR radix2) in H. rewrite <- bpow_powerRZ in H. unfold cexp, FLT_exp.
  assert (-38 <= mag radix2 (real x))%Z by (apply mag_ge_bpow; exact H). lia.
Qed.

Lemma coarse_rd : forall l i x, coarse l -> rd l i = Ok x -> fgrid (-62) x.
Proof. intros l i x H E. apply rd_ok in E. apply nth_error_In in E. destruct (H x E) as [_ [V B]]. now apply coarse_grid. Qed.

Lemma ured_ext : forall u f g t, (forall i, f i = g i) -> ured_eval u f t = ured_eval u g t.
Proof. intros u f g t H. induction t as [|i|l IHl r IHr|i r IHr]; cbn; rewrite ?IHl, ?IHr, ?H; reflexivity. Qed.

Lemma l2_same : forall u t a b, fpu_ok u -> coarse a -> coarse b -> l2_on u t a b = l2_fused t a b.
Proof.
  intros u t a b U Ha Hb. unfold l2_on, l2_fused. rewrite (ured_ext u _ (fun i => do x <- rd a i; do y <- rd b i; Ok (fsub x y, fsub x y))).
  - apply ured_same; [exact U|]. intros i x y H. apply bind_ok in H. destruct H as [p [Hp H]]. apply bind_ok in H. destruct H as [q [Hq H]]. injection H as <- <-.
    pose proof (fgrid_sub (-62) p q ltac:(lia) (coarse_rd _ _ _ Ha Hp) (coarse_rd _ _ _ Hb Hq)). auto.
  - intros i. destruct (rd a i) as [p| | | |] eqn:Hp; cbn [bind]; try reflexivity. destruct (rd b i) as [q| | | |] eqn:Hq; cbn [bind]; try reflexivity.
    pose proof (coarse_rd _ _ _ Ha Hp) as Gp. pose proof (coarse_rd _ _ _ Hb Hq) as Gq. pose proof (fgrid_sub (-62) p q ltac:(lia) Gp Gq) as G.
    destruct (fo_sub u U p q) as [x' [y' [Hx [Hy H]]]]. apply (flush_grid (-62)) in Hx; [|lia|auto]. apply (flush_grid (-62)) in Hy; [|lia|auto]. subst x' y'.
    apply (flush_grid (-62)) in H; [|lia|exact G]. rewrite H. reflexivity.
Qed.

Lemma ip_same : forall u t a b, fpu_ok u -> coarse a -> coarse b -> ip_on u t a b = ip_fused t a b.
Proof.
  intros u t a b U Ha Hb. apply ured_same; [exact U|]. intros i x y H. apply bind_ok in H. destruct H as [p [Hp H]]. apply bind_ok in H. destruct H as [q [Hq H]]. injection H as <- <-.
  split; [apply (coarse_rd _ _ _ Ha Hp)|apply (coarse_rd _ _ _ Hb Hq)].
Qed.

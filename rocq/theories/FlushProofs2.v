(** Flushing subnormals: the error of a distance. *)
From Coq Require Import ZArith Reals Lra Lia List Arith Bool Permutation Floats.SpecFloat.
From Flocq Require Import Core.
From Verif Require Import Base Float32 DivFacts DistSpec DistModel FusedModel RealSpec FloatReal L2ErrorProofs RealDistProofs FlushModel FlushProofs FlushSpec.
Import ListNotations.
Local Open Scope R_scope.

(** The smallest normal number. *)
Notation h := (bpow radix2 (-126)).
Lemma h_pos : 0 < h.
Proof. apply bpow_gt_0. Qed.
Lemma h_small : h <= ulp * / 1024.
Proof.
  unfold ulp. change 2 with (IZR radix2). rewrite <- bpow_powerRZ.
  apply Rle_trans with (bpow radix2 (-24) * bpow radix2 (-10)); [|apply Rmult_le_compat_l; [apply bpow_ge_0|cbn; lra]].
  rewrite <- bpow_plus. apply bpow_le. lia.
Qed.
Lemma tiny_h : tiny <= h.
Proof. rewrite tiny_bpow. pose proof (bpow_gt_0 radix2 (-149)). pose proof (bpow_le radix2 (-149) (-126) ltac:(lia)). lra. Qed.
Lemma ulp_small : ulp <= / 16.
Proof.
  unfold ulp. change 2 with (IZR radix2). rewrite <- bpow_powerRZ. apply Rle_trans with (bpow radix2 (-4)); [apply bpow_le; lia|cbn; lra].
Qed.

Lemma may_finite : forall x y, may_flush x y -> (finite x <-> finite y).
Proof. intros x y [->|[A ->]]; [tauto|]. destruct (at_most_real x A) as [F _]. cbn. tauto. Qed.
Lemma may_real : forall x y, may_flush x y -> f32_valid x = true -> f32_valid y = true /\ Rabs (real y - real x) <= h /\ (real x = 0 -> real y = 0) /\ Rabs (real y) <= Rabs (real x).
Proof.
  intros x y [->|[A ->]] V.
  - split; [exact V|]. rewrite Rminus_eq_0, Rabs_R0. pose proof h_pos. repeat split; [lra|tauto|lra].
  - destruct (at_most_real x A) as [F [N B]]. split; [reflexivity|]. cbn [real]. rewrite Rminus_0_l, Rabs_Ropp, Rabs_R0. repeat split; [exact B|apply Rabs_pos].
Qed.
Lemma may_valid_back : forall x y, may_flush x y -> finite y -> f32_valid x = true -> f32_valid y = true.
Proof. intros x y M _ V. apply (may_real x y M V). Qed.

Lemma abs1 : forall d, Rabs d <= ulp -> Rabs (1 + d) <= 1 + ulp.
Proof. intros d H. eapply Rle_trans; [apply Rabs_triang|]. rewrite Rabs_R1. lra. Qed.
Lemma abs_mul : forall a b A B, Rabs a <= A -> Rabs b <= B -> Rabs (a * b) <= A * B.
Proof. intros. rewrite Rabs_mult. apply Rmult_le_compat; auto using Rabs_pos. Qed.

(** ** One operation *)
Lemma u_add_real : forall u x y, fpu_ok u -> f32_valid x = true -> f32_valid y = true -> finite (u_add u x y) ->
  finite x /\ finite y /\ f32_valid (u_add u x y) = true /\
  (exists d q, Rabs d <= ulp /\ Rabs q <= 4 * h /\ real (u_add u x y) = (real x + real y) * (1 + d) + q) /\
  (real x = 0 -> Rabs (real (u_add u x y) - real y) <= 2 * h) /\ (real y = 0 -> Rabs (real (u_add u x y) - real x) <= 2 * h).
Proof.
  intros u x y U Vx Vy F. destruct (fo_add u U x y) as [x' [y' [Mx [My M]]]].
  destruct (may_real _ _ Mx Vx) as [Vx' [Dx [Zx _]]]. destruct (may_real _ _ My Vy) as [Vy' [Dy [Zy _]]].
  assert (F1 : finite (fadd x' y')) by (apply (may_finite _ _ M), F). destruct (fadd_finite x' y' F1) as [Fx' Fy'].
  destruct (fadd_rnd x' y' Vx' Vy' Fx' Fy' F1) as [V Er]. destruct (fadd_real x' y' Vx' Vy' Fx' Fy' F1) as [_ [d [Hd E]]].
  destruct (may_real _ _ M V) as [V2 [D _]]. pose proof h_pos as P. pose proof ulp_pos as U1. pose proof ulp_small as U2.
  split; [apply (may_finite _ _ Mx), Fx'|]. split; [apply (may_finite _ _ My), Fy'|]. split; [exact V2|]. split; [|split].
  - exists d, (real (u_add u x y) - (real x + real y) * (1 + d)). split; [exact Hd|]. split; [|ring].
    replace (real (u_add u x y) - (real x + real y) * (1 + d)) with ((real (u_add u x y) - real (fadd x' y')) + ((real x' - real x) + (real y' - real y)) * (1 + d)) by (rewrite E; ring).
    eapply Rle_trans; [apply Rabs_triang|]. assert (Q : Rabs (real x' - real x + (real y' - real y)) <= 2 * h) by (eapply Rle_trans; [apply Rabs_triang|]; lra).
    pose proof (abs_mul _ _ _ _ Q (abs1 d Hd)). nra.
  - intros Hx. rewrite (Zx Hx), Rplus_0_l, round_generic in Er by (auto with typeclass_instances; apply real_format, Vy').
    replace (real (u_add u x y) - real y) with ((real (u_add u x y) - real (fadd x' y')) + (real y' - real y)) by (rewrite Er; ring). eapply Rle_trans; [apply Rabs_triang|]. lra.
  - intros Hy. rewrite (Zy Hy), Rplus_0_r, round_generic in Er by (auto with typeclass_instances; apply real_format, Vx').
    replace (real (u_add u x y) - real x) with ((real (u_add u x y) - real (fadd x' y')) + (real x' - real x)) by (rewrite Er; ring). eapply Rle_trans; [apply Rabs_triang|]. lra.
Qed.

Lemma u_sub_real : forall u x y, fpu_ok u -> f32_valid x = true -> f32_valid y = true -> finite (u_sub u x y) ->
  f32_valid (u_sub u x y) = true /\ exists d q, Rabs d <= ulp /\ Rabs q <= 4 * h /\ real (u_sub u x y) = (real x - real y) * (1 + d) + q.
Proof.
  intros u x y U Vx Vy F. destruct (fo_sub u U x y) as [x' [y' [Mx [My M]]]].
  destruct (may_real _ _ Mx Vx) as [Vx' [Dx _]]. destruct (may_real _ _ My Vy) as [Vy' [Dy _]].
  assert (F1 : finite (fsub x' y')) by (apply (may_finite _ _ M), F). destruct (fsub_finite x' y' F1) as [Fx' Fy'].
  destruct (fsub_real x' y' Vx' Vy' Fx' Fy' F1) as [V [d [Hd E]]].
  destruct (may_real _ _ M V) as [V2 [D _]]. pose proof h_pos as P. pose proof ulp_pos as U1. pose proof ulp_small as U2. split; [exact V2|].
  exists d, (real (u_sub u x y) - (real x - real y) * (1 + d)). split; [exact Hd|]. split; [|ring].
  replace (real (u_sub u x y) - (real x - real y) * (1 + d)) with ((real (u_sub u x y) - real (fsub x' y')) + ((real x' - real x) - (real y' - real y)) * (1 + d)) by (rewrite E; ring).
  eapply Rle_trans; [apply Rabs_triang|]. assert (Q : Rabs (real x' - real x - (real y' - real y)) <= 2 * h).
  { unfold Rminus at 1. eapply Rle_trans; [apply Rabs_triang|]. rewrite Rabs_Ropp. lra. }
  pose proof (abs_mul _ _ _ _ Q (abs1 d Hd)). nra.
Qed.

Lemma u_mul_real : forall u x y, fpu_ok u -> f32_valid x = true -> f32_valid y = true -> finite (u_mul u x y) ->
  finite x /\ finite y /\ f32_valid (u_mul u x y) = true /\ exists x' y' d q, may_flush x x' /\ may_flush y y' /\ Rabs d <= ulp /\ Rabs q <= 4 * h /\ real (u_mul u x y) = real x' * real y' * (1 + d) + q.
Proof.
  intros u x y U Vx Vy F. destruct (fo_mul u U x y) as [x' [y' [Mx [My M]]]].
  destruct (may_real _ _ Mx Vx) as [Vx' _]. destruct (may_real _ _ My Vy) as [Vy' _].
  assert (F1 : finite (fmul x' y')) by (apply (may_finite _ _ M), F). destruct (fmul_finite x' y' F1) as [Fx' Fy'].
  destruct (fmul_real x' y' Vx' Vy' F1) as [V [d [e [Hd [He E]]]]]. destruct (may_real _ _ M V) as [V2 [D _]].
  split; [apply (may_finite _ _ Mx), Fx'|]. split; [apply (may_finite _ _ My), Fy'|]. split; [exact V2|].
  exists x', y', d, (e + (real (u_mul u x y) - real (fmul x' y'))). split; [exact Mx|]. split; [exact My|]. split; [exact Hd|]. split; [|rewrite E; ring].
  pose proof tiny_h. pose proof h_pos. eapply Rle_trans; [apply Rabs_triang|]. lra.
Qed.

Lemma u_fma_real : forall u x y z, fpu_ok u -> f32_valid x = true -> f32_valid y = true -> f32_valid z = true -> finite (u_fma u x y z) ->
  finite x /\ finite y /\ finite z /\ f32_valid (u_fma u x y z) = true /\
  exists x' y' d q, may_flush x x' /\ may_flush y y' /\ Rabs d <= ulp /\ Rabs q <= 4 * h /\ real (u_fma u x y z) = (real x' * real y' + real z) * (1 + d) + q.
Proof.
  intros u x y z U Vx Vy Vz F. destruct (fo_fma u U x y z) as [x' [y' [z' [Mx [My [Mz M]]]]]].
  destruct (may_real _ _ Mz Vz) as [Vz' [Dz _]].
  assert (F1 : finite (ffma x' y' z')) by (apply (may_finite _ _ M), F). destruct (ffma_finite x' y' z' F1) as [Fx' [Fy' Fz']].
  destruct (ffma_real x' y' z' Fx' Fy' Fz' F1) as [V [d [e [Hd [He E]]]]]. destruct (may_real _ _ M V) as [V2 [D _]].
  split; [apply (may_finite _ _ Mx), Fx'|]. split; [apply (may_finite _ _ My), Fy'|]. split; [apply (may_finite _ _ Mz), Fz'|]. split; [exact V2|].
  exists x', y', d, (e + (real (u_fma u x y z) - real (ffma x' y' z')) + (real z' - real z) * (1 + d)). split; [exact Mx|]. split; [exact My|]. split; [exact Hd|]. split; [|rewrite E; ring].
  pose proof tiny_h. pose proof h_pos. pose proof ulp_small. eapply Rle_trans; [apply Rabs_triang|].
  pose proof (Rabs_triang e (real (u_fma u x y z) - real (ffma x' y' z'))). pose proof (abs_mul _ _ _ _ Dz (abs1 d Hd)). nra.
Qed.

(** ** Sums *)
(** As [err] of L2ErrorProofs, with [k] operations that lose up to [w] each. *)
Definition ferr (w : R) (c n k : nat) (S M v : R) : Prop :=
  match n with
  | O => v = 0
  | Datatypes.S j => Rabs (v - S) <= (E (c + j) - 1) * M + INR k * w * E j
  end.

Lemma ferr_weak : forall w c n k S M v j, 0 <= w -> n <> O -> (n <= Datatypes.S j)%nat -> 0 <= M -> ferr w c n k S M v -> Rabs (v - S) <= (E (c + j) - 1) * M + INR k * w * E j.
Proof.
  intros w c [|n] k S M v j W N H P B; [congruence|]. unfold ferr in B. eapply Rle_trans; [exact B|]. apply Rplus_le_compat.
  - apply Rmult_le_compat_r; auto. apply Rplus_le_compat_r, E_mono. lia.
  - apply Rmult_le_compat_l; [|apply E_mono; lia]. apply Rmult_le_pos; [apply pos_INR|exact W].
Qed.

Lemma ferr_add : forall w c n n' k k' S S' M M' v v' d q, 4 * h <= w -> n <> O -> n' <> O -> 0 <= M -> 0 <= M' -> Rabs S <= M -> Rabs S' <= M' ->
  ferr w c n k S M v -> ferr w c n' k' S' M' v' -> Rabs d <= ulp -> Rabs q <= 4 * h -> ferr w c (n + n') (Datatypes.S (k + k')) (S + S') (M + M') ((v + v') * (1 + d) + q).
Proof.
  intros w c n n' k k' S S' M M' v v' d q W N N' P P' A A' B B' Hd Hq. pose proof h_pos as Hh.
  destruct (n + n')%nat as [|j] eqn:K; [lia|]. unfold ferr.
  apply (ferr_weak w c n k S M v (j - 1)) in B; [|lra|auto|lia|auto]. apply (ferr_weak w c n' k' S' M' v' (j - 1)) in B'; [|lra|auto|lia|auto].
  pose proof ulp_pos as U.
  assert (Es : E (c + j) = E (c + (j - 1)) * (1 + ulp)) by (replace (c + j)%nat with (Datatypes.S (c + (j - 1))) by lia; cbn; ring).
  assert (Es' : E j = E (j - 1) * (1 + ulp)) by (replace j with (Datatypes.S (j - 1)) at 1 by lia; cbn; ring).
  pose proof (E_ge j) as G1.
  rewrite S_INR, plus_INR, Es. set (G := E (c + (j - 1))) in *.
  replace ((v + v') * (1 + d) + q - (S + S')) with ((v - S + (v' - S')) * (1 + d) + d * (S + S') + q) by ring.
  eapply Rle_trans; [apply Rabs_triang|]. assert (Q := Rabs_triang ((v - S + (v' - S')) * (1 + d)) (d * (S + S'))).
  assert (S1 : Rabs (S + S') <= M + M') by (eapply Rle_trans; [apply Rabs_triang|]; lra).
  assert (S2 : Rabs (v - S + (v' - S')) <= (G - 1) * (M + M') + (INR k + INR k') * w * E (j - 1)) by (eapply Rle_trans; [apply Rabs_triang|]; lra).
  pose proof (abs_mul _ _ _ _ S2 (abs1 d Hd)) as Q1. pose proof (abs_mul _ _ _ _ Hd S1) as Q2.
  assert (Q3 : (INR k + INR k') * w * E j = (INR k + INR k') * w * E (j - 1) * (1 + ulp)) by (rewrite Es'; ring).
  assert (Q4 : w * 1 <= w * E j) by (apply Rmult_le_compat_l; lra).
  replace ((INR k + INR k' + 1) * w * E j) with ((INR k + INR k') * w * E j + w * E j) by ring. lra.
Qed.

Lemma ferr_item : forall w w0 c S M p d q, 2 * w0 + 4 * h <= w -> 0 <= w0 -> 0 <= M -> Rabs S <= M -> Rabs (p - S) <= (E c - 1) * M + w0 -> Rabs d <= ulp -> Rabs q <= 4 * h ->
  ferr w (Datatypes.S c) 1 1 S M (p * (1 + d) + q).
Proof.
  intros w w0 c S M p d q W W0 P A B Hd Hq. unfold ferr. pose proof ulp_pos as U. rewrite Nat.add_0_r. cbn [INR pow]. rewrite !Rmult_1_r, Rmult_1_l.
  replace (p * (1 + d) + q - S) with ((p - S) * (1 + d) + d * S + q) by ring.
  eapply Rle_trans; [apply Rabs_triang|]. assert (Q := Rabs_triang ((p - S) * (1 + d)) (d * S)).
  pose proof (abs_mul _ _ _ _ B (abs1 d Hd)) as Q1. pose proof (abs_mul _ _ _ _ Hd A) as Q2. nra.
Qed.

Lemma ferr_fma : forall w w0 c n k S S' M M' p v d q, 2 * w0 + 4 * h <= w -> 0 <= w0 -> n <> O -> 0 <= M -> 0 <= M' -> Rabs S <= M -> Rabs S' <= M' ->
  Rabs (p - S) <= (E c - 1) * M + w0 -> ferr w (Datatypes.S c) n k S' M' v -> Rabs d <= ulp -> Rabs q <= 4 * h ->
  ferr w (Datatypes.S c) (Datatypes.S n) (Datatypes.S k) (S + S') (M + M') ((p + v) * (1 + d) + q).
Proof.
  intros w w0 c n k S S' M M' p v d q W W0 N P P' A A' B B' Hd Hq. pose proof h_pos as Hh.
  assert (Bp : Rabs (p - S) <= (E (Datatypes.S c + (n - 1)) - 1) * M + w0).
  { eapply Rle_trans; [exact B|]. apply Rplus_le_compat_r, Rmult_le_compat_r; auto. apply Rplus_le_compat_r, E_mono. lia. }
  apply (ferr_weak w _ n k S' M' v (n - 1)) in B'; [|lra|auto|lia|auto].
  unfold ferr. pose proof ulp_pos as U.
  assert (Es : E (Datatypes.S c + n) = E (Datatypes.S c + (n - 1)) * (1 + ulp)) by (replace (Datatypes.S c + n)%nat with (Datatypes.S (Datatypes.S c + (n - 1))) by lia; cbn; ring).
  assert (Es' : E n = E (n - 1) * (1 + ulp)) by (replace n with (Datatypes.S (n - 1)) at 1 by lia; cbn; ring).
  pose proof (E_ge n) as G1.
  rewrite S_INR. rewrite Es. set (G := E (Datatypes.S c + (n - 1))) in *.
  replace ((p + v) * (1 + d) + q - (S + S')) with ((p - S + (v - S')) * (1 + d) + d * (S + S') + q) by ring.
  eapply Rle_trans; [apply Rabs_triang|]. assert (Q := Rabs_triang ((p - S + (v - S')) * (1 + d)) (d * (S + S'))).
  assert (S1 : Rabs (S + S') <= M + M') by (eapply Rle_trans; [apply Rabs_triang|]; lra).
  assert (S2 : Rabs (p - S + (v - S')) <= (G - 1) * (M + M') + INR k * w * E (n - 1) + w0) by (eapply Rle_trans; [apply Rabs_triang|]; lra).
  pose proof (abs_mul _ _ _ _ S2 (abs1 d Hd)) as Q1. pose proof (abs_mul _ _ _ _ Hd S1) as Q2.
  assert (Q3 : INR k * w * E n = INR k * w * E (n - 1) * (1 + ulp)) by (rewrite Es'; ring).
  assert (Q4 : w * 1 <= w * E n) by (apply Rmult_le_compat_l; lra).
  assert (Q5 : w0 * (1 + ulp) <= w0 * 2) by (apply Rmult_le_compat_l; lra).
  replace ((INR k + 1) * w * E n) with (INR k * w * E n + w * E n) by ring. lra.
Qed.

(** Adding a sum without summands. *)
Lemma ferr_zero : forall w c n k S M v v', 4 * h <= w -> n <> O -> ferr w c n k S M v -> Rabs (v' - v) <= 2 * h -> ferr w c n (Datatypes.S k) S M v'.
Proof.
  intros w c [|j] k S M v v' W N B D; [congruence|]. unfold ferr in *. pose proof h_pos. pose proof (E_ge j). rewrite S_INR.
  replace (v' - S) with ((v' - v) + (v - S)) by ring. eapply Rle_trans; [apply Rabs_triang|].
  assert (w * 1 <= w * E j) by (apply Rmult_le_compat_l; lra). replace ((INR k + 1) * w * E j) with (INR k * w * E j + w * E j) by ring. lra.
Qed.
Lemma ferr_more : forall w c n k k' S M v, 0 <= w -> (k <= k')%nat -> ferr w c n k S M v -> ferr w c n k' S M v.
Proof.
  intros w c [|j] k k' S M v W H B; [exact B|]. unfold ferr in *. eapply Rle_trans; [exact B|]. apply Rplus_le_compat_l, Rmult_le_compat_r; [pose proof (E_ge j); lra|].
  apply Rmult_le_compat_r; [exact W|]. now apply le_INR.
Qed.

Definition ufac_ok (w0 : R) (fac : nat -> res (f32 * f32)) (e m : nat -> R) (c : nat) (i : nat) : Prop :=
  forall x y, fac i = Ok (x, y) -> finite x -> finite y ->
    Rabs (e i) <= m i /\ forall x' y', may_flush x x' -> may_flush y y' -> Rabs (real x' * real y' - e i) <= (E c - 1) * m i + w0.

Lemma ured_zero : forall u fac t r, fpu_ok u -> ured_eval u fac t = Ok r -> fred_items t = [] -> finite r -> real r = 0 /\ f32_valid r = true.
Proof.
  intros u fac t. induction t as [|i|l IHl r IHr|i r IHr]; intros v U H Hn F; cbn in H, Hn; try discriminate.
  - injection H as <-. split; reflexivity.
  - apply app_eq_nil in Hn. destruct Hn as [Nl Nr]. apply bind_ok in H. destruct H as [x [Hx H]]. apply bind_ok in H. destruct H as [y [Hy H]]. injection H as <-.
    destruct (fo_add u U x y) as [x' [y' [Mx [My M]]]].
    assert (F1 : finite (fadd x' y')) by (apply (may_finite _ _ M), F). destruct (fadd_finite x' y' F1) as [Fx' Fy'].
    apply (may_finite _ _ Mx) in Fx'. apply (may_finite _ _ My) in Fy'.
    destruct (IHl x U Hx Nl Fx') as [Rx Vx]. destruct (IHr y U Hy Nr Fy') as [Ry Vy].
    destruct (may_real _ _ Mx Vx) as [Vx' [_ [Zx _]]]. destruct (may_real _ _ My Vy) as [Vy' [_ [Zy _]]].
    destruct (fadd_real x' y' Vx' Vy') as [V [d [_ E]]]; [apply (may_finite _ _ Mx), Fx'|apply (may_finite _ _ My), Fy'|exact F1|].
    destruct (may_real _ _ M V) as [V2 [_ [Z2 _]]]. split; [|exact V2]. apply Z2. rewrite E, (Zx Rx), (Zy Ry). ring.
Qed.


Lemma ured_error : forall u w w0 fac e m c t r, fpu_ok u -> 2 * w0 + 4 * h <= w -> 0 <= w0 ->
  (forall i, In i (fred_items t) -> Rabs (e i) <= m i) ->
  (forall i x y, In i (fred_items t) -> fac i = Ok (x, y) -> finite x -> finite y -> f32_valid x = true /\ f32_valid y = true) ->
  (forall i, In i (fred_items t) -> ufac_ok w0 fac e m c i) ->
  ured_eval u fac t = Ok r -> finite r ->
  f32_valid r = true /\ ferr w (S c) (length (fred_items t)) (fred_ops t) (isum e (fred_items t)) (isum m (fred_items t)) (real r).
Proof.
  intros u w w0 fac e m c t r U W W0. revert r. pose proof h_pos as Hh.
  induction t as [|i|l IHl r IHr|i r IHr]; intros v Hm Hv Hi H F; cbn [ured_eval fred_items fred_ops] in *.
  - injection H as <-. split; reflexivity.
  - apply bind_ok in H. destruct H as [[x y] [Hx H]]. injection H as <-. cbn [fst snd] in *.
    assert (FF : finite x /\ finite y).
    { destruct (fo_mul u U x y) as [x' [y' [Mx [My M]]]]. apply (may_finite _ _ M) in F. destruct (fmul_finite x' y' F) as [Fx Fy].
      split; [apply (may_finite _ _ Mx), Fx|apply (may_finite _ _ My), Fy]. }
    destruct FF as [Fx Fy]. destruct (Hv i x y (or_introl eq_refl) Hx Fx Fy) as [Vx Vy].
    destruct (u_mul_real u x y U Vx Vy F) as [_ [_ [V [x' [y' [d [q [Mx [My [Hd [Hq R]]]]]]]]]]].
    destruct (Hi i (or_introl eq_refl) x y Hx Fx Fy) as [A B]. split; [exact V|]. rewrite R. unfold isum, real_sum. cbn [map fold_right length]. rewrite !Rplus_0_r.
    apply (ferr_item w w0); auto. eapply nonneg_of_abs, A.
  - apply bind_ok in H. destruct H as [x [Hx H]]. apply bind_ok in H. destruct H as [y [Hy H]]. injection H as <-.
    assert (FF : finite x /\ finite y).
    { destruct (fo_add u U x y) as [x' [y' [Mx [My M]]]]. apply (may_finite _ _ M) in F. destruct (fadd_finite x' y' F) as [Fx Fy].
      split; [apply (may_finite _ _ Mx), Fx|apply (may_finite _ _ My), Fy]. }
    destruct FF as [Fx Fy].
    assert (Il : forall i, In i (fred_items l) -> In i (fred_items l ++ fred_items r)) by (intros; apply in_or_app; auto).
    assert (Ir : forall i, In i (fred_items r) -> In i (fred_items l ++ fred_items r)) by (intros; apply in_or_app; auto).
    destruct (IHl x) as [Vx Bx]; auto. { intros i p q Hp. apply Hv; auto. }
    destruct (IHr y) as [Vy By]; auto. { intros i p q Hp. apply Hv; auto. } clear IHl IHr.
    destruct (u_add_real u x y U Vx Vy F) as [_ [_ [V [[d [q [Hd [Hq R]]]] [Z1 Z2]]]]]. split; [exact V|]. rewrite app_length, !isum_app.
    assert (Al : Rabs (isum e (fred_items l)) <= isum m (fred_items l)) by (apply isum_abs; auto).
    assert (Ar : Rabs (isum e (fred_items r)) <= isum m (fred_items r)) by (apply isum_abs; auto).
    destruct (Nat.eq_dec (length (fred_items l)) 0) as [Zl|Zl]; [|destruct (Nat.eq_dec (length (fred_items r)) 0) as [Zr|Zr]].
    + rewrite Zl in Bx. cbn in Bx. apply length_zero_iff_nil in Zl. rewrite Zl. cbn [length Nat.add isum]. unfold isum at 1 3. unfold real_sum at 1 2. cbn [map fold_right]. rewrite !Rplus_0_l.
      destruct (Nat.eq_dec (length (fred_items r)) 0) as [Zr|Zr].
      * rewrite Zr in *. cbn in By |- *.
        assert (finite (u_add u x y) -> real (u_add u x y) = 0) as Q.
        { intros _. apply (ured_zero u fac (FAdd l r)); auto; cbn; [rewrite Hx, Hy; reflexivity|]. apply length_zero_iff_nil in Zr. now rewrite Zl, Zr. }
        exact (Q F).
      * apply (ferr_more w _ _ (Datatypes.S (fred_ops r))); [lra|lia|]. apply (ferr_zero w _ _ _ _ _ (real y)); auto. lra.
    + rewrite Zr in By. cbn in By. apply length_zero_iff_nil in Zr. rewrite Zr. cbn [length isum]. unfold isum at 2 4. unfold real_sum at 1 2. cbn [map fold_right]. rewrite !Rplus_0_r, Nat.add_0_r.
      apply (ferr_more w _ _ (Datatypes.S (fred_ops l))); [lra|lia|]. apply (ferr_zero w _ _ _ _ _ (real x)); auto. lra.
    + rewrite R. apply ferr_add; auto; try (eapply nonneg_of_abs; eauto). lra.
  - apply bind_ok in H. destruct H as [[x y] [Hx H]]. apply bind_ok in H. destruct H as [z [Hz H]]. injection H as <-. cbn [fst snd] in *.
    assert (FF : finite x /\ finite y /\ finite z).
    { destruct (fo_fma u U x y z) as [x' [y' [z' [Mx [My [Mz M]]]]]]. apply (may_finite _ _ M) in F. destruct (ffma_finite x' y' z' F) as [Fx [Fy Fz]].
      split; [apply (may_finite _ _ Mx), Fx|split; [apply (may_finite _ _ My), Fy|apply (may_finite _ _ Mz), Fz]]. }
    destruct FF as [Fx [Fy Fz]]. destruct (Hv i x y (or_introl eq_refl) Hx Fx Fy) as [Vx Vy].
    assert (Ir : forall j, In j (fred_items r) -> In j (i :: fred_items r)) by (intros; right; auto).
    destruct (IHr z) as [Vz Bz]; auto. { intros j p q Hp. apply Hv; auto. } clear IHr.
    destruct (u_fma_real u x y z U Vx Vy Vz F) as [_ [_ [_ [V [x' [y' [d [q [Mx [My [Hd [Hq R]]]]]]]]]]]].
    destruct (Hi i (or_introl eq_refl) x y Hx Fx Fy) as [A B]. split; [exact V|]. rewrite !isum_cons. cbn [length]. rewrite R.
    assert (Ar : Rabs (isum e (fred_items r)) <= isum m (fred_items r)) by (apply isum_abs; auto).
    destruct (Nat.eq_dec (length (fred_items r)) 0) as [Zr|Zr].
    + rewrite Zr in *. cbn in Bz. rewrite Bz. apply length_zero_iff_nil in Zr. rewrite Zr. unfold isum, real_sum. cbn [map fold_right]. rewrite !Rplus_0_r.
      apply (ferr_more w _ _ 1); [lra|lia|]. apply (ferr_item w w0); auto. eapply nonneg_of_abs, A.
    + apply (ferr_fma w w0); auto; eapply nonneg_of_abs; eauto.
Qed.

(** ** The two distances *)
Lemma ferr_bound : forall w c n k S M v, 0 <= w -> 0 <= M -> S = 0 \/ n <> O -> ferr w (Datatypes.S c) n k S M v ->
  Rabs (v - S) <= ((1 + ulp) ^ (n + c) - 1) * M + INR k * w * (1 + ulp) ^ n.
Proof.
  intros w c [|n] k S M v W P N B.
  - destruct N as [->|N]; [|congruence]. unfold ferr in B. rewrite B, Rminus_0_r, Rabs_R0. cbn [pow]. pose proof (E_ge (0 + c)).
    assert (0 <= (E (0 + c) - 1) * M) by (apply Rmult_le_pos; lra). assert (0 <= INR k * w) by (apply Rmult_le_pos; [apply pos_INR|exact W]). lra.
  - unfold ferr in B. replace (Datatypes.S n + c)%nat with (Datatypes.S c + n)%nat by lia.
    eapply Rle_trans; [exact B|]. apply Rplus_le_compat_l, Rmult_le_compat_l; [|apply E_mono; lia]. apply Rmult_le_pos; [apply pos_INR|exact W].
Qed.

Definition l2_ufac (u : fpu) (a b : list f32) (i : nat) : res (f32 * f32) := do x <- rd a i; do y <- rd b i; Ok (u_sub u x y, u_sub u x y).

Lemma l2_ufac_valid : forall u a b i x y, fpu_ok u -> good a -> good b -> l2_ufac u a b i = Ok (x, y) -> finite x -> finite y -> f32_valid x = true /\ f32_valid y = true.
Proof.
  intros u a b i x y U Ga Gb H F _. unfold l2_ufac in H. apply bind_ok in H. destruct H as [p [Hp H]]. apply bind_ok in H. destruct H as [q [Hq H]]. injection H as <- <-.
  destruct (good_rd _ _ _ Ga Hp) as [Fp Vp]. destruct (good_rd _ _ _ Gb Hq) as [Fq Vq]. destruct (u_sub_real u p q U Vp Vq F) as [V _]. auto.
Qed.

Lemma l2_ufac_ok : forall u a b i, fpu_ok u -> good a -> good b -> ufac_ok (32 * h) (l2_ufac u a b) (ei a b) (ei a b) 3 i.
Proof.
  intros u a b i U Ga Gb x y H Fx _. unfold l2_ufac in H. apply bind_ok in H. destruct H as [p [Hp H]]. apply bind_ok in H. destruct H as [q [Hq H]]. injection H as <- <-.
  destruct (good_rd _ _ _ Ga Hp) as [Fp Vp]. destruct (good_rd _ _ _ Gb Hq) as [Fq Vq].
  destruct (u_sub_real u p q U Vp Vq Fx) as [V [d [r [Hd [Hr R]]]]].
  unfold ei. rewrite (rd_nth _ _ _ _ _ Hp), (rd_nth _ _ _ _ _ Hq). set (D := real p - real q) in *. pose proof (sq_nonneg D) as P. split; [rewrite Rabs_pos_eq by auto; lra|].
  intros x' y' Mx My. destruct (may_real _ _ Mx V) as [_ [Dx _]]. destruct (may_real _ _ My V) as [_ [Dy _]].
  set (f := u_sub u p q) in *. set (s := real x' - real f) in *. set (t := real y' - real f) in *.
  assert (Ex : real x' = D * (1 + d) + (r + s)) by (unfold s; rewrite R; ring).
  assert (Ey : real y' = D * (1 + d) + (r + t)) by (unfold t; rewrite R; ring).
  rewrite Ex, Ey. clearbody s t. clear Ex Ey.
  assert (Hs : Rabs (r + s) <= 5 * h) by (eapply Rle_trans; [apply Rabs_triang|]; lra).
  assert (Ht : Rabs (r + t) <= 5 * h) by (eapply Rle_trans; [apply Rabs_triang|]; lra).
  set (g := r + s) in *. set (k := r + t) in *. clearbody g k.
  replace ((D * (1 + d) + g) * (D * (1 + d) + k) - D ^ 2) with (D ^ 2 * (2 * d + d * d) + D * ((1 + d) * (g + k)) + g * k) by ring.
  pose proof ulp_pos as U1. pose proof ulp_small as U2. pose proof h_pos as H1. pose proof h_small as H2.
  assert (T1 : Rabs (2 * d + d * d) <= 2 * ulp + ulp * ulp).
  { eapply Rle_trans; [apply Rabs_triang|]. rewrite Rabs_mult, (Rabs_pos_eq 2) by lra. pose proof (abs_mul d d ulp ulp Hd Hd). lra. }
  assert (T2 : Rabs (g + k) <= 10 * h) by (eapply Rle_trans; [apply Rabs_triang|]; lra).
  pose proof (abs_mul _ _ _ _ (abs1 d Hd) T2) as T3. pose proof (abs_mul _ _ _ _ Hs Ht) as T4.
  assert (T5 : Rabs D <= 1 + D ^ 2) by (cbn; rewrite Rmult_1_r; unfold Rabs; destruct (Rcase_abs D); nra).
  pose proof (abs_mul _ _ _ _ T5 T3) as T6.
  assert (T7 : Rabs (D ^ 2 * (2 * d + d * d)) <= D ^ 2 * (2 * ulp + ulp * ulp)) by (apply abs_mul; [rewrite Rabs_pos_eq by auto; lra|exact T1]).
  eapply Rle_trans; [apply Rabs_triang|]. pose proof (Rabs_triang (D ^ 2 * (2 * d + d * d)) (D * ((1 + d) * (g + k)))) as T8.
  replace (E 3 - 1) with (3 * ulp + 3 * (ulp * ulp) + ulp * (ulp * ulp)) by (cbn; ring).
  assert (T9 : (1 + ulp) * (10 * h) <= 16 * h) by nra.
  assert (T10 : 16 * h <= ulp) by lra.
  assert (T11 : (1 + D ^ 2) * ((1 + ulp) * (10 * h)) <= 16 * h + D ^ 2 * ulp) by nra.
  assert (T12 : 5 * h * (5 * h) <= 16 * h) by (assert (h <= / 1024) by lra; nra).
  assert (0 <= ulp * ulp) by nra. assert (0 <= ulp * (ulp * ulp)) by nra.
  nra.
Qed.

Lemma l2_flush_error : forall u t f a b r, fpu_ok u -> Permutation (red_items t) (seq 0 (length a)) -> contracts t f -> length a = length b -> good a -> good b ->
  l2_on u f a b = Ok r -> finite r ->
  Rabs (real r - exact_l2 a b) <= ((1 + ulp) ^ (length a + 3) - 1) * exact_l2 a b + INR (fred_ops f) * powerRZ 2 (-119) * (1 + ulp) ^ length a.
Proof.
  intros u t f a b r U Ht Hc L Ga Gb H F. assert (Hf : Permutation (fred_items f) (seq 0 (length a))) by (etransitivity; [apply contracts_items, Hc|exact Ht]).
  destruct (l2_sum_items f (ei a b) _ Hf) as [Hs Hl]. rewrite (ei_sum a b L).
  assert (W : powerRZ 2 (-119) = 128 * h).
  { change 2 with (IZR radix2) at 1. rewrite <- bpow_powerRZ. change (-119)%Z with (7 + -126)%Z. rewrite bpow_plus. reflexivity. }
  pose proof h_pos.
  destruct (ured_error u (powerRZ 2 (-119)) (32 * h) (l2_ufac u a b) (ei a b) (ei a b) 3 f r) as [_ B]; auto.
  - lra.
  - lra.
  - intros i _. unfold ei. rewrite Rabs_pos_eq by apply sq_nonneg. lra.
  - intros i x y _. apply l2_ufac_valid; auto.
  - intros i _. apply l2_ufac_ok; auto.
  - rewrite Hs, Hl in B. apply ferr_bound; auto.
    + lra.
    + apply isum_nonneg. intros i _. apply sq_nonneg.
    + clear. destruct a; [left; reflexivity|right; discriminate].
Qed.

Lemma l2_on_valid : forall u t f a b r, fpu_ok u -> Permutation (red_items t) (seq 0 (length a)) -> contracts t f -> length a = length b -> good a -> good b ->
  l2_on u f a b = Ok r -> finite r -> f32_valid r = true.
Proof.
  intros u t f a b r U Ht Hc L Ga Gb H F. pose proof h_pos.
  destruct (ured_error u (128 * h) (32 * h) (l2_ufac u a b) (ei a b) (ei a b) 3 f r) as [V _]; auto.
  - lra.
  - lra.
  - intros i _. unfold ei. rewrite Rabs_pos_eq by apply sq_nonneg. lra.
  - intros i x y _. apply l2_ufac_valid; auto.
  - intros i _. apply l2_ufac_ok; auto.
Qed.

Lemma l2_flush_simple : forall u t f a b r, fpu_ok u -> (Z.of_nat (length a) < 2 ^ 23)%Z -> Permutation (red_items t) (seq 0 (length a)) -> contracts t f -> length a = length b -> good a -> good b ->
  l2_on u f a b = Ok r -> finite r ->
  Rabs (real r - exact_l2 a b) <= (INR (length a) + 3) * powerRZ 2 (-23) * exact_l2 a b + INR (fred_ops f) * powerRZ 2 (-118).
Proof.
  intros u t f a b r W Hn Ht Hc L Ga Gb H F. eapply Rle_trans; [apply (l2_flush_error u t f a b r); auto|].
  set (n := length a) in *.
  assert (P : 0 <= exact_l2 a b) by (rewrite ei_sum by auto; apply isum_nonneg; intros; apply sq_nonneg).
  assert (B1 : INR n * ulp <= / 2).
  { apply Rle_trans with (bpow radix2 (23 - 24)); [apply INR_ulp; lia|]. cbn. lra. }
  assert (B2 : INR (n + 3) * ulp <= 1).
  { apply Rle_trans with (bpow radix2 (24 - 24)); [apply INR_ulp; lia|]. cbn. lra. }
  assert (U : powerRZ 2 (-23) = 2 * ulp) by (unfold ulp; change (-23)%Z with (1 + -24)%Z; rewrite powerRZ_add by lra; rewrite powerRZ_1; ring).
  assert (T : powerRZ 2 (-118) = 2 * powerRZ 2 (-119)) by (change (-118)%Z with (1 + -119)%Z; rewrite powerRZ_add by lra; rewrite powerRZ_1; ring).
  rewrite U, T. apply Rplus_le_compat.
  - apply Rmult_le_compat_r; auto. eapply Rle_trans; [apply E_lin, B2|]. rewrite plus_INR. cbn [INR]. lra.
  - pose proof (E_lin n) as G. assert (G' : E n <= 2) by (assert (E n - 1 <= 2 * INR n * ulp) by (apply G; lra); lra).
    assert (0 < powerRZ 2 (-119)) by (apply powerRZ_lt; lra). pose proof (pos_INR (fred_ops f)). assert (0 <= INR (fred_ops f) * powerRZ 2 (-119)) by nra. nra.
Qed.

(** Two processors, two orders: points further apart than the errors are ordered right. *)
Lemma l2_flush_order : forall u u' t f t' f' q a b ra rb, fpu_ok u -> fpu_ok u' -> (Z.of_nat (length q) < 2 ^ 23)%Z ->
  Permutation (red_items t) (seq 0 (length q)) -> Permutation (red_items t') (seq 0 (length q)) -> contracts t f -> contracts t' f' ->
  length q = length a -> length q = length b -> good q -> good a -> good b -> l2_on u f q a = Ok ra -> l2_on u' f' q b = Ok rb -> finite ra -> finite rb ->
  exact_l2 q a + (INR (length q) + 3) * powerRZ 2 (-23) * (exact_l2 q a + exact_l2 q b) + (INR (fred_ops f) + INR (fred_ops f')) * powerRZ 2 (-118) < exact_l2 q b ->
  flt ra rb = true.
Proof.
  intros u u' t f t' f' q a b ra rb U U' Hn Ht Ht' Hc Hc' La Lb Gq Ga Gb Ea Eb Fa Fb H.
  apply flt_real; auto; [apply (l2_on_valid u t f q a ra); auto|apply (l2_on_valid u' t' f' q b rb); auto|].
  pose proof (l2_flush_simple u t f q a ra U Hn Ht Hc La Gq Ga Ea Fa) as Ba. pose proof (l2_flush_simple u' t' f' q b rb U' Hn Ht' Hc' Lb Gq Gb Eb Fb) as Bb.
  apply Rabs_le_inv in Ba. apply Rabs_le_inv in Bb. lra.
Qed.

(** Inner product: the magnitude of the coordinates bounds what a flushed one loses. *)
Definition ip_ufac (a b : list f32) (i : nat) : res (f32 * f32) := do x <- rd a i; do y <- rd b i; Ok (x, y).

Lemma ip_ufac_ok : forall B a b i, 1 <= B -> good a -> good b -> (forall x, In x a \/ In x b -> Rabs (real x) <= B) ->
  ufac_ok (2 * (B * h)) (ip_ufac a b) (pi a b) (fun i => Rabs (pi a b i)) 0 i.
Proof.
  intros B a b i HB Ga Gb Hm x y H Fx _. unfold ip_ufac in H. apply bind_ok in H. destruct H as [p [Hp H]]. apply bind_ok in H. destruct H as [q [Hq H]]. injection H as <- <-.
  destruct (good_rd _ _ _ Ga Hp) as [Fp Vp]. destruct (good_rd _ _ _ Gb Hq) as [Fq Vq].
  assert (Bp : Rabs (real p) <= B) by (apply Hm; left; apply rd_ok in Hp; eapply nth_error_In, Hp).
  assert (Bq : Rabs (real q) <= B) by (apply Hm; right; apply rd_ok in Hq; eapply nth_error_In, Hq).
  split; [lra|]. intros x' y' Mx My. destruct (may_real _ _ Mx Vp) as [_ [Dx [_ Lx]]]. destruct (may_real _ _ My Vq) as [_ [Dy _]].
  unfold pi. rewrite (rd_nth _ _ _ _ _ Hp), (rd_nth _ _ _ _ _ Hq). cbn [pow]. rewrite Rminus_eq_0, Rmult_0_l, Rplus_0_l.
  replace (real x' * real y' - real p * real q) with (real x' * (real y' - real q) + real q * (real x' - real p)) by ring.
  eapply Rle_trans; [apply Rabs_triang|]. assert (Lx' : Rabs (real x') <= B) by lra.
  pose proof (abs_mul _ _ _ _ Lx' Dy). pose proof (abs_mul _ _ _ _ Bq Dx). lra.
Qed.

Lemma ip_flush_error : forall u t f a b r B, fpu_ok u -> Permutation (red_items t) (seq 0 (length a)) -> contracts t f -> length a = length b -> good a -> good b ->
  1 <= B -> (forall x, In x a \/ In x b -> Rabs (real x) <= B) ->
  ip_on u f a b = Ok r -> finite r ->
  Rabs (real r - exact_ip a b) <= ((1 + ulp) ^ length a - 1) * exact_abs_ip a b + INR (fred_ops f) * (powerRZ 2 (-123) * B) * (1 + ulp) ^ length a.
Proof.
  intros u t f a b r B U Ht Hc L Ga Gb HB Hm H F. assert (Hf : Permutation (fred_items f) (seq 0 (length a))) by (etransitivity; [apply contracts_items, Hc|exact Ht]).
  destruct (l2_sum_items f (pi a b) _ Hf) as [Hs Hl]. destruct (l2_sum_items f (fun i => Rabs (pi a b i)) _ Hf) as [Hs' _]. rewrite (pi_sum a b L), (api_sum a b L).
  assert (W : powerRZ 2 (-123) = 8 * h).
  { change 2 with (IZR radix2) at 1. rewrite <- bpow_powerRZ. change (-123)%Z with (3 + -126)%Z. rewrite bpow_plus. reflexivity. }
  pose proof h_pos.
  destruct (ured_error u (powerRZ 2 (-123) * B) (2 * (B * h)) (ip_ufac a b) (pi a b) (fun i => Rabs (pi a b i)) 0 f r) as [_ E]; auto.
  - rewrite W. nra.
  - nra.
  - intros i _. lra.
  - intros i x y _ Hx _ _. unfold ip_ufac in Hx. apply bind_ok in Hx. destruct Hx as [p [Hp Hx]]. apply bind_ok in Hx. destruct Hx as [q [Hq Hx]]. injection Hx as <- <-.
    split; [apply (good_rd _ _ _ Ga Hp)|apply (good_rd _ _ _ Gb Hq)].
  - intros i _. apply ip_ufac_ok; auto.
  - rewrite Hs, Hs', Hl in E. replace (length a) with (length a + 0)%nat at 2 by lia. apply ferr_bound; auto.
    + rewrite W. nra.
    + apply isum_nonneg. intros i _. apply Rabs_pos.
    + clear. destruct a; [left; reflexivity|right; discriminate].
Qed.

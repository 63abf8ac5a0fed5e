(** Contracted distances: symmetric, not negative, zero on itself. *)
From Coq Require Import ZArith Lia List Arith Bool Floats.SpecFloat.
From Verif Require Import Base Float32 DistSpec DistModel DistProofs2 FusedModel.
Import ListNotations.

Lemma f_int_opp : forall x y, opp_to x y -> (exists m m' e, f_int x = Some (m, e) /\ f_int y = Some (m', e) /\ (m * m = m' * m')%Z) \/ (f_int x = None /\ f_int y = None).
Proof.
  intros x y [->|[s [s' [-> ->]]]].
  - destruct x as [s|s| |s m e]; cbn; [left|right; auto|right; auto|left].
    + exists 0%Z, 0%Z, 0%Z. auto.
    + eexists _, _, _. split; [reflexivity|]. split; [reflexivity|]. destruct s; cbn; lia.
  - left. exists 0%Z, 0%Z, 0%Z. auto.
Qed.

Lemma ffma_self : forall x y z, opp_to x y -> ffma y y z = ffma x x z.
Proof.
  intros x y z H. pose proof (fmul_self x y H) as M. unfold ffma. destruct (f_int_opp x y H) as [[m [m' [e [Ex [Ey S]]]]]|[Ex Ey]]; rewrite Ex, Ey.
  - rewrite S, !xorb_nilpotent. reflexivity.
  - now rewrite M.
Qed.

Lemma l2_fused_sym : forall t a b, length a = length b -> l2_fused t a b = l2_fused t b a.
Proof.
  intros t a b H. unfold l2_fused. induction t as [|i|l IHl r IHr|i r IHr]; cbn [fred_eval]; [reflexivity| |now rewrite IHl, IHr|].
  - unfold rd. destruct (nth_error a i) as [x|]; destruct (nth_error b i) as [y|]; cbn [bind fst snd]; try reflexivity. now rewrite fsub_sq_sym.
  - rewrite IHr. unfold rd. destruct (nth_error a i) as [x|]; destruct (nth_error b i) as [y|]; cbn [bind fst snd]; try reflexivity.
    match goal with |- context [bind ?e _] => destruct e as [z| | | |] end; cbn [bind]; try reflexivity. f_equal. apply ffma_self, fsub_opp.
Qed.

Lemma norm_not_neg : forall m e s, (0 <= m)%Z -> not_neg (binary_normalize 24 128 m e s).
Proof. intros [|p|p] e s H; [exact I| |lia]. unfold binary_normalize, binary_round. destruct (shl_align _ _ _). apply bra_not_neg. Qed.

Lemma ffma_not_neg : forall x z, not_neg z -> not_neg (ffma x x z).
Proof.
  intros x z H. unfold ffma. destruct (f_int x) as [[m e]|]; [|apply fadd_not_neg; auto; apply square_not_neg].
  destruct (f_int z) as [[mz ez]|] eqn:Ez; [|exact H]. apply norm_not_neg.
  assert (Hz : (0 <= mz)%Z) by (destruct z as [s|s| |[] p q]; try discriminate; try contradiction; injection Ez as <- <-; lia).
  apply Z.add_nonneg_nonneg; apply Z.mul_nonneg_nonneg; auto using Z.pow_nonneg, Z.square_nonneg; apply Z.pow_nonneg; lia.
Qed.

Lemma l2_fused_not_neg : forall t a b r, l2_fused t a b = Ok r -> flt r f32_zero = false.
Proof.
  intros t a b. assert (G : forall r, l2_fused t a b = Ok r -> not_neg r).
  { unfold l2_fused. induction t as [|i|l IHl r IHr|i r IHr]; cbn [fred_eval]; intros z H.
    - injection H as <-. exact I.
    - apply bind_ok in H. destruct H as [p [Hp H]]. apply bind_ok in Hp. destruct Hp as [x [_ Hp]]. apply bind_ok in Hp. destruct Hp as [y [_ Hp]]. injection Hp as <-. injection H as <-. apply square_not_neg.
    - apply bind_ok in H. destruct H as [x [Hx H]]. apply bind_ok in H. destruct H as [y [Hy H]]. injection H as <-. apply fadd_not_neg; eauto.
    - apply bind_ok in H. destruct H as [p [Hp H]]. apply bind_ok in Hp. destruct Hp as [x [_ Hp]]. apply bind_ok in Hp. destruct Hp as [y [_ Hp]]. injection Hp as <-. apply bind_ok in H. destruct H as [w [Hw H]]. injection H as <-.
      apply ffma_not_neg; eauto. }
  intros r H. apply not_neg_flt, G, H.
Qed.

Lemma l2_fused_self : forall t a, (forall x, In x a -> finite x) -> (forall i, In i (fred_items t) -> i < length a) -> exists s, l2_fused t a a = Ok (S754_zero s).
Proof.
  intros t a Hf. unfold l2_fused. induction t as [|i|l IHl r IHr|i r IHr]; cbn [fred_eval]; intros Hi.
  - exists false. reflexivity.
  - destruct (rd_lt _ a i) as [x Hx]; [apply Hi; now left|]. rewrite Hx. cbn [bind]. apply rd_ok, nth_error_In in Hx. destruct (fsub_self x (Hf x Hx)) as [s E]. rewrite E. exists (xorb s s). reflexivity.
  - destruct IHl as [s El]; [intros; apply Hi; cbn; apply in_or_app; auto|]. destruct IHr as [s' Er]; [intros; apply Hi; cbn; apply in_or_app; auto|]. rewrite El, Er. cbn [bind]. unfold fadd. cbn [SFadd].
    destruct s, s'; cbn; eauto.
  - destruct IHr as [s' Er]; [intros; apply Hi; cbn; auto|]. destruct (rd_lt _ a i) as [x Hx]; [apply Hi; now left|]. rewrite Hx. cbn [bind]. apply rd_ok, nth_error_In in Hx. destruct (fsub_self x (Hf x Hx)) as [s E]. rewrite E, Er. cbn [bind fst snd]. unfold ffma, f_int.
    replace (0 * 0 * 2 ^ (0 + 0 - Z.min (0 + 0) 0) + 0 * 2 ^ (0 - Z.min (0 + 0) 0))%Z with 0%Z by lia. eexists. reflexivity.
Qed.

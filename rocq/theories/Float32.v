(** * The C++ [float] type.

    IEEE-754 binary32 as [spec_float] of the standard library (precision 24,
    emax 128).  [spec_float] has one NaN, both infinities and both zeros.  The
    comparison operators below are those of C++: every comparison with a NaN is
    false (cf. include/index.h:32-37,59 and every use of < > <= >= on floats). *)
From Coq Require Import ZArith Bool Lia Floats.SpecFloat.

Definition f32 : Set := spec_float.

Definition prec : Z := 24.
Definition emax : Z := 128.

Definition is_nan (x : f32) : bool :=
  match x with S754_nan => true | _ => false end.

(** std::numeric_limits<float>::max() = (2^24 - 1) * 2^104. *)
Definition FLT_MAX : f32 := S754_finite false 16777215 104.
Definition f32_zero : f32 := S754_zero false.
Definition f32_one : f32 := S754_finite false 8388608 (-23).

Definition flt (x y : f32) : bool := SFltb x y.
Definition fle (x y : f32) : bool := SFleb x y.
Definition fgt (x y : f32) : bool := SFltb y x.
Definition fge (x y : f32) : bool := SFleb y x.
Definition feq (x y : f32) : bool := SFeqb x y.

Definition fdiv (x y : f32) : f32 := SFdiv prec emax x y.
Definition fadd (x y : f32) : f32 := SFadd prec emax x y.
Definition fsub (x y : f32) : f32 := SFsub prec emax x y.
Definition fmul (x y : f32) : f32 := SFmul prec emax x y.
Definition fneg (x : f32) : f32 := SFopp x.

(** (float) z for an integer z. *)
Definition f32_of_Z (z : Z) : f32 := binary_normalize prec emax z 0 false.

(** std::max(a, b) is (a < b) ? b : a. *)
Definition fmax (a b : f32) : f32 := if flt a b then b else a.

(** The value of a non-NaN float as a lexicographically ordered triple; used
    only to reason about the order. *)
Definition fkey (x : f32) : Z * (Z * Z) :=
  match x with
  | S754_nan => (0, (0, 0))%Z
  | S754_zero _ => (0, (0, 0))%Z
  | S754_infinity true => (-2, (0, 0))%Z
  | S754_infinity false => (2, (0, 0))%Z
  | S754_finite true m e => (-1, (-e, Z.neg m))%Z
  | S754_finite false m e => (1, (e, Z.pos m))%Z
  end.

Definition klt (a b : Z * (Z * Z)) : Prop :=
  (fst a < fst b \/ fst a = fst b /\
   (fst (snd a) < fst (snd b) \/ fst (snd a) = fst (snd b) /\
    snd (snd a) < snd (snd b)))%Z.

Lemma flt_klt : forall x y, flt x y = true <->
  (is_nan x = false /\ is_nan y = false /\ klt (fkey x) (fkey y)).
Proof.
  intros x y. unfold flt, SFltb, SFcompare, klt.
  destruct x as [sx|sx| |sx mx ex]; destruct y as [sy|sy| |sy my ey];
    cbn [is_nan fkey fst snd];
    try (split; [discriminate | intros [H1 [H2 H3]]; discriminate]);
    try destruct sx; try destruct sy; cbn [fst snd];
    try (split; [intros H; try discriminate H; repeat split; lia | intros [_ [_ H]]; try reflexivity; lia]).
  - destruct (Z.compare_spec ex ey) as [H|H|H].
    + subst. rewrite Pos.compare_cont_spec. unfold Pos.switch_Eq.
      destruct (Pos.compare_spec mx my) as [H1|H1|H1]; cbn [CompOpp];
      (split; [intros H; try discriminate; repeat split; lia | intros [_ [_ H]]; try reflexivity; lia]).
    + split; [intros H'; discriminate | intros [_ [_ H']]; lia].
    + split; [intros _; repeat split; lia | reflexivity].
  - destruct (Z.compare_spec ex ey) as [H|H|H].
    + subst. rewrite Pos.compare_cont_spec. unfold Pos.switch_Eq.
      destruct (Pos.compare_spec mx my) as [H1|H1|H1];
      (split; [intros H; try discriminate; repeat split; lia | intros [_ [_ H]]; try reflexivity; lia]).
    + split; [intros _; repeat split; lia | reflexivity].
    + split; [intros H'; discriminate | intros [_ [_ H']]; lia].
Qed.

Definition kle (a b : Z * (Z * Z)) : Prop := ~ klt b a.

Lemma fle_kle : forall x y, fle x y = true <->
  (is_nan x = false /\ is_nan y = false /\ kle (fkey x) (fkey y)).
Proof.
  intros x y. unfold fle, SFleb, SFcompare, kle, klt.
  destruct x as [sx|sx| |sx mx ex]; destruct y as [sy|sy| |sy my ey];
    cbn [is_nan fkey fst snd];
    try (split; [discriminate | intros [H1 [H2 H3]]; discriminate]);
    try destruct sx; try destruct sy; cbn [fst snd];
    try (split; [intros H; try discriminate H; repeat split; lia | intros [_ [_ H]]; try reflexivity; lia]).
  - destruct (Z.compare_spec ex ey) as [H|H|H].
    + subst. rewrite Pos.compare_cont_spec. unfold Pos.switch_Eq.
      destruct (Pos.compare_spec mx my) as [H1|H1|H1]; cbn [CompOpp];
      (split; [intros H; try discriminate; repeat split; lia | intros [_ [_ H]]; try reflexivity; lia]).
    + split; [intros H'; discriminate | intros [_ [_ H']]; lia].
    + split; [intros _; repeat split; lia | reflexivity].
  - destruct (Z.compare_spec ex ey) as [H|H|H].
    + subst. rewrite Pos.compare_cont_spec. unfold Pos.switch_Eq.
      destruct (Pos.compare_spec mx my) as [H1|H1|H1];
      (split; [intros H; try discriminate; repeat split; lia | intros [_ [_ H]]; try reflexivity; lia]).
    + split; [intros _; repeat split; lia | reflexivity].
    + split; [intros H'; discriminate | intros [_ [_ H']]; lia].
Qed.

(** Order facts, used as the interface of this file. *)
Lemma flt_fle : forall x y, flt x y = true -> fle x y = true.
Proof.
  intros x y H. apply flt_klt in H. apply fle_kle. destruct H as [H1 [H2 H3]].
  repeat split; auto. unfold kle, klt in *. lia.
Qed.

Lemma flt_irrefl : forall x, flt x x = false.
Proof.
  intros x. destruct (flt x x) eqn:E; auto. apply flt_klt in E. unfold klt in E. lia.
Qed.

Lemma fle_refl : forall x, is_nan x = false -> fle x x = true.
Proof. intros x H. apply fle_kle. repeat split; auto. unfold kle, klt. lia. Qed.

Lemma fle_trans : forall x y z, fle x y = true -> fle y z = true -> fle x z = true.
Proof.
  intros x y z H1 H2. apply fle_kle in H1. apply fle_kle in H2. apply fle_kle.
  destruct H1 as [A [B C]]. destruct H2 as [D [E F]]. repeat split; auto.
  unfold kle, klt in *. lia.
Qed.

Lemma flt_trans : forall x y z, flt x y = true -> flt y z = true -> flt x z = true.
Proof.
  intros x y z H1 H2. apply flt_klt in H1. apply flt_klt in H2. apply flt_klt.
  destruct H1 as [A [B C]]. destruct H2 as [D [E F]]. repeat split; auto.
  unfold klt in *. lia.
Qed.

Lemma flt_fle_trans : forall x y z, flt x y = true -> fle y z = true -> flt x z = true.
Proof.
  intros x y z H1 H2. apply flt_klt in H1. apply fle_kle in H2. apply flt_klt.
  destruct H1 as [A [B C]]. destruct H2 as [D [E F]]. repeat split; auto.
  unfold kle, klt in *. lia.
Qed.

Lemma fle_flt_trans : forall x y z, fle x y = true -> flt y z = true -> flt x z = true.
Proof.
  intros x y z H1 H2. apply fle_kle in H1. apply flt_klt in H2. apply flt_klt.
  destruct H1 as [A [B C]]. destruct H2 as [D [E F]]. repeat split; auto.
  unfold kle, klt in *. lia.
Qed.

Lemma flt_false_fle : forall x y, is_nan x = false -> is_nan y = false ->
  flt x y = false -> fle y x = true.
Proof.
  intros x y Hx Hy H. apply fle_kle. repeat split; auto. intros C.
  assert (flt x y = true) by (apply flt_klt; auto). congruence.
Qed.

Lemma fle_false_flt : forall x y, is_nan x = false -> is_nan y = false ->
  fle x y = false -> flt y x = true.
Proof.
  intros x y Hx Hy H. destruct (flt y x) eqn:E; auto.
  assert (fle x y = true) by (apply flt_false_fle; auto). congruence.
Qed.

Lemma fle_flt_false : forall x y, fle x y = true -> flt y x = false.
Proof.
  intros x y H. destruct (flt y x) eqn:E; auto.
  assert (flt y y = true) by (eapply flt_fle_trans; eauto).
  rewrite flt_irrefl in *. discriminate.
Qed.

Lemma flt_fle_false : forall x y, flt x y = true -> fle y x = false.
Proof.
  intros x y H. destruct (fle y x) eqn:E; auto.
  apply fle_flt_false in E. congruence.
Qed.

Lemma fle_not_nan : forall x y, fle x y = true -> is_nan x = false /\ is_nan y = false.
Proof. intros x y H. apply fle_kle in H. tauto. Qed.

Lemma flt_not_nan : forall x y, flt x y = true -> is_nan x = false /\ is_nan y = false.
Proof. intros x y H. apply flt_klt in H. tauto. Qed.

Lemma fle_total : forall x y, is_nan x = false -> is_nan y = false ->
  fle x y = true \/ fle y x = true.
Proof.
  intros x y Hx Hy. destruct (fle x y) eqn:E; auto.
  right. apply flt_fle. apply fle_false_flt; auto.
Qed.

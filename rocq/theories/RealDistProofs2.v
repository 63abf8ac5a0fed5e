(** The overload of FAST_L2 with a norm argument, on integer vectors. *)
From Coq Require Import ZArith Reals Lra Lia List Arith Bool Permutation Floats.SpecFloat.
From Flocq Require Import Core.
From Verif Require Import Base Float32 DivFacts DistSpec DistModel DistProofs2 FusedModel RealSpec FloatReal L2ErrorProofs RealDistProofs.
Import ListNotations.
Local Open Scope R_scope.

Lemma avx_ip_int : forall size (a b : list f32) za zb, (size mod 8 = 0)%nat -> length a = size -> length b = size -> holds_ints a za -> holds_ints b zb ->
  (forall x, In x a -> f32_valid x = true) -> (forall x, In x b -> f32_valid x = true) -> (dot (map Z.abs za) (map Z.abs zb) <= 2 ^ 24)%Z ->
  exists r, avx_ip f32_zero fadd fmul size a b = Ok r /\ finite r /\ f32_valid r = true /\ real r = IZR (dot za zb).
Proof.
  intros size a b za zb M La Lb Ha Hb Va Vb S. destruct (avx_ip_error size) as [t [Ht [He _]]].
  destruct (He size a b M ltac:(lia) La Lb) as [f [Hc E]]. rewrite E. apply (ip_exact t f a b za zb); auto; [|congruence].
  rewrite La. apply Ht; auto. lia.
Qed.

Lemma dot_sq : forall za zb : list Z, length za = length zb -> (sq_dist za zb = dot za za - 2 * dot za zb + dot zb zb)%Z.
Proof.
  intros za. unfold sq_dist, dot, zsum. induction za as [|x za IH]; intros [|y zb] L; try discriminate L; [reflexivity|].
  cbn [combine map fold_right fst snd]. rewrite IH by (cbn in L; lia). lia.
Qed.

Lemma dot_abs : forall za zb : list Z, (Z.abs (dot za zb) <= dot (map Z.abs za) (map Z.abs zb))%Z.
Proof.
  intros za. unfold dot, zsum. induction za as [|x za IH]; intros [|y zb]; cbn [combine map fold_right fst snd]; try lia. specialize (IH zb). lia.
Qed.

Lemma abs_self : forall z : list Z, dot (map Z.abs z) (map Z.abs z) = dot z z.
Proof. intros z. unfold dot, zsum. induction z as [|x z IH]; cbn [combine map fold_right fst snd]; [reflexivity|]. rewrite IH. lia. Qed.

Lemma norm_overload : forall size (a b : list f32) za zb, (size mod 8 = 0)%nat -> length a = size -> length b = size -> holds_ints a za -> holds_ints b zb ->
  (forall x, In x a -> f32_valid x = true) -> (forall x, In x b -> f32_valid x = true) -> (2 * dot (map Z.abs za) (map Z.abs zb) + dot zb zb <= 2 ^ 24)%Z ->
  exists nb r, avx_norm f32_zero fadd fmul size b = Ok nb /\ real nb = IZR (dot zb zb) /\
    fast_l2_compare_norm size a b nb = Ok r /\ finite r /\ f32_valid r = true /\ real r = IZR (sq_dist za zb - dot za za).
Proof.
  intros size a b za zb M La Lb Ha Hb Va Vb S. pose proof (dot_abs za zb) as A.
  assert (P : (0 <= dot zb zb)%Z) by (pose proof (dot_abs zb zb) as Q; rewrite abs_self in Q; lia).
  destruct (avx_ip_int size b b zb zb) as [nb [Hn [Fn [Vn Rn]]]]; auto; [rewrite abs_self; lia|].
  destruct (avx_ip_int size a b za zb) as [i [Hi [Fi [Vi Ri]]]]; auto; [lia|].
  destruct (of_Z_int (-2)) as [F2 [V2 R2]]; [lia|].
  destruct (int_rnd (-2 * dot za zb)) as [Q1 Q2]; [lia|]. rewrite mult_IZR in Q1, Q2. rewrite <- R2, <- Ri in Q1, Q2.
  assert (F : finite (fmul (f32_of_Z (-2)) i)) by (apply fmul_fin; auto). destruct (fmul_rnd _ _ V2 Vi F) as [V R].
  rewrite Q1, R2, Ri, <- mult_IZR in R.
  destruct (int_rnd (-2 * dot za zb + dot zb zb)) as [T1 T2]; [lia|]. rewrite plus_IZR in T1, T2. rewrite <- R, <- Rn in T1, T2.
  assert (G : finite (fadd (fmul (f32_of_Z (-2)) i) nb)) by (apply fadd_fin; auto). destruct (fadd_rnd _ _ V Vn F Fn G) as [W U].
  exists nb, (fadd (fmul (f32_of_Z (-2)) i) nb). rewrite avx_norm_ip. split; [exact Hn|]. split; [exact Rn|]. split; [unfold fast_l2_compare_norm; rewrite Hi; reflexivity|].
  split; [exact G|]. split; [exact W|]. rewrite U, T1, R, Rn, <- plus_IZR. f_equal.
  rewrite dot_sq; [lia|]. apply holds_length in Ha, Hb. congruence.
Qed.

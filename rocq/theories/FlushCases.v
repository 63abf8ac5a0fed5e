(** Examples on a processor with flush-to-zero. *)
From Coq Require Import ZArith Reals Lra Lia List Arith Bool Permutation Floats.SpecFloat.
From Flocq Require Import Core.
From Verif Require Import Base Float32 DivFacts DistSpec DistModel FusedModel RealSpec FlushSpec FlushModel FlushProofs FlushProofs3.
Import ListNotations.
Local Open Scope R_scope.

Definition fv : list f32 := [S754_finite false 12582912 (-23); S754_zero true; S754_finite true 8388608 (-62)].
Definition fw : list f32 := [S754_finite false 8388609 (-23); S754_finite false 8388608 (-62); S754_finite true 12582912 (-22)].
Definition ft : red := RAdd (RAdd (RAdd RZero (RItem 0)) (RItem 1)) (RItem 2).
Definition ff : fred := FFma 2 (FAdd (FFma 0 FZero) (FItem 1)).

Lemma two39 : powerRZ 2 (-39) = / IZR (2 ^ 39).
Proof. change 2 with (IZR radix2) at 1. rewrite <- bpow_powerRZ. reflexivity. Qed.

Lemma real_finite_ge : forall s m e, (-62 <= e)%Z -> (8388608 <= Zpos m)%Z -> powerRZ 2 (-39) <= Rabs (real (S754_finite s m e)).
Proof.
  intros s m e He Hm. unfold real. change 2 with (IZR radix2). rewrite <- !bpow_powerRZ.
  assert (P : 0 < IZR (Zpos m) * bpow radix2 e) by (apply Rmult_lt_0_compat; [apply IZR_lt; lia|apply bpow_gt_0]).
  replace (Rabs ((if s then -1 else 1) * IZR (Zpos m) * bpow radix2 e)) with (IZR (Zpos m) * bpow radix2 e) by (destruct s; [rewrite Rabs_left1|rewrite Rabs_pos_eq]; lra).
  change (-39)%Z with (23 + -62)%Z. rewrite bpow_plus. apply Rmult_le_compat; try apply bpow_ge_0; [|apply bpow_le; lia].
  change (bpow radix2 23) with (IZR 8388608). apply IZR_le, Hm.
Qed.

Lemma flush_case : (coarse fv /\ coarse fw) /\
  Permutation (red_items ft) (seq 0 3) /\ contracts ft ff /\ fred_ops ff = 4%nat /\ fpu_ok flushing /\
  l2_on flushing ff fv fw = l2_fused ff fv fw /\ exists r, l2_on flushing ff fv fw = Ok r /\ finite r /\ flt f32_zero r = true.
Proof.
  split; [|split; [apply Permutation_refl|split; [|split; [reflexivity|split; [apply flushing_ok|split; [vm_compute; reflexivity|]]]]]].
  - assert (G : coarse (fv ++ fw)); [|split; intros x Hx; apply G, in_or_app; auto]. intros x C. cbn [fv fw app In] in C.
    repeat (destruct C as [<-|C]; [split; [exact I|split; [reflexivity|]]; first [left; reflexivity|right; apply real_finite_ge; lia]|]). destruct C.
  - unfold ft, ff. apply CFmaR. apply CAdd; [|constructor]. apply CFmaR. constructor.
  - eexists. split; [vm_compute; reflexivity|]. split; [exact I|vm_compute; reflexivity].
Qed.

(** Concrete cases for PropReal. *)
From Coq Require Import ZArith Reals Lra Lia List Arith Bool Permutation Floats.SpecFloat.
From Verif Require Import Base Float32 DivFacts DistSpec DistModel FusedModel RealSpec FloatReal L2ErrorProofs RealDistProofs.
Import ListNotations.
Local Open Scope R_scope.

Lemma real_pos : forall m e k, (0 <= e)%Z -> (Zpos m * 2 ^ e = k)%Z -> real (S754_finite false m e) = IZR k.
Proof.
  intros m e k He <-. unfold real. rewrite mult_IZR, pow_Z by auto. rewrite Raux.bpow_powerRZ. change (IZR (Zaux.radix_val Zaux.radix2)) with 2. ring.
Qed.

Definition tree_of (n : nat) : red := fold_left (fun t i => RAdd t (RItem i)) (seq 0 n) RZero.
Definition bytes_a : list Z := repeat 255%Z 258 ++ [29%Z].
Definition bytes_b : list Z := repeat 0%Z 259.

Lemma bytes_259 : exists t f za zb r, uint8s za /\ uint8s zb /\ length za = 259%nat /\ length zb = 259%nat /\ Permutation (red_items t) (seq 0 259) /\ contracts t f /\
  l2_fused f (map f32_of_Z za) (map f32_of_Z zb) = Ok r /\ real r <> IZR (sq_dist za zb).
Proof.
  exists (tree_of 259), (embed (tree_of 259)), bytes_a, bytes_b, (S754_finite false 8388646 1).
  split. { intros x H. apply in_app_or in H. destruct H as [H|[<-|[]]]; [|lia]. apply repeat_spec in H. lia. }
  split. { intros x H. apply repeat_spec in H. lia. }
  split; [reflexivity|]. split; [reflexivity|].
  split. { replace (red_items (tree_of 259)) with (seq 0 259) by (vm_compute; reflexivity). apply Permutation_refl. }
  split; [apply embed_contracts|]. split; [vm_compute; reflexivity|].
  rewrite (real_pos _ _ 16777292) by (try lia; reflexivity). replace (sq_dist bytes_a bytes_b) with 16777291%Z by (vm_compute; reflexivity).
  intros H. apply eq_IZR in H. discriminate.
Qed.

(** 0.5, 3 and -1.25 against 2, 0.75 and 1; the third product is fused with the sum. *)
Definition half (k : Z) : f32 := fdiv (f32_of_Z k) (f32_of_Z 4).
Definition case_a : list f32 := [half 2; half 12; half (-5)].
Definition case_b : list f32 := [half 8; half 3; half 4].
Definition case_c : list f32 := [half 2; half 11; half (-5)].
Definition case_t : red := RAdd (RAdd (RItem 0) (RAdd RZero (RItem 2))) (RItem 1).
Definition case_f : fred := FFma 1 (FAdd (FItem 0) (FFma 2 FZero)).

Lemma real_quarter : forall k m e s, half k = S754_finite s m (Zneg e) -> (cond_Zopp s (Zpos m) * 4 = k * 2 ^ Zpos e)%Z -> real (half k) = IZR k / 4.
Proof.
  intros k m e s -> H. apply (f_equal IZR) in H. rewrite !mult_IZR, pow_Z, Raux.bpow_powerRZ in H by lia. change (powerRZ (IZR (Zaux.radix_val Zaux.radix2)) (Z.pos e)) with (2 ^ Pos.to_nat e) in H.
  unfold real. change (powerRZ 2 (Z.neg e)) with (/ 2 ^ Pos.to_nat e). assert (P : 0 < 2 ^ Pos.to_nat e) by (apply pow_lt; lra).
  set (w := 2 ^ Pos.to_nat e) in *. assert (Hs : (if s then -1 else 1) * IZR (Z.pos m) = IZR (cond_Zopp s (Z.pos m))).
  { destruct s; cbn [cond_Zopp]; [|lra]. change (Z.neg m) with (- Z.pos m)%Z. rewrite opp_IZR. lra. }
  rewrite Hs. apply Rmult_eq_reg_r with w; [|lra]. rewrite Rmult_assoc, Rinv_l by lra. lra.
Qed.

Lemma case_reals : real (half 2) = 1 / 2 /\ real (half 12) = 3 /\ real (half (-5)) = - (5 / 4) /\ real (half 8) = 2 /\ real (half 3) = 3 / 4 /\ real (half 4) = 1 /\ real (half 11) = 11 / 4.
Proof.
  repeat split.
  - erewrite real_quarter; [|vm_compute; reflexivity|reflexivity]. lra.
  - erewrite real_quarter; [|vm_compute; reflexivity|reflexivity]. lra.
  - erewrite real_quarter; [|vm_compute; reflexivity|reflexivity]. lra.
  - erewrite real_quarter; [|vm_compute; reflexivity|reflexivity]. lra.
  - erewrite real_quarter; [|vm_compute; reflexivity|reflexivity]. lra.
  - erewrite real_quarter; [|vm_compute; reflexivity|reflexivity]. lra.
  - erewrite real_quarter; [|vm_compute; reflexivity|reflexivity]. lra.
Qed.

Lemma case_exact : exact_l2 case_a case_b = 99 / 8 /\ exact_l2 case_a case_c = 1 / 16.
Proof.
  destruct case_reals as [A [B [C [D [F [G H]]]]]]. unfold exact_l2, case_a, case_b, case_c, real_sum. cbn [combine map fold_right fst snd]. rewrite A, B, C, D, F, G, H. lra.
Qed.

Lemma case_hyps : Permutation (red_items case_t) (seq 0 3) /\ contracts case_t case_f /\
  (forall x, In x case_a \/ In x case_b \/ In x case_c -> finite x /\ valid_binary 24 128 x = true) /\
  (exists r, l2_fused case_f case_a case_b = Ok r /\ finite r) /\ (exists r, l2_fused case_f case_a case_c = Ok r /\ finite r) /\
  (1 + ulp) ^ (3 + 3) * exact_l2 case_a case_b + INR 3 * tiny * (1 + ulp) ^ 3 <= powerRZ 2 127 /\
  exact_l2 case_a case_c + (INR 3 + 2) * powerRZ 2 (-23) * (exact_l2 case_a case_c + exact_l2 case_a case_b) + INR 3 * powerRZ 2 (-148) < exact_l2 case_a case_b.
Proof.
  destruct case_exact as [X Y].
  assert (U : ulp <= / 65536).
  { unfold ulp. change 2 with (IZR (Zaux.radix_val Zaux.radix2)) at 1. rewrite <- Raux.bpow_powerRZ. apply Rle_trans with (Raux.bpow Zaux.radix2 (-16)); [apply Raux.bpow_le; lia|]. change (Raux.bpow Zaux.radix2 (-16)) with (/ 65536). lra. }
  assert (T : forall k, (k <= 0)%Z -> 0 < powerRZ 2 k <= 1).
  { intros k Hk. change 2 with (IZR (Zaux.radix_val Zaux.radix2)). rewrite <- Raux.bpow_powerRZ. split; [apply Raux.bpow_gt_0|]. change 1 with (Raux.bpow Zaux.radix2 0). apply Raux.bpow_le. lia. }
  assert (U23 : powerRZ 2 (-23) <= / 32768).
  { change 2 with (IZR (Zaux.radix_val Zaux.radix2)) at 1. rewrite <- Raux.bpow_powerRZ. apply Rle_trans with (Raux.bpow Zaux.radix2 (-15)); [apply Raux.bpow_le; lia|]. change (Raux.bpow Zaux.radix2 (-15)) with (/ 32768). lra. }
  assert (U148 : powerRZ 2 (-148) <= / 32768).
  { change 2 with (IZR (Zaux.radix_val Zaux.radix2)) at 1. rewrite <- Raux.bpow_powerRZ. apply Rle_trans with (Raux.bpow Zaux.radix2 (-15)); [apply Raux.bpow_le; lia|]. change (Raux.bpow Zaux.radix2 (-15)) with (/ 32768). lra. }
  split. { apply (Permutation_trans (l' := [0; 1; 2]%nat)); [|apply Permutation_refl]. cbn. constructor. apply perm_swap. }
  split. { repeat constructor. }
  split. { intros x H. cbn in H. intuition; subst; try exact I; vm_compute; reflexivity. }
  split. { eexists. split; [vm_compute; reflexivity|exact I]. }
  split. { eexists. split; [vm_compute; reflexivity|exact I]. }
  split.
  - rewrite X. assert (P : forall k, INR k * ulp <= 1 -> (1 + ulp) ^ k <= 3).
    { intros k H. pose proof (E_lin k H). lra. }
    pose proof (P (3 + 3)%nat) as P6. pose proof (P 3%nat) as P3. cbn [INR Nat.add] in P6, P3. pose proof ulp_pos. specialize (P6 ltac:(lra)). specialize (P3 ltac:(lra)).
    assert (Ti : 0 < tiny <= 1) by (apply T; lia). change (INR 3) with (1 + 1 + 1). pose proof (E_ge 3). apply Rle_trans with 256; [cbn [Nat.add] in *; nra|].
    change 2 with (IZR (Zaux.radix_val Zaux.radix2)). rewrite <- Raux.bpow_powerRZ. apply Rle_trans with (Raux.bpow Zaux.radix2 8); [change (Raux.bpow Zaux.radix2 8) with 256; lra|apply Raux.bpow_le; lia].
  - rewrite X, Y. change (INR 3) with (1 + 1 + 1). lra.
Qed.

(** Eight coordinates: the inner product of 1/2, ..., 4 and their opposites in part. *)
Definition ip_a : list f32 := map (fun k => half (Z.of_nat k)) (seq 2 8).
Definition ip_b : list f32 := map (fun k => half (5 - Z.of_nat k)) (seq 0 8).

Lemma ip_hyps : (forall x, In x ip_a \/ In x ip_b -> finite x /\ valid_binary 24 128 x = true) /\ length ip_a = 8%nat /\ length ip_b = 8%nat /\
  avx_ip f32_zero fadd fmul 7 ip_a ip_b = Ok (half 6).
Proof.
  split; [|repeat split; vm_compute; reflexivity].
  intros x H. cbn in H. intuition; subst; try exact I; vm_compute; reflexivity.
Qed.

(** Integer vectors: 3 coordinates with a distance of 2^24. *)
Lemma int_hyps : holds_ints (map f32_of_Z [4096; -7; 3]%Z) [4096; -7; 3]%Z /\ holds_ints (map f32_of_Z [0; -7; 3]%Z) [0; -7; 3]%Z /\
  (forall x, In x (map f32_of_Z [4096; -7; 3; 0]%Z) -> valid_binary 24 128 x = true) /\ (sq_dist [4096; -7; 3] [0; -7; 3] = 2 ^ 24)%Z /\
  (dot (map Z.abs [4096; -7; 3]) (map Z.abs [0; -7; 3]) <= 2 ^ 24)%Z /\ l2_fused case_f (map f32_of_Z [4096; -7; 3]%Z) (map f32_of_Z [0; -7; 3]%Z) = Ok (f32_of_Z (2 ^ 24)).
Proof.
  split; [apply of_Z_holds; intros x H; cbn in H; lia|]. split; [apply of_Z_holds; intros x H; cbn in H; lia|].
  split; [apply of_Z_holds; intros x H; cbn in H; lia|]. split; [reflexivity|]. split; [vm_compute; discriminate|vm_compute; reflexivity].
Qed.

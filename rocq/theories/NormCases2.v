(** A concrete case for C94_order. *)
From Coq Require Import NArith ZArith Reals Lra Lia List Arith Bool Permutation Floats.SpecFloat.
From Verif Require Import Base Bytes Float32 FloatBits DistSpec StreamModel BinModel BinSpec FusedModel RealSpec RealDistProofs L2ErrorProofs NormModel NormSpec NormProofs NormProofs2 NormProofs4 NormCases.
Import ListNotations.

Lemma order_case : exists ox oy, unit_scaled KFloat (fz 5) [bit 3; bit 4] ox /\ unit_scaled KFloat (fz 5) [bit 1; bit 0] oy /\ let q := [fz 1; fz 0] in (0 < real (fz 5))%R /\
  (query_dot KFloat q [bit 1; bit 0] / real (fz 5) + (INR (length q) + 20) * powerRZ 2 (-22) + powerRZ 2 (-24) * ((query_abs KFloat q [bit 3; bit 4] + query_abs KFloat q [bit 1; bit 0]) / real (fz 5)) + powerRZ 2 (-149) * abs_sum q
   < query_dot KFloat q [bit 3; bit 4] / real (fz 5))%R.
Proof.
  destruct case_hyps as [P [H _]].
  destruct (prepare_ok KFloat case_f 2 [0; 0; 0; 0]%N [0; 0; 0; 0]%N 3 2 case_vs) as [M [out [E [_ [_ [_ F]]]]]]; try reflexivity; try lia; auto.
  - intros v Hv. destruct (H v Hv) as [A [B C]]. split; [auto|]. split; [auto|]. apply C.
  - exists [bit 3; bit 4]. split; [left; reflexivity|]. apply H. left. reflexivity.
  - pose proof (case_runs [0; 0; 0; 0]%N [0; 0; 0; 0]%N eq_refl eq_refl) as E2. change (N.of_nat 3) with 3%N in E. change (N.of_nat 2) with 2%N in E. change (kwidth KFloat) with 4 in E. rewrite E in E2. injection E2 as _ EM. subst M.
    inversion F as [|x ox ? ? H1 F']; subst. inversion F' as [|y oy ? ? H2 _]; subst. exists ox, oy. split; [exact H1|]. split; [exact H2|].
    unfold fz. destruct (of_Z_int 5) as [_ [_ R5]]; [lia|]. destruct (of_Z_int 1) as [_ [_ R1]]; [lia|]. destruct (of_Z_int 0) as [_ [_ R0]]; [lia|].
    unfold query_dot, query_abs, abs_sum, real_sum. cbn [combine map fold_right fst snd length INR]. rewrite R5, R1, R0.
    rewrite (proj2 (bit_real 0 ltac:(lia))), (proj2 (bit_real 1 ltac:(lia))), (proj2 (bit_real 3 ltac:(lia))), (proj2 (bit_real 4 ltac:(lia))). cbn [Z.of_N].
    split; [lra|]. destruct pow_facts as [_ [_ [_ [_ [_ [_ [_ ->]]]]]]]. change (powerRZ 2 (-24)) with ulp. pose proof ulp_val as [U1 U2].
    assert (T : (powerRZ 2 (-149) <= ulp)%R). { unfold ulp. change 2%R with (IZR (Zaux.radix_val Zaux.radix2)). rewrite <- !Raux.bpow_powerRZ. apply Raux.bpow_le. lia. }
    rewrite !Rabs_mult, !(Rabs_pos_eq (IZR _)) by lra. lra.
Qed.

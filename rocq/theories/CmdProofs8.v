(** * Parameters written as decimals with up to six digits. *)
From Coq Require Import NArith ZArith QArith Qpower Qabs Qreals Reals Lra Lia String List Arith Bool Floats.SpecFloat.
From Flocq Require Import Core.
From Verif Require Import Base Bytes Float32 FloatBits DivFacts DistSpec DistModel RealSpec L2ErrorProofs StreamModel TsvModel TsvSpec LloydModel NormModel NormProofs StatsProofs4 PruneModel
  BuildModel IndexFileModel SystemModel ToolModel CmdModel CmdSpec CmdRealSpec CmdProofs CmdProofs2.
Import ListNotations.
Local Open Scope R_scope.

Lemma q2r_inject : forall z, Q2R (inject_Z z) = IZR z.
Proof. intros z. unfold Q2R, inject_Z. cbn [Qnum Qden]. change (IZR (Zpos 1)) with 1. field. Qed.

Lemma q2r_pow_pos : forall p a, Q2R (Qpower_positive a p) = (Q2R a ^ Pos.to_nat p).
Proof.
  intros p a. induction p using Pos.peano_ind.
  - change (Pos.to_nat 1) with 1%nat. rewrite pow_1. apply Qeq_eqR. unfold Qpower_positive. cbn. reflexivity.
  - rewrite Pos2Nat.inj_succ. cbn [pow]. rewrite <- IHp, <- Q2R_mult. apply Qeq_eqR. rewrite <- Pos.add_1_l. rewrite Qpower_plus_positive. reflexivity.
Qed.
Lemma q2r_pow10 : forall k, Q2R ((10 # 1) ^ k)%Q = powerRZ 10 k.
Proof.
  intros k. assert (T : Q2R (10 # 1) = 10) by (unfold Q2R; cbn [Qnum Qden]; change (IZR (Zpos 1)) with 1; field).
  destruct k as [|p|p]; cbn [Qpower powerRZ].
  - unfold Q2R. cbn. field.
  - now rewrite q2r_pow_pos, T.
  - rewrite Q2R_inv. + now rewrite q2r_pow_pos, T.
    + intros H. apply Qeq_eqR in H. rewrite q2r_pow_pos, T in H. change (Q2R 0) with (0 * / 1) in H. rewrite Rmult_0_l in H. revert H. apply pow_nonzero. lra.
Qed.
Lemma q2r_pow2 : forall k, Q2R ((2 # 1) ^ k)%Q = powerRZ 2 k.
Proof.
  intros k. assert (T : Q2R (2 # 1) = 2) by (unfold Q2R; cbn [Qnum Qden]; change (IZR (Zpos 1)) with 1; field).
  destruct k as [|p|p]; cbn [Qpower powerRZ].
  - unfold Q2R. cbn. field.
  - now rewrite q2r_pow_pos, T.
  - rewrite Q2R_inv. + now rewrite q2r_pow_pos, T.
    + intros H. apply Qeq_eqR in H. rewrite q2r_pow_pos, T in H. change (Q2R 0) with (0 * / 1) in H. rewrite Rmult_0_l in H. revert H. apply pow_nonzero. lra.
Qed.
Lemma fvalue_real : forall x, Q2R (fvalue x) = real x.
Proof.
  intros [s| | |s m e]; try (unfold Q2R; cbn; field). cbn [fvalue real]. rewrite Q2R_mult, q2r_inject, q2r_pow2. destruct s; cbn [signed]; [rewrite opp_IZR|]; ring.
Qed.
Lemma q2r_abs : forall q, Q2R (Qabs q) = Rabs (Q2R q).
Proof.
  intros [n d]. unfold Qabs, Q2R. cbn [Qnum Qden]. rewrite abs_IZR, Rabs_mult. f_equal. rewrite Rabs_pos_eq; [reflexivity|]. apply Rlt_le, Rinv_0_lt_compat, IZR_lt. reflexivity.
Qed.

Lemma six_scale : forall D k, (D <> 0)%Z -> (Z.abs D < 1000000)%Z -> exists D' k', (100000 <= Z.abs D' < 1000000)%Z /\ IZR D * powerRZ 10 k = IZR D' * powerRZ 10 k'.
Proof.
  intros D k Nz B. assert (S : forall j : nat, IZR D * powerRZ 10 k = IZR (D * 10 ^ Z.of_nat j) * powerRZ 10 (k - Z.of_nat j)).
  { intros j. rewrite mult_IZR, <- (pow_IZR 10 j). unfold Z.sub. rewrite powerRZ_add by lra. rewrite powerRZ_neg'. rewrite <- pow_powerRZ. field. apply pow_nonzero. lra. }
  destruct (Z_lt_le_dec (Z.abs D) 10); [exists (D * 10 ^ Z.of_nat 5)%Z, (k - Z.of_nat 5)%Z; split; [change (10 ^ Z.of_nat 5)%Z with 100000%Z; lia|apply S]|].
  destruct (Z_lt_le_dec (Z.abs D) 100); [exists (D * 10 ^ Z.of_nat 4)%Z, (k - Z.of_nat 4)%Z; split; [change (10 ^ Z.of_nat 4)%Z with 10000%Z; lia|apply S]|].
  destruct (Z_lt_le_dec (Z.abs D) 1000); [exists (D * 10 ^ Z.of_nat 3)%Z, (k - Z.of_nat 3)%Z; split; [change (10 ^ Z.of_nat 3)%Z with 1000%Z; lia|apply S]|].
  destruct (Z_lt_le_dec (Z.abs D) 10000); [exists (D * 10 ^ Z.of_nat 2)%Z, (k - Z.of_nat 2)%Z; split; [change (10 ^ Z.of_nat 2)%Z with 100%Z; lia|apply S]|].
  destruct (Z_lt_le_dec (Z.abs D) 100000); [exists (D * 10 ^ Z.of_nat 1)%Z, (k - Z.of_nat 1)%Z; split; [change (10 ^ Z.of_nat 1)%Z with 10%Z; lia|apply S]|].
  exists D, k. split; [lia|reflexivity].
Qed.

Lemma six_gap : forall D k D' k', (100000 <= Z.abs D < 1000000)%Z -> (Z.abs D' < 1000000)%Z ->
  let a := IZR D * powerRZ 10 k in let b := IZR D' * powerRZ 10 k' in let P := powerRZ 10 k in
  a = b \/ P <= Rabs (a - b) \/ Rabs a - 100000 * P + P / 10 <= Rabs (a - b).
Proof.
  intros D k D' k' HD HD' a b P. assert (P0 : 0 < P) by (apply powerRZ_lt; lra). destruct (Z_le_gt_dec k k') as [L|L].
  - assert (Eb : b = IZR (D' * 10 ^ Z.of_nat (Z.to_nat (k' - k))) * P).
    { unfold b, P. rewrite mult_IZR, <- (pow_IZR 10). replace k' with (Z.of_nat (Z.to_nat (k' - k)) + k)%Z at 1 by lia. rewrite powerRZ_add by lra. rewrite <- pow_powerRZ. ring. }
    set (E := (D' * 10 ^ Z.of_nat (Z.to_nat (k' - k)))%Z) in Eb. destruct (Z.eq_dec D E) as [->|Ne]; [left; unfold a; now rewrite Eb|]. right. left.
    replace (a - b) with (IZR (D - E) * P) by (unfold a; rewrite Eb, minus_IZR; unfold P; ring). rewrite Rabs_mult, (Rabs_pos_eq P) by lra. rewrite <- abs_IZR. assert (1 <= IZR (Z.abs (D - E))) by (apply IZR_le; lia). nra.
  - right. right. assert (Bb : Rabs b <= 100000 * P - P / 10).
    { unfold b. rewrite Rabs_mult, <- abs_IZR, (Rabs_pos_eq (powerRZ 10 k')) by (apply powerRZ_le; lra).
      assert (Hp : powerRZ 10 k' <= P / 10). { unfold P. replace (powerRZ 10 k / 10) with (powerRZ 10 (k - 1)). - rewrite !powerRZ_Rpower by lra. apply Rle_Rpower; [lra|]. apply IZR_le. lia.
        - replace (k - 1)%Z with (k + -1)%Z by lia. rewrite powerRZ_add by lra. change (powerRZ 10 (-1)) with (/ (10 * 1)). field. }
      assert (0 < powerRZ 10 k') by (apply powerRZ_lt; lra). assert (0 <= IZR (Z.abs D') <= 999999) by (split; apply IZR_le; lia). nra. }
    pose proof (Rabs_triang_inv a b). lra.
Qed.

(** The decimal printed for a float near a six-digit decimal is that decimal. *)
Lemma six_back : forall x q q', six_digits q -> Rabs (Q2R x - Q2R q) <= Rabs (Q2R q) * (61 / 1000000000) -> closest_decimal x q' -> Q2R q' = Q2R q.
Proof.
  intros x q q' S Hx [S' Cl]. specialize (Cl q S). apply Qle_Rle in Cl. rewrite !q2r_abs, !Q2R_minus in Cl.
  destruct S as [D [k [HD Eq]]]. destruct S' as [D' [k' [HD' Eq']]]. apply Qeq_eqR in Eq. apply Qeq_eqR in Eq'. rewrite Q2R_mult, q2r_inject, q2r_pow10 in Eq, Eq'.
  assert (Tr : Rabs (Q2R q - Q2R q') <= 2 * (Rabs (Q2R q) * (61 / 1000000000))).
  { replace (Q2R q - Q2R q') with (- (Q2R x - Q2R q) + (Q2R x - Q2R q')) by ring. eapply Rle_trans; [apply Rabs_triang|]. rewrite Rabs_Ropp. lra. }
  destruct (Z.eq_dec D 0) as [->|Nz].
  - rewrite Rmult_0_l in Eq. rewrite Eq, Rabs_R0 in Tr. rewrite Eq. pose proof (Rabs_pos (0 - Q2R q')). assert (Rabs (0 - Q2R q') = 0) by lra. destruct (Req_dec (0 - Q2R q') 0) as [|N]; [lra|]. apply Rabs_no_R0 in N. lra.
  - destruct (six_scale D k Nz HD) as [E [j [HE Es]]]. rewrite Es in Eq. destruct (six_gap E j D' k' HE HD') as [G|G]; [rewrite Eq, Eq'; auto|].
    rewrite <- Eq, <- Eq' in G. set (a := Q2R q) in *. set (P := powerRZ 10 j) in *. assert (P0 : 0 < P) by (apply powerRZ_lt; lra).
    assert (Ba : 100000 * P <= Rabs a < 1000000 * P). { rewrite Eq, Rabs_mult, <- abs_IZR, (Rabs_pos_eq P) by lra. assert (100000 <= IZR (Z.abs E)) by (apply IZR_le; lia). assert (IZR (Z.abs E) < 1000000) by (apply IZR_lt; lia). nra. }
    lra.
Qed.

Lemma closest_float_ext : forall q q' y, Q2R q = Q2R q' -> closest_float q y -> closest_float q' y.
Proof. intros q q' y E [F C]. apply eqR_Qeq in E. split; [exact F|]. intros g G. specialize (C g G). rewrite <- E. exact C. Qed.

Lemma written_float : forall atof s q x, written atof s q -> f32_of_f64 (atof s) = x -> TsvSpec.finite x /\ forall y, by_six_digits x y -> closest_float q y.
Proof.
  intros atof s q x [_ [S [R [F A]]]] E.
  assert (B : TsvSpec.finite x /\ Rabs (real x - Q2R q) <= Rabs (Q2R q) * (61 / 1000000000)).
  { assert (P53 : 0 < powerRZ 2 (-53) <= / 1000000000000).
    { change (powerRZ 2 (-53)) with (/ 2 ^ 53). split; [apply Rinv_0_lt_compat; lra|]. apply Rinv_le_contravar; lra. }
    destruct R as [Z|[R1 R2]].
    - assert (Z' : Q2R q = 0) by (apply Qeq_eqR in Z; rewrite Z; unfold Q2R; cbn; field). rewrite Z', Rabs_R0, Rmult_0_l in A. rewrite Rminus_0_r in A.
      assert (R0 : real (atof s) = 0) by (destruct (Req_dec (real (atof s)) 0) as [|N]; [assumption|]; apply Rabs_no_R0 in N; pose proof (Rabs_pos (real (atof s))); lra).
      destruct (atof s) as [sg| | |sg m e]; try contradiction.
      + cbn in E. subst x. split; [exact I|]. cbn [real]. rewrite Z', Rminus_0_r, Rabs_R0. lra.
      + exfalso. cbn [real] in R0. assert (0 < powerRZ 2 e) by (apply powerRZ_lt; lra). assert (0 < IZR (Zpos m)) by (apply IZR_lt; reflexivity). destruct sg; nra.
    - set (a := Q2R q) in *.
      assert (Q1 : powerRZ 10 (-37) <= Rabs a) by (apply Qle_Rle in R1; rewrite q2r_pow10, q2r_abs in R1; exact R1).
      assert (Q2 : Rabs a <= powerRZ 10 37) by (apply Qle_Rle in R2; rewrite q2r_pow10, q2r_abs in R2; exact R2).
      assert (Hi : Rabs (real (atof s)) <= Rabs a * 2 /\ Rabs a / 2 <= Rabs (real (atof s))).
      { pose proof (Rabs_triang_inv (real (atof s)) a). pose proof (Rabs_triang_inv a (real (atof s))). rewrite (Rabs_minus_sym a) in H0. pose proof (Rabs_pos a). nra. }
      assert (T127 : powerRZ 10 37 * 2 <= bpow radix2 127). { change (powerRZ 10 37) with (10 ^ 37). change (bpow radix2 127) with (IZR (2 ^ 127)). rewrite (pow_IZR 10 37). rewrite <- mult_IZR. apply IZR_le. vm_compute. discriminate. }
      assert (T126 : bpow radix2 (-126) <= powerRZ 10 (-37) / 2).
      { change (powerRZ 10 (-37)) with (/ 10 ^ 37). change (bpow radix2 (-126)) with (/ IZR (2 ^ 126)). rewrite (pow_IZR 10 37). unfold Rdiv. rewrite <- Rinv_mult. rewrite <- mult_IZR. apply Rinv_le_contravar; [apply IZR_lt; reflexivity|apply IZR_le; vm_compute; discriminate]. }
      destruct (f32_of_f64_real (atof s) F) as [F1 [V1 R3]]; [lra|]. rewrite E in F1, V1, R3.
      split; [destruct x; try contradiction; [exact I|exact V1]|].
      destruct (rnd_normal (real (atof s))) as [d [Hd Ed]]; [lra|]. rewrite R3, Ed. unfold RealSpec.ulp in Hd.
      assert (U : powerRZ 2 (-24) <= 60 / 1000000000) by (change (powerRZ 2 (-24)) with (/ 2 ^ 24); apply Rmult_le_reg_l with (2 ^ 24); [lra|]; rewrite Rinv_r; lra).
      replace (real (atof s) * (1 + d) - a) with ((real (atof s) - a) + real (atof s) * d) by ring. eapply Rle_trans; [apply Rabs_triang|]. rewrite Rabs_mult.
      assert (Hi2 : Rabs (real (atof s)) <= Rabs a * (1 + / 1000000000000)). { pose proof (Rabs_triang_inv (real (atof s)) a). pose proof (Rabs_pos a). nra. }
      pose proof (Rabs_pos a). pose proof (Rabs_pos d). pose proof (Rabs_pos (real (atof s))). assert (Rabs (real (atof s)) * Rabs d <= Rabs a * (1 + / 1000000000000) * (60 / 1000000000)) by (apply Rmult_le_compat; lra). nra. }
  destruct B as [B1 B2]. split; [exact B1|]. intros y [q' [C1 C2]]. apply (closest_float_ext q'); [|exact C2]. apply (six_back (fvalue x)); [exact S| |exact C1]. rewrite fvalue_real. exact B2.
Qed.

Lemma vamana_alpha : forall atof g sortf pd cent work sched order prog kt m data labels words save r R l L al q t T d,
  supported kt m -> optional labels words -> number_arg r R -> number_arg l L -> number_arg t T -> written atof al q ->
  exists alpha, closest_float q alpha /\
    build_vamana_main atof g sortf pd cent work sched order ([prog; type_word kt; metric_word m; data] ++ words ++ [save; r; l; al; t]) d =
      finished (vamana_tool (kwidth kt) g sortf (pd kt m) data [] (name_or_empty labels) (mkB (N.to_nat L) (N.to_nat R) 750 alpha 0) cent work sched order save d).
Proof.
  intros atof g sortf pd cent work sched order prog kt m data labels words save r R l L al q t T d S O HR HL HT W.
  destruct (written_float atof al q _ W eq_refl) as [F B]. destruct (build_vamana_ok atof g sortf pd cent work sched order prog kt m data labels words save r R l L al t T d S O HR HL HT F) as [alpha [A E]].
  exists alpha. split; [apply B, A|exact E].
Qed.

(** Instances: a norm that is always near, and a run on six points. *)
From Coq Require Import ZArith Reals Lra Lia List Arith Bool Sorting.Permutation Floats.SpecFloat.
From Flocq Require Import Core.
From Verif Require Import Base Float32 DivFacts DistSpec ListLemmas RealSpec FloatReal RealDistProofs L2ErrorProofs NormProofs BlasModel BlasSpec BlasProofs BlasProofs7 BlasCases PopInst ClosestModel ClosestSpec IvfProofs PqModel PqSpec RandModel
  LloydModel LloydSpec MeanProofs2 KmeansModel KmeansSpec KmeansProofs3 KmeansProofs4 KmeansProofs5.
Import ListNotations.
Local Open Scope R_scope.

(** The square root of the exact sum of squares, cut to a multiple of 2^-150 and rounded. *)
Definition int149 (x : f32) : Z := match x with S754_finite s m e => cond_Zopp s (Zpos m) * 2 ^ (e + 149) | _ => 0 end.
Definition sum149 (v : list f32) : Z := fold_right Z.add 0%Z (map (fun x => int149 x * int149 x)%Z v).
Definition exact_nrm2 (v : list f32) : f32 := binary_normalize 24 128 (Z.sqrt (4 * sum149 v)) (-150) false.

Lemma int149_real : forall x, f32_valid x = true -> finite x -> real x = IZR (int149 x) * bpow radix2 (-149).
Proof.
  intros [s|s| |s m e] V F; try destruct F; [cbn; ring|]. cbn [int149 real]. assert (He : (-149 <= e)%Z).
  { unfold f32_valid, valid_binary, bounded in V. apply andb_true_iff in V as [V _]. unfold canonical_mantissa in V. apply Zeq_bool_eq in V. unfold fexp, SpecFloat.emin, prec, emax in V. lia. }
  rewrite mult_IZR, pow_Z by lia. rewrite (Rmult_assoc _ (bpow radix2 (e + 149)) (bpow radix2 (-149))), <- bpow_plus. replace (e + 149 + -149)%Z with e by lia. rewrite <- (bpow_powerRZ radix2). destruct s; cbn [SpecFloat.cond_Zopp Z.opp]; [|ring]. change (Z.neg m) with (- Z.pos m)%Z. rewrite opp_IZR. ring.
Qed.
Lemma sum149_real : forall v, (forall x, In x v -> finite x /\ f32_valid x = true) -> sum_sq v = IZR (sum149 v) * bpow radix2 (-298) /\ (0 <= sum149 v)%Z.
Proof.
  induction v as [|x v IH]; intros H; [split; [cbn; ring|cbn; lia]|]. destruct IH as [E P]; [intros; apply H; now right|]. destruct (H x (or_introl eq_refl)) as [F V].
  unfold sum_sq, sum149, real_sum in *. cbn [map fold_right]. split; [|nia]. rewrite E, plus_IZR, mult_IZR, (int149_real x V F). replace (-298)%Z with (-149 + -149)%Z by reflexivity. rewrite bpow_plus. ring.
Qed.
Lemma exact_near : forall dim B r, vectors dim B [r] -> B <= powerRZ 2 100 -> norm_near r (exact_nrm2 r).
Proof.
  intros dim B r H HB. destruct (vectors_good _ _ _ r H (or_introl eq_refl)) as [L [G S]]. destruct (sum149_real r G) as [E P]. unfold norm_near. set (N := Z.sqrt (4 * sum149 r)).
  pose proof (Z.sqrt_spec (4 * sum149 r) ltac:(lia)) as [Q1 Q2]. fold N in Q1, Q2. assert (PN : (0 <= N)%Z) by apply Z.sqrt_nonneg. set (u := bpow radix2 (-150)). assert (Pu : 0 < u) by apply bpow_gt_0.
  assert (PS : 0 <= sum_sq r) by apply sum_sq_pos. assert (ES : sum_sq r = IZR (4 * sum149 r) * (u * u)) by (rewrite E; unfold u; rewrite <- bpow_plus, mult_IZR; replace (-298)%Z with (2 + (-150 + -150))%Z by reflexivity; rewrite (bpow_plus radix2 2); change (bpow radix2 2) with 4; ring).
  set (v := IZR N * u). assert (Pv : 0 <= v) by (unfold v; apply IZR_le in PN; nra).
  assert (V1 : v <= sqrt (sum_sq r)). { apply Rle_trans with (sqrt (v * v)); [rewrite sqrt_square by exact Pv; lra|]. apply sqrt_le_1_alt. rewrite ES. unfold v. apply IZR_le in Q1. rewrite mult_IZR in Q1. nra. }
  assert (V2 : sqrt (sum_sq r) <= v + u). { apply Rle_trans with (sqrt ((v + u) * (v + u))); [|rewrite sqrt_square by lra; lra]. apply sqrt_le_1_alt. rewrite ES. unfold v. replace (IZR N * u + u) with (IZR (N + 1) * u) by (rewrite plus_IZR; ring). assert (Q3 : (4 * sum149 r <= (N + 1) * (N + 1))%Z) by lia. apply IZR_le in Q3. rewrite (mult_IZR (N + 1)) in Q3. nra. }
  assert (V3 : v <= bpow radix2 50). { eapply Rle_trans; [exact V1|]. replace (bpow radix2 50) with (sqrt (bpow radix2 50 * bpow radix2 50)) by (apply sqrt_square, bpow_ge_0). apply sqrt_le_1_alt. rewrite <- bpow_plus. change (50 + 50)%Z with 100%Z. rewrite pw. lra. }
  destruct (ffma_norm N (-150) false) as [X1 X2]. fold u v in X1, X2. fold (exact_nrm2 r) in X1, X2. unfold N in X1, X2. fold (exact_nrm2 r) in X1, X2. fold N v in X1, X2.
  assert (Fr : finite (exact_nrm2 r)).
  { apply X2. rewrite Rabs_pos_eq by (rewrite <- rnd_0; apply rnd_le; exact Pv).
    apply Rle_lt_trans with (bpow radix2 50); [|apply bpow_lt; lia]. rewrite <- (round_generic radix2 (FLT_exp (-149) 24) ZnearestE (bpow radix2 50)) by (apply generic_format_bpow; cbn; lia). apply rnd_le; exact V3. }
  destruct (X1 Fr) as [Vr Rr]. split; [exact Vr|]. split; [destruct (exact_nrm2 r); auto|].
  destruct (rnd_any v) as [d [e [Hd [He Ev]]]]. rewrite Rr, Ev. unfold tiny in He. rewrite <- pw in He. fold u in He. assert (T : powerRZ 2 (-149) = 2 * u) by (rewrite <- pw; unfold u; replace (-149)%Z with (1 + -150)%Z by reflexivity; rewrite bpow_plus; reflexivity).
  assert (U23 : powerRZ 2 (-23) = 2 * ulp) by (unfold ulp; change (-23)%Z with (1 + -24)%Z; rewrite powerRZ_add by lra; rewrite powerRZ_1; ring). rewrite T, U23. pose proof ulp_pos as PU. pose proof (pos_INR (length r)) as Pl. set (q := sqrt (sum_sq r)) in *.
  replace (v * (1 + d) + e - q) with ((v - q) + (v * d + e)) by ring. apply Rle_trans with (u + (q * ulp + u)); [|assert (q * ulp <= (INR (length r) + 4) * (2 * ulp) * q) by (assert (0 <= q) by lra; assert (0 <= ulp * q) by nra; nra); lra].
  eapply Rle_trans; [apply Rabs_triang|]. apply Rplus_le_compat; [apply Rabs_le; lra|]. eapply Rle_trans; [apply Rabs_triang|]. apply Rplus_le_compat; [|exact He]. rewrite Rabs_mult, (Rabs_pos_eq v) by exact Pv. apply Rmult_le_compat; auto using Rabs_pos.
Qed.

(** Every vector of integers is one of the vectors above. *)
Lemma ints_good : forall dim B z, length z = dim -> (forall x, In x z -> (Z.abs x <= 2 ^ 24)%Z) -> IZR (int_sq z) <= B -> row_good dim B (ints z).
Proof.
  intros dim B z L H HB. split; [unfold ints; now rewrite map_length|]. split; [intros x Hx; unfold ints in Hx; apply in_map_iff in Hx; destruct Hx as [y [<- Hy]]; destruct (of_Z_int y (H y Hy)) as [A1 [A2 _]]; split; auto|].
  assert (S : sum_sq (ints z) = IZR (int_sq z)); [|lra]. unfold sum_sq, int_sq, ints. rewrite map_map. clear - H. induction z as [|x z IH]; [reflexivity|]. cbn [map fold_right]. unfold real_sum in *. cbn [fold_right]. rewrite IH by (intros; apply H; right; auto). destruct (of_Z_int x) as [_ [_ ->]]; [apply H; left; auto|]. rewrite plus_IZR, mult_IZR. ring.
Qed.
Definition km_data : list (list f32) := map ints [[0; 0]; [2; 0]; [10; 0]; [12; 0]; [11; 3]; [1; 3]]%Z.
Definition km_start : list (list f32) := map ints [[0; 0]; [1; 1]]%Z.
Definition km_orders (n b : nat) : list (nat * nat) := list_prod (seq (b * 2) (min 2 (n - b * 2))) [0%nat].
Lemma km_hyps : pops pop_all /\ (forall i : nat, block_orders (length km_data) 1 (min (length km_data) 2) (km_orders 6)) /\ block_ways_ok 2 case_ws /\ vectors 2 1000 km_data /\ vectors 2 (4 * 1000) km_start /\ 1 <= 1000 <= powerRZ 2 98 /\ adds_squares 2 calc_distance /\
  (forall r, vectors 2 (4 * 1000) [r] -> norm_near r (exact_nrm2 r)).
Proof.
  split; [exact pop_all_pops|]. split; [intros _ b; apply Permutation_refl|]. split; [exact case_ws_ok|].
  split; [apply good_vectors; intros r Hr; cbn [km_data map In] in Hr; repeat (destruct Hr as [Hr|Hr]); try contradiction; subst r; apply ints_good; [reflexivity|intros x [<-|[<-|[]]]; lia|apply IZR_le; vm_compute; discriminate|..]; try reflexivity; try (intros x [<-|[<-|[]]]; lia); try (apply IZR_le; vm_compute; discriminate)|].
  split; [apply good_vectors; intros r Hr; cbn [km_start map In] in Hr; repeat (destruct Hr as [Hr|Hr]); try contradiction; subst r; apply ints_good; try reflexivity; try (intros x [<-|[<-|[]]]; lia); replace (4 * 1000) with (IZR 4000) by lra; apply IZR_le; vm_compute; discriminate|].
  assert (P98 : 1000 <= powerRZ 2 98). { change (powerRZ 2 98) with (2 ^ 98). rewrite (pow_IZR 2 98). apply IZR_le. vm_compute. discriminate. }
  split; [lra|]. split; [apply calc_adds|]. intros r Hr. apply (exact_near 2 (4 * 1000)); [exact Hr|]. replace 100%Z with (2 + 98)%Z by reflexivity. rewrite powerRZ_add by lra. change (powerRZ 2 2) with (2 ^ 2). lra.
Qed.
Lemma km_runs : exists st, run_lloyds_on exact_nrm2 (fun _ => case_ws) pop_all 2 3 calc_distance (length km_data) 2 2 5 km_data (fun _ => km_orders 6) km_start [0; 0; 0; 0; 0; 0]%nat [] = Ok st /\
  ll_assign st = [0; 0; 1; 1; 1; 0]%nat /\ ll_centers st = map ints [[1; 1]; [11; 1]]%Z /\ ll_res st = f32_of_Z 16.
Proof. eexists. split; [vm_compute; reflexivity|]. vm_compute. auto. Qed.

(** Two points on two centres: the products are rounded, the second point goes to the first centre, the second
    centre is left without points and becomes zero. *)
Definition up_ws (b s x : nat) : way := match s with O => Inside (FusedModel.FItem 0) | _ => Inside (FusedModel.FAdd (FusedModel.FItem 1) (FusedModel.FItem 0)) end.
Definition up_data : list (list f32) := map ints [[4096]; [4097]]%Z.
Lemma up_ways : block_ways_ok 1 up_ws.
Proof. intros b x. cbn. split; [reflexivity|]. split; apply perm_swap. Qed.
Lemma int_real : forall z, (Z.abs z <= 2 ^ 24)%Z -> real (f32_of_Z z) = IZR z.
Proof. intros z H. apply of_Z_int. exact H. Qed.
Lemma up_runs : exists st, lloyd_iter_on exact_nrm2 up_ws pop_all 2 3 calc_distance 2 1 2 up_data (km_orders 2) up_data [0; 0]%nat = Ok st /\ objective up_data up_data = 0 /\ objective up_data (ll_centers st) = / 2.
Proof.
  eexists. split; [vm_compute; reflexivity|]. cbn [ll_centers]. split.
  - unfold objective, to_closest, up_data, exact_l2. cbn [map ints combine fst snd hd real_sum fold_right]. unfold real_sum. cbn [fold_right map]. rewrite !int_real by lia. 
    repeat match goal with |- context [Rmin ?a ?b] => first [rewrite (Rmin_left a b) by lra | rewrite (Rmin_right a b) by lra] end. lra.
  - unfold objective, to_closest, up_data, exact_l2. cbn [map ints combine fst snd hd real_sum fold_right]. unfold real_sum. cbn [fold_right map]. rewrite !int_real by lia. cbn [real].
    assert (Ec : 1 * 8389632 * powerRZ 2 (-11) = 4096 + / 2) by (rewrite <- pw; cbn; lra). rewrite Ec.
    repeat match goal with |- context [Rmin ?a ?b] => first [rewrite (Rmin_left a b) by lra | rewrite (Rmin_right a b) by lra] end. lra.
Qed.

(** Distances to centres on flat arrays, and the lists of an IVF index built with them. *)
From Coq Require Import ZArith Reals Lra Lia List Arith Bool Sorting.Sorted Permutation Floats.SpecFloat.
From Verif Require Import Base Float32 DivFacts DistSpec DistModel FusedModel RealSpec FloatReal L2ErrorProofs RealDistProofs NormProofs PqModel PqFileProofs2 ClosestModel ClosestSpec IvfModel IvfProofs MeanProofs3
  BlasModel BlasSpec BlasProofs BlasProofs2 BlasProofs3 BlasProofs4 BlasProofs5 BlasProofs6 BlasProofs7 BlasProofs8.
Import ListNotations.
Local Open Scope nat_scope.

Lemma collect_row : forall dim (rows : list (list f32)) i r, (forall r, In r rows -> length r = dim) -> nth_error rows i = Some r -> collect (fun l => rd (concat rows) (i * dim + l)) (seq 0 dim) = Ok r.
Proof.
  intros dim rows i r H Hr. assert (Lr : length r = dim) by (apply H; eapply nth_error_In; eauto).
  destruct (collect_ex _ _ (fun l => rd (concat rows) (i * dim + l)) (fun l y => y = at_ r l) (seq 0 dim)) as [ys [Hy F]].
  - intros l Hl. apply in_seq in Hl. exists (at_ r l). split; [apply rd_concat; auto; lia|reflexivity].
  - rewrite Hy. f_equal. apply Forall2_seq in F. destruct F as [L F]. apply nth_ext with f32_zero f32_zero; [congruence|]. intros l Hl. destruct (F l ltac:(lia)) as [y [E ->]]. rewrite (nth_error_nth _ _ _ E). reflexivity.
Qed.

Lemma vecs_ok : forall nrm2 (rows : list (list f32)) dim, (forall r, In r rows -> length r = dim) ->
  exists out, compute_vecs_l2sq nrm2 (concat rows) (length rows) dim = Ok out /\ length out = length rows /\ forall i r, nth_error rows i = Some r -> nth_error out i = Some (fmul (nrm2 r) (nrm2 r)).
Proof.
  intros nrm2 rows dim H. unfold compute_vecs_l2sq.
  destruct (collect_ex _ _ (fun i => do row <- collect (fun l => rd (concat rows) (i * dim + l)) (seq 0 dim); Ok (fmul (nrm2 row) (nrm2 row))) (fun i v => forall r, nth_error rows i = Some r -> v = fmul (nrm2 r) (nrm2 r)) (seq 0 (length rows))) as [out [Ho F]].
  - intros i Hi. apply in_seq in Hi. destruct (nth_error rows i) as [r|] eqn:Hr; [|apply nth_error_None in Hr; lia]. rewrite (collect_row dim rows i r H Hr). cbn [bind]. eexists. split; [reflexivity|]. intros r' [= <-]. reflexivity.
  - apply Forall2_seq in F. destruct F as [L F]. exists out. split; [exact Ho|]. split; [exact L|]. intros i r Hr. assert (Hi : i < length rows) by (apply nth_error_Some; congruence). destruct (F i Hi) as [v [Hv Pv]]. rewrite Hv. f_equal. auto.
Qed.

(** What the three products make of a point and a centre. *)
Definition centre_makes (dim : nat) (w0 w1 w2 : way) (p c : list f32) (x y : f32) (R : f32 -> Prop) : Prop :=
  forall f0 g0 f1 g1 f2 g2, f0 0 = Ok x -> g0 0 = Ok f32_one -> f1 0 = Ok f32_one -> g1 0 = Ok y -> (forall l, l < dim -> f2 l = Ok (at_ p l)) -> (forall l, l < dim -> g2 l = Ok (at_ c l)) ->
  exists r0 r1 r2, gemm_entry w0 1 f32_one f0 g0 None = Ok r0 /\ gemm_entry w1 1 f32_one f1 g1 (Some r0) = Ok r1 /\ gemm_entry w2 dim f32_m2 f2 g2 (Some r1) = Ok r2 /\ R r2.

Lemma block_ok : forall ws dim m n pr cr pn cn (R : list f32 -> list f32 -> f32 -> Prop), (forall r, In r pr -> length r = dim) -> (forall r, In r cr -> length r = dim) -> m <= length pr -> n <= length cr -> m <= length pn -> n <= length cn ->
  (forall i j p c x y, i < m -> j < n -> nth_error pr i = Some p -> nth_error cr j = Some c -> nth_error pn i = Some x -> nth_error cn j = Some y ->
     centre_makes dim (ws 0 (i * n + j)) (ws 1 (i * n + j)) (ws 2 (i * n + j)) p c x y (R p c)) ->
  exists C, block_distances ws (concat pr) m dim (concat cr) n pn cn = Ok C /\ length C = m * n /\
    forall i j p c, i < m -> j < n -> nth_error pr i = Some p -> nth_error cr j = Some c -> exists v, nth_error C (i * n + j) = Some v /\ R p c v.
Proof.
  intros ws dim m n pr cr pn cn R Hp Hq Lm Ln Lpn Lqn H. unfold block_distances.
  assert (All : forall i j, i < m -> j < n -> exists p q x y, nth_error pr i = Some p /\ nth_error cr j = Some q /\ nth_error pn i = Some x /\ nth_error cn j = Some y).
  { intros i j Hi Hj. destruct (nth_error pr i) as [p|] eqn:E1; [|apply nth_error_None in E1; lia]. destruct (nth_error cr j) as [q|] eqn:E2; [|apply nth_error_None in E2; lia].
    destruct (nth_error pn i) as [x|] eqn:E3; [|apply nth_error_None in E3; lia]. destruct (nth_error cn j) as [y|] eqn:E4; [|apply nth_error_None in E4; lia]. eauto 10. }
  assert (Ent : forall i j p q, i < m -> j < n -> nth_error pr i = Some p -> nth_error cr j = Some q -> exists r0 r1 r2,
    gemm_entry (ws 0 (i * n + j)) 1 f32_one (fun l => rd pn (place RowMajor false i l 1)) (fun l => rd (repeat f32_one n) (place RowMajor true l j 1)) None = Ok r0 /\
    gemm_entry (ws 1 (i * n + j)) 1 f32_one (fun l => rd (repeat f32_one m) (place RowMajor false i l 1)) (fun l => rd cn (place RowMajor true l j 1)) (Some r0) = Ok r1 /\
    gemm_entry (ws 2 (i * n + j)) dim f32_m2 (fun l => rd (concat pr) (place RowMajor false i l dim)) (fun l => rd (concat cr) (place RowMajor true l j dim)) (Some r1) = Ok r2 /\ R p q r2).
  { intros i j p q Hi Hj E1 E2. destruct (All i j Hi Hj) as [p' [q' [x [y [E1' [E2' [E3 E4]]]]]]]. rewrite E1 in E1'. injection E1' as <-. rewrite E2 in E2'. injection E2' as <-.
    apply (H i j p q x y Hi Hj E1 E2 E3 E4).
    - cbn [place]. rewrite Nat.mul_1_r, Nat.add_0_r. unfold rd. now rewrite E3.
    - cbn [place]. rewrite Nat.mul_1_r, Nat.add_0_l. apply rd_repeat. auto.
    - cbn [place]. rewrite Nat.mul_1_r, Nat.add_0_r. apply rd_repeat. auto.
    - cbn [place]. rewrite Nat.mul_1_r, Nat.add_0_l. unfold rd. now rewrite E4.
    - intros l Hl. cbn [place]. apply rd_concat; auto.
    - intros l Hl. cbn [place]. rewrite Nat.add_comm. apply rd_concat; auto. }
  destruct (sgemm_row (ws 0) false true m n 1 f32_one pn 1 (repeat f32_one n) 1 false []
    (fun i j v => gemm_entry (ws 0 (i * n + j)) 1 f32_one (fun l => rd pn (place RowMajor false i l 1)) (fun l => rd (repeat f32_one n) (place RowMajor true l j 1)) None = Ok v)) as [d0 [H0 [L0 P0]]].
  { intros i j Hi Hj. destruct (All i j Hi Hj) as [p [q [_ [_ [E1 [E2 _]]]]]]. destruct (Ent i j p q Hi Hj E1 E2) as [r0 [_ [_ [Q _]]]]. exists None, r0. auto. }
  rewrite H0. cbn [bind].
  destruct (sgemm_row (ws 1) false true m n 1 f32_one (repeat f32_one m) 1 cn 1 true d0
    (fun i j v => exists r0, nth_error d0 (i * n + j) = Some r0 /\ gemm_entry (ws 1 (i * n + j)) 1 f32_one (fun l => rd (repeat f32_one m) (place RowMajor false i l 1)) (fun l => rd cn (place RowMajor true l j 1)) (Some r0) = Ok v)) as [d1 [H1 [L1 P1]]].
  { intros i j Hi Hj. destruct (All i j Hi Hj) as [p [q [_ [_ [E1 [E2 _]]]]]]. destruct (Ent i j p q Hi Hj E1 E2) as [r0 [r1 [r2 [Q0 [Q1 _]]]]]. destruct (P0 i j Hi Hj) as [v [Hv Pv]]. rewrite Q0 in Pv. injection Pv as <-.
    exists (Some r0), r1. split; [unfold rd; now rewrite Hv|]. split; [exact Q1|]. eauto. }
  rewrite H1. cbn [bind].
  destruct (sgemm_row (ws 2) false true m n dim f32_m2 (concat pr) dim (concat cr) dim true d1
    (fun i j v => forall p q, nth_error pr i = Some p -> nth_error cr j = Some q -> R p q v)) as [d2 [H2 [L2 P2]]].
  { intros i j Hi Hj. destruct (All i j Hi Hj) as [p [q [_ [_ [E1 [E2 _]]]]]]. destruct (Ent i j p q Hi Hj E1 E2) as [r0 [r1 [r2 [Q0 [Q1 [Q2 Rr]]]]]]. destruct (P0 i j Hi Hj) as [v [Hv Pv]]. rewrite Q0 in Pv. injection Pv as <-.
    destruct (P1 i j Hi Hj) as [v1 [Hv1 [u [Hu Pu]]]]. rewrite Hv in Hu. injection Hu as <-. rewrite Q1 in Pu. injection Pu as <-.
    exists (Some r1), r2. split; [unfold rd; now rewrite Hv1|]. split; [exact Q2|]. intros p' q' E1' E2'. rewrite E1 in E1'. injection E1' as <-. rewrite E2 in E2'. injection E2' as <-. exact Rr. }
  exists d2. split; [exact H2|]. split; [exact L2|]. intros i j p q Hi Hj E1 E2. destruct (P2 i j Hi Hj) as [v [Hv Pv]]. exists v. auto.
Qed.

Lemma closest_entry_ok : forall nrm2 ws mbs dim rows crows, 1 <= mbs -> (Z.of_nat dim <= 2 ^ 20)%Z -> block_ways_ok dim ws ->
  (forall r, In r rows \/ In r crows -> length r = dim /\ (forall x, In x r -> finite x /\ valid_binary 24 128 x = true) /\ (sum_sq r <= powerRZ 2 100)%R /\ norm_near r (nrm2 r)) ->
  forall j c, j < length rows -> c < length crows ->
  exists v, closest_entry nrm2 ws mbs dim (length rows) (length crows) (concat rows) (concat crows) j c = Ok v /\ num v /\
    (Rabs (real v - exact_l2 (nth j rows []) (nth c crows [])) <= (INR dim + 4) * powerRZ 2 (-20) * (sum_sq (nth j rows []) + sum_sq (nth c crows [])) + (INR dim + 4) * powerRZ 2 (-147))%R.
Proof.
  intros nrm2 ws mbs dim rows crows Hm Ld HW HR j c Hj Hc. unfold closest_entry. set (bs := min (length rows) mbs). set (b := j / bs). set (m := min bs (length rows - b * bs)).
  assert (Hbs : 1 <= bs) by (unfold bs; lia).
  assert (Hb : b * bs <= j /\ j < b * bs + bs) by (unfold b; pose proof (Nat.div_mod j bs ltac:(lia)); pose proof (Nat.mod_upper_bound j bs ltac:(lia)); lia).
  assert (Hr : forall r, In r rows -> length r = dim) by (intros r I; apply HR; auto). assert (Hcr : forall r, In r crows -> length r = dim) by (intros r I; apply HR; auto).
  destruct (vecs_ok nrm2 rows dim Hr) as [pn [Hpn [Lpn Npn]]]. destruct (vecs_ok nrm2 crows dim Hcr) as [cn [Hcn [Lcn Ncn]]]. rewrite Hpn. cbn [bind]. rewrite Hcn. cbn [bind].
  rewrite (skipn_concat _ dim (b * bs) rows Hr).
  assert (Hr' : forall r, In r (skipn (b * bs) rows) -> In r rows) by (intros r Hi; rewrite <- (firstn_skipn (b * bs) rows); apply in_or_app; auto).
  assert (Ej : nth_error rows j = Some (nth j rows [])) by (apply nth_error_nth'; exact Hj). assert (Ec : nth_error crows c = Some (nth c crows [])) by (apply nth_error_nth'; exact Hc).
  destruct (block_ok (ws b) dim m (length crows) (skipn (b * bs) rows) crows (skipn (b * bs) pn) cn
    (fun rp rc v => num v /\ (Rabs (real v - exact_l2 rp rc) <= (INR dim + 4) * powerRZ 2 (-20) * (sum_sq rp + sum_sq rc) + (INR dim + 4) * powerRZ 2 (-147))%R)) as [C [HC [LC PC]]]; auto.
  - rewrite skipn_length. unfold m. lia.
  - rewrite skipn_length. unfold m. lia.
  - lia.
  - intros i k p q x y Hi Hk E1 E2 E3 E4 f0 g0 f1 g1 f2 g2 F0 G0 F1 G1 F2 G2. destruct (HW b (i * length crows + k)) as [W0 [W1 W2]].
    rewrite nth_skipn_ in E1, E3. pose proof (Npn _ _ E1) as Q3. rewrite E3 in Q3. injection Q3 as ->. pose proof (Ncn _ _ E2) as Q4. rewrite E4 in Q4. injection Q4 as ->.
    assert (Ip : In p rows) by (eapply nth_error_In; eauto). assert (Iq : In q crows) by (eapply nth_error_In; eauto).
    destruct (HR p (or_introl Ip)) as [L [G [B NN]]]. destruct (HR q (or_intror Iq)) as [L' [G' [B' NN']]]. rewrite sq_sum, <- pw in B, B'. rewrite !sq_sum.
    assert (Lp' : lim (length p)) by (rewrite L; exact Ld). assert (Lq' : lim (length q)) by (rewrite L'; exact Ld).
    destruct (norm2_ok p (nrm2 p) NN G Lp' B) as [Nx Dx]. destruct (norm2_ok q (nrm2 q) NN' G' Lq' B') as [Ny Dy]. subst dim.
    apply (centre_num (ws b 0 (i * length crows + k)) (ws b 1 (i * length crows + k)) (ws b 2 (i * length crows + k)) p q (fmul (nrm2 p) (nrm2 p)) (fmul (nrm2 q) (nrm2 q)) f0 g0 f1 g1 f2 g2); auto.
    rewrite <- L'. exact Dy.
  - rewrite HC. cbn [bind]. destruct (PC (j - b * bs) c (nth j rows []) (nth c crows [])) as [v [Hv Rv]]; [unfold m; lia|lia| |exact Ec|].
    + rewrite nth_skipn_. replace (b * bs + (j - b * bs)) with j by lia. exact Ej.
    + exists v. split; [unfold rd; now rewrite Hv|exact Rv].
Qed.

Lemma matrix_ok : forall nrm2 ws mbs dim rows crows, 1 <= mbs -> (Z.of_nat dim <= 2 ^ 20)%Z -> block_ways_ok dim ws ->
  (forall r, In r rows \/ In r crows -> length r = dim /\ (forall x, In x r -> finite x /\ valid_binary 24 128 x = true) /\ (sum_sq r <= powerRZ 2 100)%R /\ norm_near r (nrm2 r)) ->
  exists dm, closest_matrix nrm2 ws mbs dim (length rows) (length crows) (concat rows) (concat crows) = Ok dm /\ (forall j c, is_nan (dm j c) = false) /\
    forall j c, j < length rows -> c < length crows -> num (dm j c) /\
      (Rabs (real (dm j c) - exact_l2 (nth j rows []) (nth c crows [])) <= (INR dim + 4) * powerRZ 2 (-20) * (sum_sq (nth j rows []) + sum_sq (nth c crows [])) + (INR dim + 4) * powerRZ 2 (-147))%R.
Proof.
  intros nrm2 ws mbs dim rows crows Hm Ld HW HR. pose proof (closest_entry_ok nrm2 ws mbs dim rows crows Hm Ld HW HR) as H. unfold closest_matrix.
  destruct (collect_ex _ _ (fun jc => closest_entry nrm2 ws mbs dim (length rows) (length crows) (concat rows) (concat crows) (fst jc) (snd jc)) (fun _ _ => True) (list_prod (seq 0 (length rows)) (seq 0 (length crows)))) as [ys [-> _]].
  { intros [q p] Hx. apply in_prod_iff in Hx. rewrite !in_seq in Hx. destruct (H q p) as [v [Hv _]]; [lia|lia|]. exists v. auto. }
  cbn [bind]. eexists. split; [reflexivity|].
  assert (D : forall q p, q < length rows -> p < length crows -> let x := (if (q <? length rows) && (p <? length crows) then match closest_entry nrm2 ws mbs dim (length rows) (length crows) (concat rows) (concat crows) q p with Ok d => d | _ => S754_nan end else f32_zero) in
    num x /\ (Rabs (real x - exact_l2 (nth q rows []) (nth p crows [])) <= (INR dim + 4) * powerRZ 2 (-20) * (sum_sq (nth q rows []) + sum_sq (nth p crows [])) + (INR dim + 4) * powerRZ 2 (-147))%R).
  { intros q p Hq Hp. apply Nat.ltb_lt in Hq as Hq', Hp as Hp'. rewrite Hq', Hp'. cbn [andb]. destruct (H q p Hq Hp) as [v [-> R]]. exact R. }
  split; [|exact D]. intros q p. destruct (Nat.ltb_spec q (length rows)) as [Hq|Hq], (Nat.ltb_spec p (length crows)) as [Hp|Hp]; cbn [andb]; auto.
  destruct (H q p Hq Hp) as [v [-> [[F _] _]]]. apply finite_nan, F.
Qed.

Lemma ivf_on_ok : forall nrm2 ws popf mbs dim rows crows orders, pops popf -> 1 <= mbs -> rows <> [] -> crows <> [] -> block_orders (length rows) 1 (min (length rows) mbs) orders -> (Z.of_nat dim <= 2 ^ 20)%Z -> block_ways_ok dim ws ->
  (forall r, In r rows \/ In r crows -> length r = dim /\ (forall x, In x r -> finite x /\ valid_binary 24 128 x = true) /\ (sum_sq r <= powerRZ 2 100)%R /\ norm_near r (nrm2 r)) ->
  exists inv, ivf_build_on nrm2 ws popf mbs dim (length rows) (length crows) (concat rows) (concat crows) orders [] = Ok inv /\ length inv = length crows /\ Permutation (concat inv) (seq 0 (length rows)) /\
    forall c l j c', nth_error inv c = Some l -> In j l -> c' < length crows ->
      (exact_l2 (nth j rows []) (nth c crows []) <= exact_l2 (nth j rows []) (nth c' crows []) +
         (INR dim + 4) * powerRZ 2 (-20) * (2 * sum_sq (nth j rows []) + sum_sq (nth c crows []) + sum_sq (nth c' crows [])) + (INR dim + 4) * powerRZ 2 (-146))%R.
Proof.
  intros nrm2 ws popf mbs dim rows crows orders Hp Hm Hn Hnc Ho Ld HW HR. unfold ivf_build_on.
  destruct (matrix_ok nrm2 ws mbs dim rows crows Hm Ld HW HR) as [dm [-> [NN D]]]. cbn [bind].
  assert (Far : forall j, j < length rows -> exists c, c < length crows /\ flt (dm j c) FLT_MAX = true).
  { intros j Hj. exists 0. assert (H0 : 0 < length crows) by (destruct crows; [congruence|cbn; lia]). split; [exact H0|]. destruct (D j 0 Hj H0) as [[F V] B].
    assert (Vm : f32_valid FLT_MAX = true) by reflexivity. assert (Fm : finite FLT_MAX) by exact I. apply flt_real; auto.
    assert (Rm : (powerRZ 2 127 < real FLT_MAX)%R).
    { unfold FLT_MAX. cbn [real]. change (1 * 16777215 * powerRZ 2 104)%R with (1 * IZR 16777215 * powerRZ 2 104)%R. replace (powerRZ 2 127)%R with (powerRZ 2 23 * powerRZ 2 104)%R by (rewrite <- powerRZ_add by lra; reflexivity). rewrite Rmult_1_l. apply Rmult_lt_compat_r; [apply powerRZ_lt; lra|].
      change (powerRZ 2 23)%R with (2 ^ 23)%R. rewrite (pow_IZR 2 23). apply IZR_lt. reflexivity. }
    eapply Rle_lt_trans; [|exact Rm].
    assert (I0 : In (nth j rows []) rows) by (apply nth_In; exact Hj). assert (I1 : In (nth 0 crows []) crows) by (apply nth_In; exact H0).
    destruct (HR _ (or_introl I0)) as [L0 [G0 [B0 _]]]. destruct (HR _ (or_intror I1)) as [L1 [G1 [B1 _]]]. rewrite sq_sum in B0, B1. set (p := nth j rows []) in *. set (c := nth 0 crows []) in *.
    rewrite !sq_sum in B. assert (Lpc : length p = length c) by congruence. rewrite (l2_expand p c Lpc) in B. pose proof (sq_pos p) as Pp. pose proof (sq_pos c) as Pc. pose proof (ip_le p c) as Li. pose proof (aip_le p c Lpc) as La.
    pose proof (u_bound dim Ld) as Ub. assert (P20 : powerRZ 2 (-20) = (16 * ulp)%R) by (unfold ulp; replace (-20)%Z with (4 + -24)%Z by reflexivity; rewrite powerRZ_add by lra; f_equal; change (powerRZ 2 4) with (2 ^ 4)%R; ring).
    assert (T47 : (powerRZ 2 (-147) = 8 * tiny)%R) by (unfold tiny; replace (-147)%Z with (3 + -150)%Z by reflexivity; rewrite powerRZ_add by lra; f_equal; change (powerRZ 2 3) with (2 ^ 3)%R; ring).
    rewrite P20, T47 in B. pose proof tiny_ulp as TU. pose proof ulp_pos as PU. pose proof (pos_INR dim) as Pd. pose proof tiny_pos as PT.
    assert (S1 : ((INR dim + 4) * (16 * ulp) * (sq p + sq c) <= 2 * (sq p + sq c))%R) by (apply Rmult_le_compat_r; lra).
    assert (S2 : ((INR dim + 4) * (8 * tiny) <= 1)%R) by (apply Rle_trans with ((INR dim + 4) * ulp)%R; [apply Rmult_le_compat_l; lra|lra]).
    pose proof (Raux.Rabs_le_inv _ _ B) as B'. pose proof (Raux.Rabs_le_inv _ _ Li) as Li'.
    rewrite <- pw in B0, B1. rewrite <- pw. pose proof (one_le 100 ltac:(lia)) as O1.
    apply Rle_trans with (16 * Raux.bpow Zaux.radix2 100)%R; [lra|]. change 16%R with (Raux.bpow Zaux.radix2 4). rewrite <- Raux.bpow_plus. apply Raux.bpow_le. lia. }
  destruct (ivf_build_fresh popf mbs dm (length rows) (length crows) orders Hp) as [inv [Hi [Li [Pi Fi]]]]; auto.
  { destruct rows; [congruence|cbn; lia]. }
  exists inv. split; [exact Hi|]. split; [exact Li|]. split; [exact Pi|]. intros c l j c' Hc Hj Hc'. destruct (Fi c l j Hc Hj) as [Lc [Fn _]].
  assert (Lj : j < length rows). { assert (In j (concat inv)) by (apply in_concat; exists l; split; [eapply nth_error_In; eauto|exact Hj]). apply (Permutation_in _ Pi) in H. apply in_seq in H. lia. }
  destruct (D j c Lj Lc) as [[F1 V1] B1]. destruct (D j c' Lj Hc') as [[F2 V2] B2]. pose proof (fle_real _ _ V1 V2 F1 F2 (Fn c' Hc')) as Q.
  apply Raux.Rabs_le_inv in B1, B2. assert (T46 : (powerRZ 2 (-146) = 2 * powerRZ 2 (-147))%R) by (replace (-146)%Z with (1 + -147)%Z by reflexivity; rewrite powerRZ_add by lra; rewrite powerRZ_1; reflexivity). rewrite T46. lra.
Qed.

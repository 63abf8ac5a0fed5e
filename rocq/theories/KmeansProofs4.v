(** One iteration, and all of them. *)
From Coq Require Import ZArith Reals Lra Lia List Arith Bool Sorting.Permutation Floats.SpecFloat.
From Verif Require Import Base Float32 DivFacts DistSpec ListLemmas RealSpec FloatReal RealDistProofs L2ErrorProofs BlasModel BlasSpec BlasProofs BlasProofs3 BlasProofs4 BlasProofs7 BlasProofs8 BlasProofs9 PqModel PqSpec ClosestModel ClosestSpec IvfProofs
  LloydModel LloydSpec MeanSpec MeanProofs2 MeanProofs3 MeanProofs5 KmeansModel KmeansSpec KmeansProofs KmeansProofs2 KmeansProofs3.
Import ListNotations.
Local Open Scope R_scope.

Lemma vectors_good : forall dim B rows r, vectors dim B rows -> In r rows -> row_good dim B r.
Proof. intros dim B rows r H I. destruct (H r I) as [L [G S]]. split; [exact L|]. split; [|exact S]. intros x Hx. destruct (G x Hx) as [F V]. split; [destruct x; auto|exact V]. Qed.
Lemma good_vectors : forall dim B rows, (forall r, In r rows -> row_good dim B r) -> vectors dim B rows.
Proof. intros dim B rows H r I. destruct (H r I) as [L [G S]]. split; [exact L|]. split; [|exact S]. intros x Hx. destruct (G x Hx) as [F V]. split; [destruct x; auto|exact V]. Qed.
Lemma vectors_le : forall dim B B' rows, vectors dim B rows -> B <= B' -> vectors dim B' rows.
Proof. intros dim B B' rows H L r I. destruct (H r I) as [A1 [A2 A3]]. split; [exact A1|]. split; [exact A2|lra]. Qed.

Lemma far : forall dim (p c : list f32) d, (Z.of_nat dim <= 2 ^ 20)%Z -> num d -> length p = dim -> length c = dim -> sum_sq p <= powerRZ 2 100 -> sum_sq c <= powerRZ 2 100 ->
  Rabs (real d - exact_l2 p c) <= (INR dim + 4) * powerRZ 2 (-20) * (sum_sq p + sum_sq c) + (INR dim + 4) * powerRZ 2 (-147) -> flt d FLT_MAX = true.
Proof.
  intros dim p c d Ld [F V] L0 L1 B0 B1 B.
    assert (Vm : f32_valid FLT_MAX = true) by reflexivity. assert (Fm : finite FLT_MAX) by exact I. apply flt_real; auto.
    assert (Rm : (powerRZ 2 127 < real FLT_MAX)%R).
    { unfold FLT_MAX. cbn [real]. change (1 * 16777215 * powerRZ 2 104)%R with (1 * IZR 16777215 * powerRZ 2 104)%R. replace (powerRZ 2 127)%R with (powerRZ 2 23 * powerRZ 2 104)%R by (rewrite <- powerRZ_add by lra; reflexivity). rewrite Rmult_1_l. apply Rmult_lt_compat_r; [apply powerRZ_lt; lra|].
      change (powerRZ 2 23)%R with (2 ^ 23)%R. rewrite (pow_IZR 2 23). apply IZR_lt. reflexivity. }
    eapply Rle_lt_trans; [|exact Rm]. rewrite sq_sum in B0, B1.
    rewrite !sq_sum in B. assert (Lpc : length p = length c) by congruence. rewrite (l2_expand p c Lpc) in B. pose proof (sq_pos p) as Pp. pose proof (sq_pos c) as Pc. pose proof (ip_le p c) as Li. pose proof (aip_le p c Lpc) as La.
    pose proof (u_bound dim Ld) as Ub. assert (P20 : powerRZ 2 (-20) = (16 * ulp)%R) by (unfold ulp; replace (-20)%Z with (4 + -24)%Z by reflexivity; rewrite powerRZ_add by lra; f_equal; change (powerRZ 2 4) with (2 ^ 4)%R; ring).
    assert (T47 : (powerRZ 2 (-147) = 8 * tiny)%R) by (unfold tiny; replace (-147)%Z with (3 + -150)%Z by reflexivity; rewrite powerRZ_add by lra; f_equal; change (powerRZ 2 3) with (2 ^ 3)%R; ring).
    rewrite P20, T47 in B. pose proof tiny_ulp as TU. pose proof ulp_pos as PU. pose proof (pos_INR dim) as Pd. pose proof tiny_pos as PT.
    assert (S1 : ((INR dim + 4) * (16 * ulp) * (sq p + sq c) <= 2 * (sq p + sq c))%R) by (apply Rmult_le_compat_r; lra).
    assert (S2 : ((INR dim + 4) * (8 * tiny) <= 1)%R) by (apply Rle_trans with ((INR dim + 4) * ulp)%R; [apply Rmult_le_compat_l; lra|lra]).
    pose proof (Raux.Rabs_le_inv _ _ B) as B'. pose proof (Raux.Rabs_le_inv _ _ Li) as Li'.
    rewrite <- pw in B0, B1. rewrite <- pw. pose proof (one_le 100 ltac:(lia)) as O1.
    apply Rle_trans with (16 * Raux.bpow Zaux.radix2 100)%R; [lra|]. change 16%R with (Raux.bpow Zaux.radix2 4). rewrite <- Raux.bpow_plus. apply Raux.bpow_le. lia.
Qed.

Lemma iteration_ok : forall nrm2 ws popf mbs csz rdist dim (data : list (list f32)) orders (centers : list (list f32)) assign0 B C, pops popf -> (1 <= mbs)%nat -> (1 <= csz)%nat -> data <> [] -> centers <> [] ->
  block_orders (length data) 1 (min (length data) mbs) orders -> (Z.of_nat dim <= 2 ^ 20)%Z -> (Z.of_nat (length data) <= 2 ^ 28)%Z -> block_ways_ok dim ws -> length assign0 = length data ->
  vectors dim B data -> vectors dim C centers -> 0 <= B <= powerRZ 2 100 -> 0 <= C <= powerRZ 2 100 -> (forall r, In r data \/ In r centers -> norm_near r (nrm2 r)) ->
  exists st, lloyd_iter_on nrm2 ws popf mbs csz rdist (length data) dim (length centers) data orders centers assign0 = Ok st /\
    length (ll_assign st) = length data /\ (forall c, In c (ll_assign st) -> (c < length centers)%nat) /\ length (ll_centers st) = length centers /\
    vectors dim (3 * B + INR dim * powerRZ 2 (-297)) (ll_centers st) /\
    cost data centers (ll_assign st) <= objective data centers + INR (length data) * ((INR dim + 4) * powerRZ 2 (-19) * (B + C) + (INR dim + 4) * powerRZ 2 (-146)) /\
    (forall D, length D = length centers -> (forall d, In d D -> length d = dim) ->
       cost data (ll_centers st) (ll_assign st) <= cost data D (ll_assign st) + powerRZ 2 (-43) * (INR (length data) * B) + INR (length data) * (INR dim * powerRZ 2 (-297))) /\
    objective data (ll_centers st) <= cost data (ll_centers st) (ll_assign st).
Proof.
  intros nrm2 ws popf mbs csz rdist dim data orders centers assign0 B C Hp Hm Hcs Hn Hnc Ho Ld LN HW La VD VC PB PC HN. unfold lloyd_iter_on.
  assert (HR : forall r, In r data \/ In r centers -> length r = dim /\ (forall x, In x r -> finite x /\ valid_binary 24 128 x = true) /\ (sum_sq r <= powerRZ 2 100)%R /\ norm_near r (nrm2 r)).
  { intros r [I|I]; [destruct (vectors_good _ _ _ r VD I) as [A1 [A2 A3]] | destruct (vectors_good _ _ _ r VC I) as [A1 [A2 A3]]]; (split; [exact A1|]; split; [exact A2|]; split; [lra|apply HN; auto]). }
  destruct (matrix_ok nrm2 ws mbs dim data centers Hm Ld HW HR) as [dm [-> [NN Dm]]]. cbn [bind].
  assert (H0 : (0 < length centers)%nat) by (destruct centers; [congruence|cbn; lia]). assert (Hn1 : (1 <= length data)%nat) by (destruct data; [congruence|cbn; lia]).
  destruct (lloyd_step_ok popf mbs csz dm rdist (length data) dim (length centers) data orders assign0) as [a [st [E [Ea [Fn [_ [Lc Cs]]]]]]]; auto.
  { split; [reflexivity|]. intros r I. apply (HR r (or_introl I)). }
  { intros p Hp'. exists 0%nat. split; [exact H0|]. destruct (Dm p 0%nat Hp' H0) as [Nd Bd]. assert (I0 : In (nth p data []) data) by (apply nth_In; exact Hp'). assert (I1 : In (nth 0 centers []) centers) by (apply nth_In; exact H0).
    destruct (HR _ (or_introl I0)) as [A1 [_ [A2 _]]]. destruct (HR _ (or_intror I1)) as [A3 [_ [A4 _]]]. apply (far dim (nth p data []) (nth 0 centers [])); auto. }
  exists st. split; [exact E|]. rewrite Ea. split; [now rewrite map_length, seq_length|].
  assert (Aa : forall p, (p < length data)%nat -> (a p < length centers)%nat) by (intros p Hp'; apply (Fn p Hp')).
  split; [intros c Hc; apply in_map_iff in Hc as [p [<- Hp']]; apply in_seq in Hp'; apply Aa; lia|]. split; [exact Lc|].
  assert (Dc : forall c, (c < length centers)%nat -> Permutation (nth c (ll_docs st) []) (filter (fun p => (a p =? c)%nat) (seq 0 (length data))) /\ nth c (ll_centers st) [] = centroid_of dim data (nth c (ll_docs st) [])).
  { intros c Hc. destruct (Cs c Hc) as [docs [E1 [Pm E2]]]. rewrite (nth_error_nth _ _ _ E1), (nth_error_nth _ _ _ E2). auto. }
  split.
  { apply good_vectors. intros r Hr. apply In_nth with (d := []) in Hr. destruct Hr as [c [Hc <-]]. rewrite Lc in Hc. destruct (Dc c Hc) as [Pm ->]. apply centroid_good; try lra.
    - rewrite (Permutation_length Pm). pose proof (filter_le_len (fun p => (a p =? c)%nat) (seq 0 (length data))) as FL. rewrite seq_length in FL. lia.
    - intros p Hp'. apply (Permutation_in _ Pm) in Hp'. apply filter_In in Hp' as [Hp' _]. apply in_seq in Hp'. apply (vectors_good _ _ data); [exact VD|]. apply nth_In. lia. }
  split.
  { eapply Rle_trans; [apply (cost_near data centers a (fun _ => (INR dim + 4) * powerRZ 2 (-19) * (B + C) + (INR dim + 4) * powerRZ 2 (-146)) Hnc)|].
    - intros p c Hp' Hc. destruct (Fn p Hp') as [Hap [Fl _]]. destruct (Dm p (a p) Hp' Hap) as [[F1 V1] B1]. destruct (Dm p c Hp' Hc) as [[F2 V2] B2]. pose proof (fle_real _ _ V1 V2 F1 F2 (Fl c Hc)) as Q.
      apply Raux.Rabs_le_inv in B1, B2. unfold f32 in *.
      assert (I0 : In (nth p data []) data) by (apply nth_In; exact Hp'). assert (I1 : In (nth (a p) centers []) centers) by (apply nth_In; exact Hap). assert (I2 : In (nth c centers []) centers) by (apply nth_In; exact Hc).
      destruct (vectors_good _ _ _ _ VD I0) as [_ [_ S0]]. destruct (vectors_good _ _ _ _ VC I1) as [_ [_ S1]]. destruct (vectors_good _ _ _ _ VC I2) as [_ [_ S2]].
      assert (T46 : (powerRZ 2 (-146) = 2 * powerRZ 2 (-147))%R) by (replace (-146)%Z with (1 + -147)%Z by reflexivity; rewrite powerRZ_add by lra; rewrite powerRZ_1; reflexivity).
      assert (T19 : (powerRZ 2 (-19) = 2 * powerRZ 2 (-20))%R) by (replace (-19)%Z with (1 + -20)%Z by reflexivity; rewrite powerRZ_add by lra; rewrite powerRZ_1; reflexivity). rewrite T46, T19.
      pose proof (pos_INR dim) as Pd. assert (P20 : 0 < powerRZ 2 (-20)) by (apply powerRZ_lt; lra). set (u := (INR dim + 4) * powerRZ 2 (-20)) in *. assert (Pu : 0 <= u) by (unfold u; nra).
      assert (K1 : u * (sum_sq (nth p data []) + sum_sq (nth (a p) centers [])) <= u * (B + C)) by (apply Rmult_le_compat_l; lra).
      assert (K2 : u * (sum_sq (nth p data []) + sum_sq (nth c centers [])) <= u * (B + C)) by (apply Rmult_le_compat_l; lra).
      replace ((INR dim + 4) * (2 * powerRZ 2 (-20)) * (B + C)) with (2 * (u * (B + C))) by (unfold u; ring). lra.
    - apply Rplus_le_compat_l. rewrite isum_nth, isum_const, seq_length. apply Rle_refl. }
  split.
  { intros D LD HD. eapply Rle_trans; [apply (update_optimal dim data (ll_centers st) (length centers) a (fun c => nth c (ll_docs st) []) D LN)|]; auto.
    - intros r I. destruct (HR r (or_introl I)) as [A1 [A2 [A3 _]]]. split; [exact A1|]. split; [exact A2|exact A3].
    - apply Rplus_le_compat_r, Rplus_le_compat_l. apply Rmult_le_compat_l; [apply powerRZ_le; lra|]. rewrite isum_nth. rewrite <- (seq_length (length data) 0) at 2. rewrite <- isum_const. apply isum_mono. intros p Hp'. apply in_seq in Hp'. exact (proj2 (proj2 (vectors_good dim B data _ VD (nth_In data [] (proj2 Hp'))))). }
  apply objective_le. intros p Hp'. unfold f32 in *. rewrite Lc. auto.
Qed.

(** The bound of one iteration, in one term. *)
Lemma errors_le : forall n dim B, 1 <= B -> (Z.of_nat dim <= 2 ^ 20)%Z ->
  3 * B + INR dim * powerRZ 2 (-297) <= 4 * B /\
  INR n * ((INR dim + 4) * powerRZ 2 (-19) * (B + 4 * B) + (INR dim + 4) * powerRZ 2 (-146)) + (powerRZ 2 (-43) * (INR n * B) + INR n * (INR dim * powerRZ 2 (-297))) <= INR n * ((INR dim + 4) * powerRZ 2 (-16) * B).
Proof.
  intros n dim B PB Ld. pose proof (pos_INR n) as Pn. pose proof (pos_INR dim) as Pd.
  assert (L20 : INR dim <= powerRZ 2 20) by (rewrite INR_IZR_INZ; change (powerRZ 2 20) with (2 ^ 20); rewrite (pow_IZR 2 20); apply IZR_le; exact Ld).
  assert (E1 : powerRZ 2 (-297) <= powerRZ 2 (-23)) by (rewrite <- !pw; apply Raux.bpow_le; lia). assert (E2 : powerRZ 2 (-146) <= powerRZ 2 (-23)) by (rewrite <- !pw; apply Raux.bpow_le; lia). assert (E3 : powerRZ 2 (-43) <= powerRZ 2 (-23)) by (rewrite <- !pw; apply Raux.bpow_le; lia).
  assert (P1 : 0 < powerRZ 2 (-297)) by (apply powerRZ_lt; lra). assert (P2 : 0 < powerRZ 2 (-146)) by (apply powerRZ_lt; lra). assert (P3 : 0 < powerRZ 2 (-43)) by (apply powerRZ_lt; lra). assert (P23 : 0 < powerRZ 2 (-23)) by (apply powerRZ_lt; lra).
  assert (E4 : powerRZ 2 (-19) = 16 * powerRZ 2 (-23)) by (replace (-19)%Z with (4 + -23)%Z by reflexivity; rewrite powerRZ_add by lra; change (powerRZ 2 4) with (2 ^ 4); ring).
  assert (E5 : powerRZ 2 (-16) = 128 * powerRZ 2 (-23)) by (replace (-16)%Z with (7 + -23)%Z by reflexivity; rewrite powerRZ_add by lra; change (powerRZ 2 7) with (2 ^ 7); ring).
  assert (E6 : powerRZ 2 20 * powerRZ 2 (-23) = / 8) by (rewrite <- powerRZ_add by lra; rewrite <- pw; cbn; lra).
  set (u := powerRZ 2 (-23)) in *. split.
  { assert (INR dim * powerRZ 2 (-297) <= INR dim * u) by (apply Rmult_le_compat_l; lra). assert (INR dim * u <= powerRZ 2 20 * u) by (apply Rmult_le_compat_r; lra). lra. }
  rewrite E4, E5. set (k := INR dim + 4) in *. assert (K : 4 <= k) by (unfold k; lra).
  replace (powerRZ 2 (-43) * (INR n * B) + INR n * (INR dim * powerRZ 2 (-297))) with (INR n * (powerRZ 2 (-43) * B + INR dim * powerRZ 2 (-297))) by ring. rewrite <- Rmult_plus_distr_l. apply Rmult_le_compat_l; [exact Pn|].
  assert (A1 : k * powerRZ 2 (-146) <= k * u) by (apply Rmult_le_compat_l; lra). assert (A2 : powerRZ 2 (-43) * B <= u * B) by (apply Rmult_le_compat_r; lra). assert (A3 : INR dim * powerRZ 2 (-297) <= INR dim * u) by (apply Rmult_le_compat_l; lra). assert (A4 : INR dim * u <= k * u) by (apply Rmult_le_compat_r; unfold k; lra).
  assert (A5 : u <= k * u) by nra. assert (A6 : u * B <= k * u * B) by (apply Rmult_le_compat_r; lra). assert (A7 : k * u <= k * u * B) by (assert (0 <= k * u) by nra; nra).
  replace (k * (16 * u) * (B + 4 * B)) with (80 * (k * u * B)) by ring. replace (k * (128 * u) * B) with (128 * (k * u * B)) by ring. assert (0 <= k * u * B) by (assert (0 <= k * u) by nra; nra). lra.
Qed.

(** ** The run *)
Lemma loop_ok : forall nrm2 ws popf mbs csz rdist dim (data : list (list f32)) orders nc B, pops popf -> (1 <= mbs)%nat -> (1 <= csz)%nat -> data <> [] -> (1 <= nc)%nat ->
  (forall i, block_orders (length data) 1 (min (length data) mbs) (orders i)) -> (Z.of_nat dim <= 2 ^ 20)%Z -> (Z.of_nat (length data) <= 2 ^ 28)%Z -> (forall i, block_ways_ok dim (ws i)) ->
  vectors dim B data -> 1 <= B <= powerRZ 2 98 -> (forall r, vectors dim (4 * B) [r] -> norm_near r (nrm2 r)) ->
  forall cnt i st0, length (ll_assign st0) = length data -> length (ll_centers st0) = nc -> vectors dim (4 * B) (ll_centers st0) ->
  exists st, lloyd_loop_on nrm2 ws popf mbs csz rdist (length data) dim nc data orders i cnt st0 = Ok st /\
    length (ll_assign st) = length data /\ length (ll_centers st) = nc /\ vectors dim (4 * B) (ll_centers st) /\
    objective data (ll_centers st) <= objective data (ll_centers st0) + INR cnt * (INR (length data) * ((INR dim + 4) * powerRZ 2 (-16) * B)) /\
    ((1 <= cnt)%nat -> (forall c, In c (ll_assign st) -> (c < nc)%nat) /\
      cost data (ll_centers st) (ll_assign st) <= objective data (ll_centers st0) + INR cnt * (INR (length data) * ((INR dim + 4) * powerRZ 2 (-16) * B))).
Proof.
  intros nrm2 ws popf mbs csz rdist dim data orders nc B Hp Hm Hcs Hn Hnc Ho Ld LN HW VD PB HN. destruct (errors_le (length data) dim B) as [X1 X2]; [lra|exact Ld|]. set (err := INR (length data) * ((INR dim + 4) * powerRZ 2 (-16) * B)) in *.
  assert (B4 : 4 * B <= powerRZ 2 100) by (replace 100%Z with (2 + 98)%Z by reflexivity; rewrite powerRZ_add by lra; change (powerRZ 2 2) with (2 ^ 2); lra).
  assert (Pe : 0 <= err). { unfold err. pose proof (pos_INR (length data)). pose proof (pos_INR dim). assert (0 < powerRZ 2 (-16)) by (apply powerRZ_lt; lra). apply Rmult_le_pos; [lra|]. apply Rmult_le_pos; [|lra]. apply Rmult_le_pos; lra. }
  induction cnt as [|cnt IH]; intros i st0 La Lc Vc.
  { exists st0. cbn [lloyd_loop_on]. split; [reflexivity|]. split; [exact La|]. split; [exact Lc|]. split; [exact Vc|]. split; [cbn [INR]; lra|]. intros; lia. }
  cbn [lloyd_loop_on].
  destruct (iteration_ok nrm2 (ws i) popf mbs csz rdist dim data (orders i) (ll_centers st0) (ll_assign st0) B (4 * B)) as [st [E [La' [Ca [Lc' [Vc' [Near [Opt Ob]]]]]]]]; auto; try lra.
  { intros Hx. rewrite Hx in Lc. cbn in Lc. lia. }
  { intros r [I|I]; apply HN; intros r' [<-|[]]; [apply (vectors_le dim B (4 * B) data VD ltac:(lra) r I)|apply (Vc r I)]. }
  rewrite Lc in E, Lc', Ca. rewrite E. cbn [bind]. assert (Vn : vectors dim (4 * B) (ll_centers st)) by (eapply vectors_le; [exact Vc'|exact X1]).
  assert (Step : cost data (ll_centers st) (ll_assign st) <= objective data (ll_centers st0) + err).
  { specialize (Opt (ll_centers st0) eq_refl (fun d Hd => proj1 (Vc d Hd))). lra. }
  rewrite S_INR. pose proof (pos_INR cnt) as Pc. assert (Pce : 0 <= INR cnt * err) by (apply Rmult_le_pos; assumption).
  destruct (lloyd_stop i (ll_res st0) (ll_res st)).
  - exists st. split; [reflexivity|]. split; [exact La'|]. split; [exact Lc'|]. split; [exact Vn|]. split; [lra|]. intros _. split; [exact Ca|lra].
  - destruct (IH (S i) st La' Lc' Vn) as [st2 [E2 [L2 [L3 [V2 [O2 F2]]]]]]. exists st2. split; [exact E2|]. split; [exact L2|]. split; [exact L3|]. split; [exact V2|]. split; [lra|]. intros _.
    destruct cnt as [|cnt]; [cbn [lloyd_loop_on] in E2; injection E2 as <-; split; [exact Ca|cbn [INR]; lra]|]. destruct (F2 ltac:(lia)) as [G1 G2]. split; [exact G1|lra].
Qed.

(** The residual an iteration returns is the cost of what it leaves behind. *)
From Coq Require Import ZArith Reals Lra Lia List Arith Bool Sorting.Permutation Floats.SpecFloat.
From Verif Require Import Base Float32 DivFacts DistSpec ListLemmas RealSpec FloatReal DistModel FusedModel FusedProofs RealDistProofs L2ErrorProofs BlasSpec BlasProofs BlasProofs3 BlasProofs7 BlasProofs8 ClosestModel ClosestSpec IvfProofs PqModel PqSpec BlasModel RandModel
  LloydModel LloydSpec LloydProofs2 MeanProofs2 KmeansModel KmeansSpec KmeansProofs KmeansProofs2 KmeansProofs3 KmeansProofs4.
Import ListNotations.
Local Open Scope R_scope.

Lemma sum_error : forall xs acc, f32_valid acc = true -> (forall x, In x xs -> finite x -> f32_valid x = true) -> finite (fold_left fadd xs acc) ->
  finite acc /\ (forall x, In x xs -> finite x) /\ f32_valid (fold_left fadd xs acc) = true /\
  Rabs (real (fold_left fadd xs acc) - (real acc + real_sum (map real xs))) <= (E (length xs) - 1) * (Rabs (real acc) + real_sum (map (fun x => Rabs (real x)) xs)).
Proof.
  induction xs as [|x xs IH]; intros acc Va Vx F; cbn [fold_left] in *.
  - split; [exact F|]. split; [intros x []|]. split; [exact Va|]. cbn. replace (real acc - (real acc + 0)) with 0 by ring. rewrite Rabs_R0. lra.
  - assert (Fax : finite (fadd acc x)). { clear - F. revert F. generalize (fadd acc x). induction xs as [|y xs IH]; intros a F; [exact F|]. cbn [fold_left] in F. apply IH in F. apply fadd_finite in F. tauto. }
    destruct (fadd_finite _ _ Fax) as [Fa Fx]. assert (Vx' : f32_valid x = true) by (apply Vx; [now left|exact Fx]).
    destruct (fadd_real acc x Va Vx' Fa Fx Fax) as [Vs [d [Hd Rs]]]. destruct (IH (fadd acc x) Vs ltac:(intros; apply Vx; [now right|assumption]) F) as [_ [Fs [Vf B]]].
    split; [exact Fa|]. split; [intros y [<-|Hy]; auto|]. split; [exact Vf|]. set (r := real (fold_left fadd xs (fadd acc x))) in *. cbn [map length]. unfold real_sum in *. cbn [fold_right].
    set (S := fold_right Rplus 0 (map real xs)) in *. set (A := fold_right Rplus 0 (map (fun x => Rabs (real x)) xs)) in *. rewrite Rs in B. set (a := real acc) in *. set (y := real x) in *.
    assert (PA : 0 <= A). { unfold A. apply (real_sum_pos (map (fun x => Rabs (real x)) xs)). intros z Hz. apply in_map_iff in Hz as [w [<- _]]. apply Rabs_pos. }
    assert (T1 : Rabs (a + y) <= Rabs a + Rabs y) by apply Rabs_triang. pose proof (Rabs_pos (a + y)) as P1. pose proof ulp_pos as PU. pose proof (E_ge (length xs)) as GE. set (e := E (length xs)) in *.
    assert (T2 : Rabs ((a + y) * d) <= (Rabs a + Rabs y) * ulp) by (rewrite Rabs_mult; apply Rmult_le_compat; auto using Rabs_pos).
    assert (T3 : Rabs ((a + y) * (1 + d)) <= (Rabs a + Rabs y) * (1 + ulp)). { replace ((a + y) * (1 + d)) with ((a + y) + (a + y) * d) by ring. eapply Rle_trans; [apply Rabs_triang|]. lra. }
    replace (r - (a + (y + S))) with ((r - ((a + y) * (1 + d) + S)) + (a + y) * d) by ring. eapply Rle_trans; [apply Rabs_triang|].
    assert (T4 : (e - 1) * (Rabs ((a + y) * (1 + d)) + A) <= (e - 1) * ((Rabs a + Rabs y) * (1 + ulp) + A)) by (apply Rmult_le_compat_l; lra).
    change (E (Datatypes.S (length xs))) with ((1 + ulp) * e). set (m := Rabs a + Rabs y) in *. assert (Pm : 0 <= m) by (unfold m; pose proof (Rabs_pos a); pose proof (Rabs_pos y); lra). assert (0 <= ulp * e * A) by (apply Rmult_le_pos; [nra|exact PA]).
    replace (Rabs a + (Rabs y + A)) with (m + A) by (unfold m; ring). replace (((1 + ulp) * e - 1) * (m + A)) with ((e - 1) * (m * (1 + ulp) + A) + m * ulp + ulp * e * A) by ring. lra.
Qed.
Lemma isum_map : forall (g : nat -> f32) (h : f32 -> R) l, real_sum (map h (map g l)) = isum (fun p => h (g p)) l.
Proof. intros g h l. unfold isum. now rewrite map_map. Qed.
Lemma total_error : forall dist csz n, (1 <= csz)%nat -> (forall p, (p < n)%nat -> finite (dist p) -> f32_valid (dist p) = true) -> finite (total_dist dist csz n) ->
  (forall p, (p < n)%nat -> finite (dist p)) /\
  Rabs (real (total_dist dist csz n) - isum (fun p => real (dist p)) (seq 0 n)) <= (E (csz + (n + csz - 1) / csz) - 1) * isum (fun p => Rabs (real (dist p))) (seq 0 n).
Proof.
  intros dist csz n Hc Hv F. unfold total_dist in *. set (nch := ((n + csz - 1) / csz)%nat) in *. set (cl := fun c => filter (fun p => (p / csz =? c)%nat) (seq 0 n)) in *. set (s := fun c => fold_left fadd (map dist (cl c)) f32_zero) in *.
  change (fun c => fold_left fadd (map dist (filter (fun p => (p / csz =? c)%nat) (seq 0 n))) f32_zero) with s in *.
  assert (Div : forall p, In p (seq 0 n) -> (p / csz < nch)%nat).
  { intros p Hp. apply in_seq in Hp. unfold nch. assert (p / csz * csz <= p)%nat by (rewrite Nat.mul_comm; apply Nat.mul_div_le; lia). apply (Nat.div_le_lower_bound (n + csz - 1) csz (S (p / csz))); [lia|]. rewrite Nat.mul_comm. cbn [Nat.mul]. lia. }
  assert (Ch : forall c, finite (s c) -> (forall p, In p (cl c) -> finite (dist p)) /\ f32_valid (s c) = true /\ Rabs (real (s c) - isum (fun p => real (dist p)) (cl c)) <= (E csz - 1) * isum (fun p => Rabs (real (dist p))) (cl c)).
  { intros c Fc. destruct (sum_error (map dist (cl c)) f32_zero) as [_ [A [V B]]]; [reflexivity| |exact Fc|].
    - intros x Hx. apply in_map_iff in Hx as [p [<- Hp]]. apply filter_In in Hp as [Hp _]. apply in_seq in Hp. apply Hv. lia.
    - split; [intros p Hp; apply A; apply in_map; exact Hp|]. split; [exact V|]. rewrite !isum_map in B. change (real f32_zero) with 0 in B. rewrite Rabs_R0, !Rplus_0_l in B. eapply Rle_trans; [exact B|].
      apply Rmult_le_compat_r; [apply isum_nonneg; intros; apply Rabs_pos|]. apply Rplus_le_compat_r, E_mono. rewrite map_length. unfold cl. rewrite chunk_points by exact Hc. rewrite seq_length. lia. }
  destruct (sum_error (map s (seq 0 nch)) f32_zero) as [_ [A [_ B]]]; [reflexivity| |exact F|].
  { intros x Hx. apply in_map_iff in Hx as [c [<- _]]. intros Fc. apply (Ch c Fc). }
  assert (Fs : forall c, In c (seq 0 nch) -> finite (s c)) by (intros c Hc'; apply A, in_map, Hc'). split.
  { intros p Hp. assert (Ip : In p (seq 0 n)) by (apply in_seq; lia). apply (Ch (p / csz)%nat); [apply Fs, in_seq; split; [apply Nat.le_0_l|exact (Div p Ip)]|]. apply filter_In. split; [exact Ip|]. apply Nat.eqb_refl. }
  rewrite !isum_map in B. rewrite map_length, seq_length in B. change (real f32_zero) with 0 in B. rewrite Rabs_R0, !Rplus_0_l in B.
  rewrite (isum_partition (fun p => real (dist p)) (fun p => (p / csz)%nat) nch (seq 0 n) Div), (isum_partition (fun p => Rabs (real (dist p))) (fun p => (p / csz)%nat) nch (seq 0 n) Div).
  change (fun c => isum (fun p => real (dist p)) (filter (fun q => (q / csz =? c)%nat) (seq 0 n))) with (fun c => isum (fun p => real (dist p)) (cl c)). change (fun c => isum (fun p => Rabs (real (dist p))) (filter (fun q => (q / csz =? c)%nat) (seq 0 n))) with (fun c => isum (fun p => Rabs (real (dist p))) (cl c)).
  set (M := isum (fun c => isum (fun p => Rabs (real (dist p))) (cl c)) (seq 0 nch)). set (T := isum (fun c => isum (fun p => real (dist p)) (cl c)) (seq 0 nch)). set (r := real (fold_left fadd (map s (seq 0 nch)) f32_zero)) in *.
  assert (D1 : Rabs (isum (fun c => real (s c)) (seq 0 nch) - T) <= (E csz - 1) * M).
  { unfold T, M. rewrite <- isum_scale. replace (isum (fun c => real (s c)) (seq 0 nch) - isum (fun c => isum (fun p => real (dist p)) (cl c)) (seq 0 nch)) with (isum (fun c => real (s c) - isum (fun p => real (dist p)) (cl c)) (seq 0 nch)).
    - apply isum_abs. intros c Hc'. apply (Ch c (Fs c Hc')).
    - unfold Rminus. rewrite isum_plus. f_equal. transitivity (isum (fun c => (-1) * isum (fun p => real (dist p)) (cl c)) (seq 0 nch)); [apply isum_ext; intros; ring|]. rewrite isum_scale. ring. }
  assert (D2 : isum (fun c => Rabs (real (s c))) (seq 0 nch) <= E csz * M).
  { unfold M. rewrite <- isum_scale. apply isum_mono. intros c Hc'. destruct (Ch c (Fs c Hc')) as [_ [_ Bc]]. pose proof (isum_abs (fun p => real (dist p)) (fun p => Rabs (real (dist p))) (cl c) ltac:(intros; apply Rle_refl)) as Ab.
    replace (real (s c)) with ((real (s c) - isum (fun p => real (dist p)) (cl c)) + isum (fun p => real (dist p)) (cl c)) by ring. eapply Rle_trans; [apply Rabs_triang|]. lra. }
  rewrite (pow_add (1 + ulp) csz nch). pose proof (E_ge csz) as G1. pose proof (E_ge nch) as G2. set (e1 := E csz) in *. set (e2 := E nch) in *.
  replace (r - T) with ((r - isum (fun c => real (s c)) (seq 0 nch)) + (isum (fun c => real (s c)) (seq 0 nch) - T)) by ring. eapply Rle_trans; [apply Rabs_triang|].
  assert ((e2 - 1) * isum (fun c => Rabs (real (s c))) (seq 0 nch) <= (e2 - 1) * (e1 * M)) by (apply Rmult_le_compat_l; lra). lra.
Qed.

Lemma step_residual : forall popf mbs csz dm rdist n dim nc data orders assign st, (1 <= csz)%nat ->
  lloyd_step popf mbs csz dm rdist n dim nc data orders assign = Ok st ->
  ll_res st = total_dist (fun p => rdist (nth p data []) (nth (nth p (ll_assign st) 0%nat) (ll_centers st) [])) csz n.
Proof.
  intros popf mbs csz dm rdist n dim nc data orders assign st Hc H. unfold lloyd_step in H. apply bind_ok in H. destruct H as [[a o] [_ H]].
  cbn [fst snd] in H. destruct o as [docs|]; [|discriminate]. apply bind_ok in H. destruct H as [cs [_ H]]. apply bind_ok in H. destruct H as [r [Er H]].
  assert (st = mkLl a docs cs r) by congruence. subst st. cbn [ll_res ll_assign ll_centers]. apply residual_val in Er; auto. unfold total_dist.
  replace ((n + csz - 1) / csz)%nat with (div_round_up n csz); [exact Er|]. unfold div_round_up.
  pose proof (Nat.div_mod n csz ltac:(lia)) as Ed. pose proof (Nat.mod_upper_bound n csz ltac:(lia)) as B.
  destruct (n mod csz)%nat as [|m] eqn:Em; cbn [Nat.eqb].
  - replace (n + csz - 1)%nat with (csz - 1 + (n / csz) * csz)%nat by nia. rewrite Nat.div_add by lia. rewrite (Nat.div_small (csz - 1)) by lia. lia.
  - replace (n + csz - 1)%nat with (m + (n / csz + 1) * csz)%nat by nia. rewrite Nat.div_add by lia. rewrite (Nat.div_small m) by lia. lia.
Qed.

Lemma cost_of : forall data centers assign, length assign = length data -> cost data centers assign = isum (fun p => exact_l2 (nth p data []) (nth (nth p assign 0%nat) centers [])) (seq 0 (length data)).
Proof.
  intros data centers assign L. rewrite <- (cost_isum data centers (fun p => nth p assign 0%nat)). f_equal. rewrite <- L. clear L. induction assign as [|a l IH]; [reflexivity|]. cbn [length seq map nth]. rewrite <- seq_shift, map_map. f_equal. exact IH.
Qed.

Lemma residual_near : forall nrm2 ws popf mbs csz rdist dim (data : list (list f32)) orders (centers : list (list f32)) assign0 B C st, pops popf -> (1 <= mbs)%nat -> (1 <= csz)%nat -> data <> [] -> centers <> [] ->
  block_orders (length data) 1 (min (length data) mbs) orders -> (Z.of_nat dim <= 2 ^ 20)%Z -> (Z.of_nat (length data) <= 2 ^ 28)%Z -> block_ways_ok dim ws -> length assign0 = length data ->
  vectors dim B data -> vectors dim C centers -> 0 <= B <= powerRZ 2 100 -> 0 <= C <= powerRZ 2 100 -> (forall r, In r data \/ In r centers -> norm_near r (nrm2 r)) ->
  adds_squares dim rdist -> let k := (csz + (length data + csz - 1) / csz)%nat in (Z.of_nat k <= 2 ^ 22)%Z ->
  lloyd_iter_on nrm2 ws popf mbs csz rdist (length data) dim (length centers) data orders centers assign0 = Ok st -> finite (ll_res st) ->
  Rabs (real (ll_res st) - cost data (ll_centers st) (ll_assign st)) <= (INR dim + 2 + 2 * INR k) * powerRZ 2 (-23) * cost data (ll_centers st) (ll_assign st) + INR (length data) * INR dim * powerRZ 2 (-148).
Proof.
  intros nrm2 ws popf mbs csz rdist dim data orders centers assign0 B C st Hp Hm Hcs Hn Hnc Ho Ld LN HW La VD VC PB PC HN AS k Hk Hr F.
  destruct (iteration_ok nrm2 ws popf mbs csz rdist dim data orders centers assign0 B C) as [st' [Hr' [La' [Ca [Lc' [Vc' _]]]]]]; auto. rewrite Hr in Hr'. injection Hr' as <-.
  unfold lloyd_iter_on in Hr. apply bind_ok in Hr. destruct Hr as [dm [_ Hr]]. apply step_residual in Hr; [|exact Hcs]. rewrite Hr in F |- *. rewrite (cost_of data (ll_centers st) (ll_assign st) La').
  set (cen := fun p => nth (nth p (ll_assign st) 0%nat) (ll_centers st) []) in *. set (dist := fun p => rdist (nth p data []) (cen p)) in *. change (fun p => rdist (nth p data []) (nth (nth p (ll_assign st) 0%nat) (ll_centers st) [])) with dist in *.
  change (isum (fun p => exact_l2 (nth p data []) (nth (nth p (ll_assign st) 0%nat) (ll_centers st) [])) (seq 0 (length data))) with (isum (fun p => exact_l2 (nth p data []) (cen p)) (seq 0 (length data))). set (n := length data) in *. set (ex := fun p => exact_l2 (nth p data []) (cen p)). change (fun p => exact_l2 (nth p data []) (cen p)) with ex.
  assert (Row : forall p, (p < n)%nat -> length (nth p data []) = dim /\ good (nth p data []) /\ length (cen p) = dim /\ good (cen p)).
  { intros p Hp'. assert (I1 : In (nth p data []) data) by (apply nth_In; exact Hp'). destruct (vectors_good _ _ _ _ VD I1) as [L1 [G1 _]].
    assert (I2 : In (cen p) (ll_centers st)) by (apply nth_In; unfold f32 in *; rewrite Lc'; apply Ca, nth_In; rewrite La'; exact Hp'). destruct (vectors_good _ _ _ _ Vc' I2) as [L2 [G2 _]]. auto. }
  assert (Dp : forall p, (p < n)%nat -> finite (dist p) -> f32_valid (dist p) = true /\ Rabs (real (dist p) - ex p) <= (INR dim + 2) * powerRZ 2 (-23) * ex p + INR dim * powerRZ 2 (-149)).
  { intros p Hp' Fp. destruct (Row p Hp') as [L1 [G1 [L2 G2]]]. destruct (AS (nth p data []) (cen p) L1 L2) as [t [f [Pt [Ct Et]]]]. rewrite <- L1 in Pt. fold (dist p) in Et. split; [apply (l2_valid f (nth p data []) (cen p)); auto|].
    pose proof (l2_error_simple t f (nth p data []) (cen p) (dist p)) as Le. rewrite L1 in Le. apply Le; auto; [lia|rewrite <- L1; exact Pt]. }
  destruct (total_error dist csz n Hcs (fun p Hp' Fp => proj1 (Dp p Hp' Fp)) F) as [Fd T]. fold k in T.
  pose proof (pos_INR dim) as Pd. pose proof (pos_INR n) as Pn. pose proof (pos_INR k) as Pk. pose proof ulp_pos as PU. assert (P149 : 0 < powerRZ 2 (-149)) by (apply powerRZ_lt; lra).
  assert (U : powerRZ 2 (-23) = 2 * ulp) by (unfold ulp; change (-23)%Z with (1 + -24)%Z; rewrite powerRZ_add by lra; rewrite powerRZ_1; ring).
  assert (T148 : powerRZ 2 (-148) = 2 * powerRZ 2 (-149)) by (change (-148)%Z with (1 + -149)%Z; rewrite powerRZ_add by lra; rewrite powerRZ_1; ring).
  set (dl := (INR dim + 2) * powerRZ 2 (-23)) in *. set (tt := INR dim * powerRZ 2 (-149)) in *. assert (Ptt : 0 <= tt) by (unfold tt; nra).
  assert (Ex : forall p, 0 <= ex p) by (intros p; apply l2_nonneg). set (S := isum ex (seq 0 n)) in *. assert (PS : 0 <= S) by (apply isum_nonneg; auto).
  assert (K1 : INR k * ulp <= / 4). { apply Rle_trans with (Raux.bpow Zaux.radix2 (22 - 24)); [apply INR_ulp; lia|]. cbn. lra. }
  assert (D1 : dl <= 1). { unfold dl. rewrite U. assert (INR dim * ulp <= / 16) by (apply Rle_trans with (Raux.bpow Zaux.radix2 (20 - 24)); [apply INR_ulp; lia|cbn; lra]). assert (ulp <= / 16) by (unfold ulp; rewrite <- pw; replace (/ 16) with (Raux.bpow Zaux.radix2 (-4)) by (cbn; lra); apply Raux.bpow_le; lia). lra. }
  assert (Pdl : 0 <= dl) by (unfold dl; rewrite U; nra).
  assert (EK : E k - 1 <= 2 * INR k * ulp) by (apply E_lin; lra).
  assert (A1 : Rabs (isum (fun p => real (dist p)) (seq 0 n) - S) <= dl * S + INR n * tt).
  { assert (EQ : dl * S + INR n * tt = isum (fun p => dl * ex p + tt) (seq 0 n)) by (rewrite isum_plus, isum_scale, isum_const, seq_length; reflexivity). rewrite EQ. unfold S. replace (isum (fun p => real (dist p)) (seq 0 n) - isum ex (seq 0 n)) with (isum (fun p => real (dist p) - ex p) (seq 0 n)).
    - apply isum_abs. intros p Hp'. apply in_seq in Hp'. apply Dp; [lia|apply Fd; lia].
    - unfold Rminus. rewrite isum_plus. f_equal. transitivity (isum (fun c => (-1) * ex c) (seq 0 n)); [apply isum_ext; intros; ring|]. rewrite isum_scale. ring. }
  assert (A2 : isum (fun p => Rabs (real (dist p))) (seq 0 n) <= (1 + dl) * S + INR n * tt).
  { apply Rle_trans with (isum (fun p => (1 + dl) * ex p + tt) (seq 0 n)).
    - apply isum_mono. intros p Hp'. apply in_seq in Hp'. destruct (Dp p ltac:(lia) (Fd p ltac:(lia))) as [_ Bp]. replace (real (dist p)) with ((real (dist p) - ex p) + ex p) by ring. eapply Rle_trans; [apply Rabs_triang|]. rewrite (Rabs_pos_eq (ex p)) by auto. lra.
    - rewrite isum_plus, isum_scale, isum_const, seq_length. unfold S. lra. }
  assert (PA : 0 <= isum (fun p => Rabs (real (dist p))) (seq 0 n)) by (apply isum_nonneg; intros; apply Rabs_pos).
  set (tot := real (total_dist dist csz n)) in *. replace (tot - S) with ((tot - isum (fun p => real (dist p)) (seq 0 n)) + (isum (fun p => real (dist p)) (seq 0 n) - S)) by ring. eapply Rle_trans; [apply Rabs_triang|].
  assert (G1 : (E k - 1) * isum (fun p => Rabs (real (dist p))) (seq 0 n) <= 2 * INR k * ulp * ((1 + dl) * S + INR n * tt)).
  { apply Rmult_le_compat; auto. pose proof (E_ge k). lra. }
  assert (G2 : 2 * INR k * ulp * ((1 + dl) * S) <= 2 * INR k * ulp * (2 * S)) by (apply Rmult_le_compat_l; nra).
  assert (G3 : 2 * INR k * ulp * (INR n * tt) <= 1 * (INR n * tt)) by (apply Rmult_le_compat_r; nra).
  replace ((INR dim + 2 + 2 * INR k) * powerRZ 2 (-23) * S) with (dl * S + 2 * INR k * ulp * (2 * S)) by (unfold dl; rewrite U; ring). replace (INR n * INR dim * powerRZ 2 (-148)) with (2 * (INR n * tt)) by (unfold tt; rewrite T148; ring). lra.
Qed.

(** The loop as the source has it is one of the orders. *)
Fixpoint comb (n : nat) : red := match n with O => RZero | S k => RAdd (comb k) (RItem k) end.
Fixpoint fcomb (n : nat) : fred := match n with O => FZero | S k => FAdd (fcomb k) (FItem k) end.
Lemma comb_items : forall n, red_items (comb n) = seq 0 n.
Proof. induction n as [|n IH]; [reflexivity|]. cbn [comb red_items]. rewrite IH, seq_S. reflexivity. Qed.
Lemma comb_contracts : forall n, contracts (comb n) (fcomb n).
Proof. induction n; cbn; constructor; auto; constructor. Qed.
Lemma firstn_snoc : forall n (l : list f32) z, nth_error l n = Some z -> firstn (S n) l = firstn n l ++ [z].
Proof. induction n as [|n IH]; intros [|w l] z H; cbn in *; try discriminate; [now injection H as ->|]. f_equal. auto. Qed.
Lemma fcomb_eval : forall n a b, (n <= length a)%nat -> (n <= length b)%nat -> l2_fused (fcomb n) a b = Ok (calc_distance (firstn n a) (firstn n b)).
Proof.
  intros n a b La Lb. induction n as [|n IH]; [reflexivity|]. specialize (IH ltac:(lia) ltac:(lia)). unfold l2_fused in *. cbn [fcomb fred_eval]. rewrite IH. cbn [bind].
  assert (Na : exists x, nth_error a n = Some x) by (destruct (nth_error a n) eqn:X; [eauto|apply nth_error_None in X; lia]). assert (Nb : exists y, nth_error b n = Some y) by (destruct (nth_error b n) eqn:X; [eauto|apply nth_error_None in X; lia]).
  destruct Na as [x Ex]. destruct Nb as [y Ey]. unfold rd. rewrite Ex, Ey. cbn [bind fst snd]. f_equal. unfold calc_distance.
  rewrite (firstn_snoc n a x Ex), (firstn_snoc n b y Ey). assert (Cm : forall (l m : list f32), length l = length m -> combine (l ++ [x]) (m ++ [y]) = combine l m ++ [(x, y)]).
  { induction l as [|u l IHl]; intros [|v m] H; cbn in *; try discriminate; [reflexivity|]. f_equal. auto. }
  rewrite Cm by (rewrite !firstn_length; lia). rewrite fold_left_app. reflexivity.
Qed.
Lemma calc_adds : forall dim, adds_squares dim calc_distance.
Proof.
  intros dim a b La Lb. exists (comb dim), (fcomb dim). split; [rewrite comb_items; apply Permutation_refl|]. split; [apply comb_contracts|]. rewrite fcomb_eval by lia. rewrite !firstn_all2 by lia. reflexivity.
Qed.

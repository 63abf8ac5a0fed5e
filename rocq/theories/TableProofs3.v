(** One row of the table of work: the other tools, bounds, longer lists. *)
From Coq Require Import ZArith NArith Reals Lra Lia List Arith Bool Permutation Floats.SpecFloat.
From Flocq Require Import Core.
From Verif Require Import Base Float32 DistSpec DistModel LloydModel RealSpec FloatReal RealDistProofs NormModel NormSpec NormProofs StatsModel StatsSpec StatsProofs StatsProofs4 RandProofs
  PoolModel TopKSpec SortSpec GraphSpec GreedyModel SearchModel SearchSpec FilterSpec ClosestModel ClosestSpec FlatModel FlatSpec IvfModel IvfProofs HnswModel HnswSpec LongerSpec WorkModel WorkSpec WorkProofs WorkProofs2 TableModel TableSpec TableProofs TableProofs2.
Import ListNotations.

(** ** Relative neighbourhood graph *)
Lemma rng_table : forall sortf sortd tc th ix dist nq L recall_at filters order,
  sorts sortf -> sorts_doubles sortd -> index_ok ix -> 1 <= L -> recall_at <= L + 1 -> (forall q id, is_nan (dist q id) = false) ->
  1 <= nq -> (Z.of_nat nq <= 2 ^ 32)%Z -> (Z.of_nat (nq * ix_n ix) <= 2 ^ 53)%Z ->
  Permutation order (seq 0 nq) -> Permutation (red_items tc) (seq 0 nq) -> Permutation (red_items th) (seq 0 nq) ->
  exists r works, rng_columns sortf sortd tc th ix dist nq L recall_at filters order = Ok r /\ length works = nq /\
    (forall q w, nth_error works q = Some w -> exists ind dst count,
      rng_search_counted sortf ix (dist q) L recall_at filters (repeat 0 recall_at) (repeat f32_zero recall_at) (Some (0, 0)) = Ok (ind, dst, count, Some (length (v_expanded w), length (v_compared w))) /\
      count <= length (v_expanded w) /\ v_starts w = [ix_start ix] /\
      work (fun _ => true) (ix_graph ix) (ix_n ix) (v_starts w) (v_expanded w) (v_compared w)) /\
    shows_mean (mean_cmps r) (map (fun w => length (v_compared w)) works) /\ shows_mean (mean_hops r) (map (fun w => length (v_expanded w)) works) /\
    shows_999 (cmps_999 r) (map (fun w => length (v_compared w)) works) /\ shows_999 (hops_999 r) (map (fun w => length (v_expanded w)) works).
Proof.
  intros sortf sortd tc th ix dist nq L k fs order Hs Sd Hix HL Hk Hn L1 L2 B Po Pc Ph.
  destruct (collect_all visit (fun q w => exists ind dst count,
      rng_search_counted sortf ix (dist q) L k fs (repeat 0 k) (repeat f32_zero k) (Some (0, 0)) = Ok (ind, dst, count, Some (length (v_expanded w), length (v_compared w))) /\
      count <= length (v_expanded w) /\ v_starts w = [ix_start ix] /\ work (fun _ => true) (ix_graph ix) (ix_n ix) (v_starts w) (v_expanded w) (v_compared w)) nq) as [ws [Lw Hw]].
  { intros q _. destruct (rng_work sortf ix (dist q) L k fs (repeat 0 k) (repeat f32_zero k) 0 0) as [ex [cm [ids [i' [d' [E1 [_ [_ [Rp [Hin W]]]]]]]]]]; auto; try (rewrite repeat_length; lia).
    exists (mkVisit [ix_start ix] ex cm), i', d', (length ids). cbn [v_starts v_expanded v_compared]. split; [exact E1|]. split; [|auto].
    apply NoDup_incl_length; [|exact Hin]. apply Rp. }
  destruct (table_of _ (fun q c => rng_search_counted sortf ix (dist q) L k fs (repeat 0 k) (repeat f32_zero k) c) nq (ix_n ix) sortd tc th order visit (fun w => length (v_expanded w)) (fun w => length (v_compared w)) ws Sd L1 L2 B Po Pc Ph Lw) as [r [E M]].
  { intros q w Hq. destruct (Hw q w Hq) as [i [d [c [Q [_ [_ W]]]]]]. split; [exists (i, d, c); exact Q|]. exact (work_sizes _ _ _ _ _ _ W). }
  exists r, ws. auto.
Qed.

(** ** HNSW *)
Lemma descent_sizes : forall levels ws, descent levels ws -> total v_expanded ws <= list_sum (map ix_n levels) /\ total v_compared ws <= list_sum (map ix_n levels).
Proof.
  unfold total. induction levels as [|ix inner IH]; intros [|w ws] D; try (destruct D; fail); [cbn; lia|]. destruct D as [W [_ D]]. destruct (work_sizes _ _ _ _ _ _ W). destruct (IH ws D).
  unfold list_sum in *. cbn [map fold_right]. lia.
Qed.

Lemma hnsw_table : forall sortf sortd tc th levels dist nq L recall_at filters order,
  sorts sortf -> sorts_doubles sortd -> levels_ok levels -> 1 <= L -> recall_at <= L -> (forall q id, is_nan (dist q id) = false) ->
  1 <= nq -> (Z.of_nat nq <= 2 ^ 32)%Z -> (Z.of_nat (nq * list_sum (map ix_n levels)) <= 2 ^ 53)%Z ->
  Permutation order (seq 0 nq) -> Permutation (red_items tc) (seq 0 nq) -> Permutation (red_items th) (seq 0 nq) ->
  exists r works, hnsw_columns sortf sortd tc th levels dist nq L recall_at filters order = Ok r /\ length works = nq /\
    (forall q ws, nth_error works q = Some ws -> exists ind dst count,
      hnsw_search_counted sortf levels (dist q) L recall_at filters (repeat 0 recall_at) (repeat f32_zero recall_at) (Some (0, 0)) = Ok (ind, dst, count, Some (total v_expanded ws, total v_compared ws)) /\
      descent levels ws) /\
    shows_mean (mean_cmps r) (map (total v_compared) works) /\ shows_mean (mean_hops r) (map (total v_expanded) works) /\
    shows_999 (cmps_999 r) (map (total v_compared) works) /\ shows_999 (hops_999 r) (map (total v_expanded) works).
Proof.
  intros sortf sortd tc th levels dist nq L k fs order Hs Sd Hlv HL Hk Hn L1 L2 B Po Pc Ph. destruct levels as [|ix inner]; [destruct Hlv|].
  destruct (collect_all (list visit) (fun q ws => exists ind dst count,
      hnsw_search_counted sortf (ix :: inner) (dist q) L k fs (repeat 0 k) (repeat f32_zero k) (Some (0, 0)) = Ok (ind, dst, count, Some (total v_expanded ws, total v_compared ws)) /\ descent (ix :: inner) ws) nq) as [works [Lw Hw]].
  { intros q _. destruct (hnsw_work sortf L k Hs HL Hk inner ix (dist q) fs (repeat 0 k) (repeat f32_zero k) 0 0 Hlv (Hn q)) as [w [ws [ids [i' [d' [E1 [_ [_ [_ [_ D]]]]]]]]]]; try (rewrite repeat_length; lia).
    exists (w :: ws), i', d', (length ids). split; [exact E1|exact D]. }
  destruct (table_of _ (fun q c => hnsw_search_counted sortf (ix :: inner) (dist q) L k fs (repeat 0 k) (repeat f32_zero k) c) nq (list_sum (map ix_n (ix :: inner))) sortd tc th order (list visit) (total v_expanded) (total v_compared) works Sd L1 L2 B Po Pc Ph Lw) as [r [E M]].
  { intros q w Hq. destruct (Hw q w Hq) as [i [d [c [Q D]]]]. split; [exists (i, d, c); exact Q|]. exact (descent_sizes _ _ D). }
  exists r, works. auto.
Qed.

(** ** IVF *)
Lemma ivf_table : forall popf mbs sortd tc th ix cdist dist nq probe recall_at filters order,
  pops popf -> 1 <= mbs -> sorts_doubles sortd -> ivf_ok ix -> probe <= ivf_nc ix -> 1 <= recall_at ->
  (filters = [] \/ length (pts_to_labels (ivf_labels ix)) = ivf_n ix) ->
  (forall q c, is_nan (cdist q c) = false) -> (forall q, exists c, c < ivf_nc ix /\ flt (cdist q c) FLT_MAX = true) -> (forall q, finite_distances (ivf_n ix) (dist q)) ->
  1 <= nq -> (Z.of_nat nq <= 2 ^ 32)%Z -> (Z.of_nat (nq * ivf_n ix) <= 2 ^ 53)%Z ->
  Permutation order (seq 0 nq) -> Permutation (red_items tc) (seq 0 nq) -> Permutation (red_items th) (seq 0 nq) ->
  exists r works, ivf_columns popf mbs sortd tc th ix cdist dist nq probe recall_at filters order = Ok r /\ length works = nq /\
    (forall q compared, nth_error works q = Some compared -> exists acc probed,
      filter_test (universal_of (ivf_labels ix)) (pts_to_labels (ivf_labels ix)) filters acc /\
      length probed = probe /\ NoDup probed /\ is_top_k probe (score (cdist q) (seq 0 (ivf_nc ix))) (score (cdist q) probed) /\
      NoDup compared /\ (forall x, In x compared <-> acc x = true /\ exists c l, In c probed /\ nth_error (ivf_inv ix) c = Some l /\ In x l)) /\
    shows_mean (mean_cmps r) (map (@length nat) works) /\ shows_999 (cmps_999 r) (map (@length nat) works) /\
    real (mean_hops r) = 0%R /\ real (hops_999 r) = 0%R.
Proof.
  intros popf mbs sortd tc th ix cdist dist nq probe k fs order Hp Hm Sd Hix Hpr Hk Hf Hcn Hcf Hfd L1 L2 B Po Pc Ph.
  destruct (collect_all (list nat) (fun q compared => (exists acc probed,
      filter_test (universal_of (ivf_labels ix)) (pts_to_labels (ivf_labels ix)) fs acc /\
      length probed = probe /\ NoDup probed /\ is_top_k probe (score (cdist q) (seq 0 (ivf_nc ix))) (score (cdist q) probed) /\
      NoDup compared /\ (forall x, In x compared <-> acc x = true /\ exists c l, In c probed /\ nth_error (ivf_inv ix) c = Some l /\ In x l)) /\
      exists a, ivf_search_counted popf mbs ix (cdist q) (dist q) probe k fs (repeat 0 k) (Some (repeat f32_zero k)) (Some (0, 0)) = Ok (a, Some (0, length compared))) nq) as [works [Lw Hw]].
  { intros q _. destruct (ivf_work popf mbs ix (cdist q) (dist q) probe k fs (repeat 0 k) (Some (repeat f32_zero k)) 0 0) as [acc [pr [cm [ids [i' [d' [Ft [A1 [A2 [A3 [A4 [E1 [_ [A5 [A6 _]]]]]]]]]]]]]]]; auto.
    - split; [rewrite repeat_length; lia|]. intros d Ed. injection Ed as <-. rewrite repeat_length. lia.
    - exists cm. split; [exists acc, pr; auto 10|]. exists (i', d', length ids). exact E1. }
  destruct (table_of _ (fun q c => ivf_search_counted popf mbs ix (cdist q) (dist q) probe k fs (repeat 0 k) (Some (repeat f32_zero k)) c) nq (ivf_n ix) sortd tc th order (list nat) (fun _ => 0) (@length nat) works Sd L1 L2 B Po Pc Ph Lw) as [r [E [M1 [M2 [M3 M4]]]]].
  { intros q cm Hq. destruct (Hw q cm Hq) as [[acc [pr [_ [_ [_ [_ [Nd Hx]]]]]]] Q]. split; [exact Q|]. split; [lia|]. apply nodup_below; [exact Nd|].
    intros x Hi. apply Hx in Hi. destruct Hi as [_ [c [l [_ [El Il]]]]]. destruct Hix as [_ Hlt]. apply (Hlt l x); [exact (nth_error_In _ _ El)|exact Il]. }
  exists r, works. split; [exact E|]. split; [exact Lw|]. split; [intros q cm Hq; apply (Hw q cm Hq)|]. split; [exact M1|]. split; [exact M3|].
  assert (Z : list_sum (map (fun _ : list nat => 0) works) = 0) by (clear; induction works; cbn; auto). split.
  - destruct M2 as [_ M2]. rewrite Z in M2. change (INR 0) with 0%R in M2. unfold Rdiv in M2. rewrite Rmult_0_l, Rmult_0_r, Rminus_0_r in M2. pose proof (Rabs_pos (real (mean_hops r))). apply Rabs_eq_R0. lra.
  - destruct M4 as [_ [v [rk [[Iv _] [_ [M4 _]]]]]]. assert (v = 0) as -> by (apply in_map_iff in Iv; destruct Iv as [? [<- _]]; reflexivity). change (INR 0) with 0%R in M4. rewrite Rmult_0_r, Rminus_0_r in M4. pose proof (Rabs_pos (real (hops_999 r))). apply Rabs_eq_R0. lra.
Qed.

(** ** Longer lists *)
Lemma vamana_table_longer : forall sortf sortd sortd' tc th tc' th' ix dist nq L L' recall_at filters order order',
  sorts sortf -> sorts_doubles sortd -> sorts_doubles sortd' -> index_ok ix -> 1 <= L -> L <= L' -> recall_at <= L + 1 -> (forall q id, is_nan (dist q id) = false) -> (forall q, no_ties (ix_n ix) (dist q)) ->
  (filters = [] \/ length (pts_to_labels (ix_labels ix)) = ix_n ix) -> length filters <= L ->
  1 <= nq -> (Z.of_nat nq <= 2 ^ 32)%Z -> (Z.of_nat (nq * ix_n ix) <= 2 ^ 53)%Z ->
  Permutation order (seq 0 nq) -> Permutation (red_items tc) (seq 0 nq) -> Permutation (red_items th) (seq 0 nq) ->
  Permutation order' (seq 0 nq) -> Permutation (red_items tc') (seq 0 nq) -> Permutation (red_items th') (seq 0 nq) ->
  exists r r', vamana_columns sortf sortd tc th ix dist nq L recall_at filters order = Ok r /\ vamana_columns sortf sortd' tc' th' ix dist nq L' recall_at filters order' = Ok r' /\
    (real (mean_cmps r) <= real (mean_cmps r') /\ real (mean_hops r) <= real (mean_hops r') /\ real (cmps_999 r) <= real (cmps_999 r') /\ real (hops_999 r) <= real (hops_999 r'))%R.
Proof.
  intros sortf sortd sortd' tc th tc' th' ix dist nq L L' k fs order order' Hs Sd Sd' Hix HL HLL Hk Hn Ht Hf Hfl L1 L2 B Po Pc Ph Po' Pc' Ph'.
  assert (HL' : 1 <= L') by lia. assert (Hk' : k <= L' + 1) by lia.
  set (P := fun q (w : (nat * nat) * (nat * nat)) =>
     (exists a, vamana_search_counted sortf ix (dist q) L k fs (repeat 0 k) (repeat f32_zero k) (Some (0, 0)) = Ok (a, Some (fst w))) /\
     (exists a, vamana_search_counted sortf ix (dist q) L' k fs (repeat 0 k) (repeat f32_zero k) (Some (0, 0)) = Ok (a, Some (snd w))) /\
     fst (fst w) <= fst (snd w) /\ snd (fst w) <= snd (snd w) /\ fst (snd w) <= ix_n ix /\ snd (snd w) <= ix_n ix).
  destruct (collect_all _ P nq) as [ws [Lw Hw]].
  { intros q _. destruct (vamana_work_longer sortf ix (dist q) L L' k k fs (repeat 0 k) (repeat f32_zero k) (repeat 0 k) (repeat f32_zero k) 0 0) as [r [h [c [r' [h' [c' [E [E' [Q1 Q2]]]]]]]]]; auto; try (rewrite repeat_length; lia).
    destruct (vamana_work sortf ix (dist q) L' k fs (repeat 0 k) (repeat f32_zero k) 0 0) as [acc [en [st [ex [cm [ids [i' [d' [_ [_ [_ [E1 [_ [_ [_ [_ [_ [W _]]]]]]]]]]]]]]]]]]; auto; try (rewrite repeat_length; lia).
    apply work_sizes in W. assert (X : h' = length ex /\ c' = length cm) by (rewrite E1 in E'; cbn [Nat.add] in E'; injection E' as _ -> ->; auto). destruct X as [-> ->].
    exists ((h, c), (length ex, length cm)). split; [exists r; exact E|]. split; [exists r'; exact E'|]. cbn [fst snd]. lia. }
  destruct (columns_ok nq L1 L2) as [rk [_ C]].
  assert (Mem : forall w, In w ws -> exists q, P q w) by (intros w Hi; apply In_nth_error in Hi; destruct Hi as [q Hq]; exists q; auto).
  assert (S1 : forall g : (nat * nat) * (nat * nat) -> nat, (forall q w, P q w -> g w <= ix_n ix) -> list_sum (map g ws) <= nq * ix_n ix).
  { intros g Hg. rewrite <- Lw, <- (map_length g ws). apply sum_bound. intros x Hx. apply in_map_iff in Hx. destruct Hx as [w [<- Hi]]. destruct (Mem w Hi) as [q Hq]. eauto. }
  destruct (C _ (fun q c => vamana_search_counted sortf ix (dist q) L k fs (repeat 0 k) (repeat f32_zero k) c) sortd tc th (map fst ws) order Sd) as [r [E F]]; auto.
  { now rewrite map_length. } { intros i c Hc. rewrite nth_error_map in Hc. destruct (nth_error ws i) as [w|] eqn:Ew; [|discriminate]. cbn in Hc. injection Hc as <-. apply (Hw i w Ew). }
  { rewrite map_map. pose proof (S1 (fun w => fst (fst w))). assert (list_sum (map (fun w => fst (fst w)) ws) <= nq * ix_n ix) by (apply H; intros q w [_ [_ Q]]; lia). lia. }
  { rewrite map_map. pose proof (S1 (fun w => snd (fst w))). assert (list_sum (map (fun w => snd (fst w)) ws) <= nq * ix_n ix) by (apply H; intros q w [_ [_ Q]]; lia). lia. }
  destruct (C _ (fun q c => vamana_search_counted sortf ix (dist q) L' k fs (repeat 0 k) (repeat f32_zero k) c) sortd' tc' th' (map snd ws) order' Sd') as [r' [E' F']]; auto.
  { now rewrite map_length. } { intros i c Hc. rewrite nth_error_map in Hc. destruct (nth_error ws i) as [w|] eqn:Ew; [|discriminate]. cbn in Hc. injection Hc as <-. apply (Hw i w Ew). }
  { rewrite map_map. pose proof (S1 (fun w => fst (snd w))). assert (list_sum (map (fun w => fst (snd w)) ws) <= nq * ix_n ix) by (apply H; intros q w [_ [_ Q]]; lia). lia. }
  { rewrite map_map. pose proof (S1 (fun w => snd (snd w))). assert (list_sum (map (fun w => snd (snd w)) ws) <= nq * ix_n ix) by (apply H; intros q w [_ [_ Q]]; lia). lia. }
  exists r, r'. split; [exact E|]. split; [exact E'|].
  assert (G : forall f : nat * nat -> nat, (forall q w, P q w -> f (fst w) <= f (snd w)) -> Forall2 le (map f (map fst ws)) (map f (map snd ws))).
  { intros f Hg. clear -Mem Hg. induction ws as [|w ws IH]; cbn [map]; constructor. - destruct (Mem w (or_introl eq_refl)) as [q Hq]. eauto. - apply IH. intros v Hv. apply Mem. now right. }
  apply (facts_le rk r r' (map fst ws) (map snd ws)); auto; [rewrite map_length; lia|apply G; intros q w [_ [_ Q]]; lia|apply G; intros q w [_ [_ Q]]; lia].
Qed.

(** ** A list with room for everything *)
Lemma vamana_table_full : forall sortf sortd tc th ix dist nq L recall_at order,
  sorts sortf -> sorts_doubles sortd -> index_ok ix -> ix_n ix <= L -> recall_at <= L + 1 -> (forall q id, is_nan (dist q id) = false) ->
  (forall x, x < ix_n ix -> reach (fun _ => true) (ix_graph ix) (fun y => y = ix_start ix) x) ->
  1 <= nq -> (Z.of_nat nq <= 2 ^ 29)%Z -> (Z.of_nat (ix_n ix) <= 2 ^ 24)%Z ->
  Permutation order (seq 0 nq) -> Permutation (red_items tc) (seq 0 nq) -> Permutation (red_items th) (seq 0 nq) ->
  exists r, vamana_columns sortf sortd tc th ix dist nq L recall_at [] order = Ok r /\
    (real (mean_cmps r) = INR (ix_n ix - 1) /\ real (mean_hops r) = INR (ix_n ix) /\ real (cmps_999 r) = INR (ix_n ix - 1) /\ real (hops_999 r) = INR (ix_n ix))%R.
Proof.
  intros sortf sortd tc th ix dist nq L k order Hs Sd Hix HL Hk Hn Hr L1 L2 B Po Pc Ph.
  destruct (columns_ok nq L1 ltac:(lia)) as [rk [_ C]]. assert (Bq : (Z.of_nat (nq * ix_n ix) <= 2 ^ 53)%Z) by (rewrite Nat2Z.inj_mul; change (2 ^ 53)%Z with (2 ^ 29 * 2 ^ 24)%Z; apply Z.mul_le_mono_nonneg; lia).
  assert (Lr : forall v : nat * nat, length (repeat v nq) = nq) by (intros; apply repeat_length).
  assert (Mp : forall (f : nat * nat -> nat) v, map f (repeat v nq) = repeat (f v) nq). { intros f v. clear. induction nq as [|m IH]; cbn; [reflexivity|now f_equal]. }
  destruct (C _ (fun q c => vamana_search_counted sortf ix (dist q) L k [] (repeat 0 k) (repeat f32_zero k) c) sortd tc th (repeat (ix_n ix, ix_n ix - 1) nq) order Sd (Lr _) Po Pc Ph) as [r [E F]].
  - intros i c Hc. apply nth_error_In in Hc. apply repeat_spec in Hc. subst c.
    destruct (vamana_work_full sortf ix (dist i) L k (repeat 0 k) (repeat f32_zero k) 0 0) as [a [d [n Q]]]; auto; try (rewrite repeat_length; lia). exists (a, d, n). exact Q.
  - rewrite Mp, list_sum_repeat. exact Bq.
  - rewrite Mp, list_sum_repeat. cbn [snd]. assert (nq * (ix_n ix - 1) <= nq * ix_n ix) by (apply Nat.mul_le_mono_l; lia). lia.
  - exists r. split; [exact E|]. destruct F as [vc [vh [_ [A2 [_ [A4 [_ [A6 [A7 [_ [A9 A10]]]]]]]]]]]. rewrite Mp in *. cbn [fst snd] in *.
    destruct A7 as [A7 _]. apply repeat_spec in A7. destruct A10 as [A10 _]. apply repeat_spec in A10. subst vc vh. rewrite A2, A4, A6, A9, !mean_const by lia.
    split; [reflexivity|]. split; [reflexivity|]. split; rewrite INR_IZR_INZ; [apply (int_rnd (Z.of_nat (ix_n ix - 1))); lia|apply (int_rnd (Z.of_nat (ix_n ix))); lia].
Qed.

(** ** Bounds on the columns *)
Lemma two_floats : forall a b c e : R, (0 <= a -> 0 <= b -> 0 <= e <= / 1000000 -> a <= (1 + e) * c -> (1 - e) * c <= b -> 0 <= c -> a <= (1 + 4 * e) * b)%R.
Proof. intros a b c e Ha Hb He H1 H2 Hc. apply Rle_trans with (1 := H1). apply Rle_trans with ((1 + 4 * e) * ((1 - e) * c))%R; [|apply Rmult_le_compat_l; lra]. rewrite <- Rmult_assoc. apply Rmult_le_compat_r; [exact Hc|]. nra. Qed.

Lemma pow_23 : (0 <= powerRZ 2 (-23) <= / 1000000)%R /\ (powerRZ 2 (-21) = 4 * powerRZ 2 (-23))%R.
Proof.
  assert (A : powerRZ 2 (-23) = (/ 8388608)%R) by (transitivity (bpow radix2 (-23)); [rewrite bpow_powerRZ; reflexivity|reflexivity]).
  assert (B : powerRZ 2 (-21) = (/ 2097152)%R) by (transitivity (bpow radix2 (-21)); [rewrite bpow_powerRZ; reflexivity|reflexivity]). rewrite A, B. lra.
Qed.

Lemma Forall2_maps : forall (W : Type) (P : nat -> nat -> Prop) (f g : W -> nat) ws, (forall w, In w ws -> P (f w) (g w)) -> Forall2 P (map f ws) (map g ws).
Proof. induction ws as [|w ws IH]; intros H; cbn; constructor; [apply H; now left|]. apply IH. intros v Hv. apply H. now right. Qed.

Lemma list_sum_maps : forall (W : Type) (f g : W -> nat) ws, (forall w, In w ws -> f w <= g w) -> list_sum (map f ws) <= list_sum (map g ws).
Proof. intros W f g ws H. apply sum_le. now apply (Forall2_maps W le). Qed.
Lemma list_sum_lin : forall (W : Type) a b (g : W -> nat) ws, list_sum (map (fun w => a + b * g w) ws) = length ws * a + b * list_sum (map g ws).
Proof. unfold list_sum. induction ws as [|w ws IH]; cbn [map fold_right length]; [lia|]. rewrite IH. lia. Qed.

Lemma vamana_table_bounds : forall sortf sortd tc th ix dist nq L recall_at R order,
  sorts sortf -> sorts_doubles sortd -> index_ok ix -> 1 <= L -> recall_at <= L + 1 -> (forall q id, is_nan (dist q id) = false) ->
  (forall x l, nth_error (ix_graph ix) x = Some l -> length l <= R) ->
  1 <= nq -> (Z.of_nat nq <= 2 ^ 29)%Z -> (Z.of_nat (ix_n ix) <= 2 ^ 24)%Z ->
  Permutation order (seq 0 nq) -> Permutation (red_items tc) (seq 0 nq) -> Permutation (red_items th) (seq 0 nq) ->
  exists r, vamana_columns sortf sortd tc th ix dist nq L recall_at [] order = Ok r /\
    (0 <= real (mean_cmps r) <= INR (ix_n ix - 1) /\ 0 <= real (mean_hops r) <= INR (ix_n ix) /\
     0 <= real (cmps_999 r) <= INR (ix_n ix - 1) /\ 0 <= real (hops_999 r) <= INR (ix_n ix) /\
     real (cmps_999 r) <= INR R * real (hops_999 r) /\ real (hops_999 r) <= 1 + real (cmps_999 r) /\
     real (mean_cmps r) <= (1 + powerRZ 2 (-21)) * (INR R * real (mean_hops r)))%R.
Proof.
  intros sortf sortd tc th ix dist nq L k R order Hs Sd Hix HL Hk Hn HR L1 L2 B Po Pc Ph.
  set (n := ix_n ix) in *. assert (Bq : (Z.of_nat (nq * n) <= 2 ^ 53)%Z) by (rewrite Nat2Z.inj_mul; change (2 ^ 53)%Z with (2 ^ 29 * 2 ^ 24)%Z; apply Z.mul_le_mono_nonneg; lia).
  destruct (collect_all (nat * nat) (fun q c => (exists a, vamana_search_counted sortf ix (dist q) L k [] (repeat 0 k) (repeat f32_zero k) (Some (0, 0)) = Ok (a, Some c)) /\
     fst c <= n /\ snd c <= n - 1 /\ snd c <= R * fst c /\ fst c <= 1 + snd c) nq) as [st [Ls Hst]].
  { intros q _. destruct (vamana_work sortf ix (dist q) L k [] (repeat 0 k) (repeat f32_zero k) 0 0) as [acc [en [s0 [ex [cm [ids [i' [d' [_ [_ [_ [E1 [_ [_ [_ [_ [_ [W _]]]]]]]]]]]]]]]]]]; auto; try (rewrite repeat_length; lia).
    cbn [Nat.add] in E1. destruct (vamana_work_bounds sortf ix (dist q) L k [] (repeat 0 k) (repeat f32_zero k) R _ _ _ _ _ Hs Hix HL (Hn q) (or_introl eq_refl) Hk ltac:(rewrite repeat_length; lia) ltac:(rewrite repeat_length; lia) HR E1) as [_ [B2 [B3 [B4 B5]]]].
    exists (length ex, length cm). split; [exists (i', d', length ids); exact E1|]. apply work_sizes in W. specialize (B5 eq_refl). cbn [fst snd length Nat.max] in *. fold n in W, B5. assert (Nat.min L (Nat.max 1 0) <= 1) by lia. lia. }
  assert (Mem : forall c, In c st -> fst c <= n /\ snd c <= n - 1 /\ snd c <= R * fst c /\ fst c <= 1 + snd c) by (intros c Hi; apply In_nth_error in Hi; destruct Hi as [q Hq]; apply (Hst q c Hq)).
  assert (Bf : list_sum (map fst st) <= nq * n) by (rewrite <- Ls, <- (map_length fst st); apply sum_bound; intros x Hx; apply in_map_iff in Hx; destruct Hx as [c [<- Hc]]; apply Mem, Hc).
  assert (Bs : list_sum (map snd st) <= nq * (n - 1)) by (rewrite <- Ls, <- (map_length snd st); apply sum_bound; intros x Hx; apply in_map_iff in Hx; destruct Hx as [c [<- Hc]]; apply Mem, Hc).
  assert (Bs' : list_sum (map snd st) <= nq * n) by (assert (nq * (n - 1) <= nq * n) by (apply Nat.mul_le_mono_l; lia); lia).
  destruct (columns_ok nq L1 ltac:(lia)) as [rk [Hrk C]].
  destruct (C _ (fun q c => vamana_search_counted sortf ix (dist q) L k [] (repeat 0 k) (repeat f32_zero k) c) sortd tc th st order Sd Ls Po Pc Ph) as [r [E F]]; [intros i c Hc; apply (Hst i c Hc)|lia|lia|].
  exists r. split; [exact E|]. destruct (facts_show nq rk r st Ls L1 ltac:(lia) Hrk F) as [[_ M1] [[_ M2] _]]; [lia|lia|].
  assert (Rl : (0 <= INR R)%R) by apply pos_INR. rewrite !map_length, Ls in M1, M2. destruct F as [vc [vh [_ [A2 [_ [A4 [_ [A6 [A7 [_ [A9 A10]]]]]]]]]]].
  assert (Ub : forall ks m, length ks = nq -> list_sum ks <= nq * m -> (Z.of_nat m <= 2 ^ 24)%Z -> (0 <= mean_value ks <= INR m)%R).
  { intros ks m Lk Hm Bm. rewrite <- (mean_const nq 0 L1 ltac:(lia)) at 1. split; [change (INR 0) with 0%R; rewrite (mean_const nq 0 L1 ltac:(lia)); change (INR 0) with 0%R|]; [|rewrite <- (mean_const nq m L1 Bm)]; [rewrite <- (mean_const nq 0 L1 ltac:(lia)) at 1 |]; apply mean_le; rewrite ?repeat_length, ?list_sum_repeat; try lia. }
  assert (Ic : In vc (map snd st)) by apply A7. assert (Ih : In vh (map fst st)) by apply A10. apply in_map_iff in Ic, Ih. destruct Ic as [c1 [Ec1 Ic]]. destruct Ih as [c2 [Ec2 Ih]]. apply Mem in Ic, Ih.
  assert (Gc : (rnd (INR vc) = INR vc)%R) by (rewrite INR_IZR_INZ; apply (int_rnd (Z.of_nat vc)); lia). assert (Gh : (rnd (INR vh) = INR vh)%R) by (rewrite INR_IZR_INZ; apply (int_rnd (Z.of_nat vh)); lia). rewrite Gc in A6. rewrite Gh in A9.
  split; [rewrite A2; apply Ub; [now rewrite map_length|exact Bs|lia]|]. split; [rewrite A4; apply Ub; [now rewrite map_length|exact Bf|lia]|].
  split; [rewrite A6; split; [apply pos_INR|apply le_INR; lia]|]. split; [rewrite A9; split; [apply pos_INR|apply le_INR; lia]|].
  split; [rewrite A6, A9, <- mult_INR; apply le_INR; apply (ranked_grow (fun y => R * y) (map snd st) (map fst st) vc vh rk); auto; [intros x y Hxy; apply Nat.mul_le_mono_l, Hxy|apply (Forall2_maps _ (fun x y => x <= R * y)); intros w Hi; apply Mem, Hi]|].
  split; [rewrite A6, A9; change 1%R with (INR 1); rewrite <- plus_INR; apply le_INR; apply (ranked_grow (fun y => 1 + y) (map fst st) (map snd st) vh vc rk); auto; [intros; lia|apply (Forall2_maps _ (fun x y => x <= 1 + y)); intros w Hi; apply Mem, Hi]|].
  assert (Sr : list_sum (map snd st) <= R * list_sum (map fst st)). { pose proof (list_sum_lin _ 0 R (@fst nat nat) st) as Q. rewrite Nat.mul_0_r in Q. cbn [Nat.add] in Q. rewrite <- Q. apply list_sum_maps. intros w Hi. apply Mem, Hi. }
  destruct pow_23 as [P1 P2]. rewrite P2. set (e := powerRZ 2 (-23)) in *. clearbody e.
  apply Raux.Rabs_le_inv in M1, M2. pose proof (lt_0_INR nq ltac:(lia)) as N1. apply le_INR in Sr. rewrite mult_INR in Sr.
  destruct (Ub (map snd st) (n - 1) ltac:(now rewrite map_length) Bs ltac:(lia)) as [U1 _]. destruct (Ub (map fst st) n ltac:(now rewrite map_length) Bf ltac:(lia)) as [U2 _]. rewrite <- A2 in U1. rewrite <- A4 in U2.
  assert (Q : (INR (list_sum (map snd st)) / INR nq <= INR R * (INR (list_sum (map fst st)) / INR nq))%R) by (unfold Rdiv; rewrite <- Rmult_assoc; apply Rmult_le_compat_r; [left; apply Rinv_0_lt_compat; lra|exact Sr]).
  assert (Q0 : (0 <= INR (list_sum (map fst st)) / INR nq)%R) by (apply Rmult_le_pos; [apply pos_INR|left; apply Rinv_0_lt_compat; lra]).
  set (sc := (INR (list_sum (map snd st)) / INR nq)%R) in *. set (sh := (INR (list_sum (map fst st)) / INR nq)%R) in *. clearbody sc sh.
  apply (two_floats _ _ (INR R * sh) e); auto; [apply Rmult_le_pos; lra| |rewrite (Rmult_comm (1 - e)), Rmult_assoc; apply Rmult_le_compat_l; lra|apply Rmult_le_pos; lra].
  apply Rle_trans with ((1 + e) * sc)%R; [lra|apply Rmult_le_compat_l; lra].
Qed.

(** ** At most a thousand queries: the largest count *)
Lemma rank_small : forallb (fun n => match to_u64 (fmul p999_f32 (f32_of_Z (Z.of_nat n))) with Ok k => (k + 1 =? N.of_nat n)%N | _ => false end) (seq 1 1000) = true.
Proof. vm_compute. reflexivity. Qed.

Lemma columns_small : forall (A : Type) (search : nat -> counters -> res (A * counters)) nq B sortd tc th order,
  1 <= nq -> nq <= 1000 -> (Z.of_nat B <= 2 ^ 24)%Z -> sorts_doubles sortd ->
  (forall q, q < nq -> exists a h c, search q (Some (0, 0)) = Ok (a, Some (h, c)) /\ h <= B /\ c <= B) ->
  Permutation order (seq 0 nq) -> Permutation (red_items tc) (seq 0 nq) -> Permutation (red_items th) (seq 0 nq) ->
  exists r mh mc, work_columns sortd tc th search nq order = Ok r /\ real (cmps_999 r) = INR mc /\ real (hops_999 r) = INR mh /\
    (forall q a h c, q < nq -> search q (Some (0, 0)) = Ok (a, Some (h, c)) -> h <= mh /\ c <= mc) /\
    (exists q a c, q < nq /\ search q (Some (0, 0)) = Ok (a, Some (mh, c))) /\ (exists q a h, q < nq /\ search q (Some (0, 0)) = Ok (a, Some (h, mc))).
Proof.
  intros A search nq B sortd tc th order L1 L2 Bd S H P1 P2 P3.
  destruct (collect_all (nat * nat) (fun q c => (exists a, search q (Some (0, 0)) = Ok (a, Some c)) /\ fst c <= B /\ snd c <= B) nq) as [st [Ls Hst]].
  { intros q Hq. destruct (H q Hq) as [a [h [c [E [Hh Hc]]]]]. exists (h, c). split; [exists a; exact E|]. auto. }
  assert (Hm : forall c, In c st -> exists q a, q < nq /\ search q (Some (0, 0)) = Ok (a, Some c) /\ fst c <= B /\ snd c <= B).
  { intros c Hc. apply In_nth_error in Hc. destruct Hc as [q Hq]. assert (q < nq) by (rewrite <- Ls; apply nth_error_Some; congruence). destruct (Hst q c Hq) as [[a E] Q]. exists q, a. auto. }
  assert (Bn : (Z.of_nat (nq * B) <= 2 ^ 53)%Z) by (rewrite Nat2Z.inj_mul; apply Z.le_trans with (1000 * 2 ^ 24)%Z; [apply Z.mul_le_mono_nonneg; lia|lia]).
  assert (Bf : list_sum (map fst st) <= nq * B) by (rewrite <- Ls, <- (map_length fst st); apply sum_bound; intros x Hx; apply in_map_iff in Hx; destruct Hx as [c [<- Hc]]; destruct (Hm c Hc) as [q [a [_ [_ Q]]]]; apply Q).
  assert (Bs : list_sum (map snd st) <= nq * B) by (rewrite <- Ls, <- (map_length snd st); apply sum_bound; intros x Hx; apply in_map_iff in Hx; destruct Hx as [c [<- Hc]]; destruct (Hm c Hc) as [q [a [_ [_ Q]]]]; apply Q).
  destruct (columns_ok nq L1 ltac:(lia)) as [k [[Lk [_ Tk]] C]]. destruct (C A search sortd tc th st order S Ls P1 P2 P3) as [r [E F]]; [intros i c Hc; apply (Hst i c Hc)|lia|lia|].
  assert (Ek : k = nq - 1). { pose proof rank_small as Q. rewrite forallb_forall in Q. specialize (Q nq (proj2 (in_seq 1000 1 nq) (conj L1 (proj2 (Nat.lt_succ_r nq 1000) L2)))). cbv beta in Q. rewrite Tk in Q. apply N.eqb_eq in Q. lia. }
  assert (Top : forall ks v, length ks = nq -> ranked Nat.ltb ks v k -> forall x, In x ks -> x <= v).
  { intros ks v Lks [_ [_ Hb]] x Hx. destruct (le_lt_dec x v) as [?|Lt]; [assumption|exfalso].
    assert (length (filter (fun y => negb (v <? y)) ks) < length ks); [|lia].
    clear -Hx Lt. induction ks as [|y ks IH]; [destruct Hx|]. cbn [filter]. destruct Hx as [->|Hx].
    - apply Nat.ltb_lt in Lt. rewrite Lt. cbn [negb length]. apply Nat.lt_succ_r. clear. induction ks as [|y ks IH]; [cbn; lia|]. cbn [filter]. destruct (negb (v <? y)); cbn [length]; lia.
    - specialize (IH Hx). destruct (negb (v <? y)); cbn [length]; lia. }
  destruct F as [vc [vh [_ [_ [_ [_ [_ [A6 [A7 [_ [A9 A10]]]]]]]]]]]. exists r, vh, vc. split; [exact E|].
  assert (Ic : In vc (map snd st)) by apply A7. assert (Ih : In vh (map fst st)) by apply A10. apply in_map_iff in Ic, Ih. destruct Ic as [[h1 c1] [Ec1 Ic]]. destruct Ih as [[h2 c2] [Ec2 Ih]]. cbn in Ec1, Ec2. subst vc vh.
  destruct (Hm _ Ic) as [q1 [a1 [Hq1 [E1 [_ Q1]]]]]. destruct (Hm _ Ih) as [q2 [a2 [Hq2 [E2 [Q2 _]]]]]. cbn [fst snd] in Q1, Q2.
  split; [rewrite A6, INR_IZR_INZ; apply (int_rnd (Z.of_nat c1)); lia|]. split; [rewrite A9, INR_IZR_INZ; apply (int_rnd (Z.of_nat h2)); lia|].
  split; [|split; [exists q2, a2, c2; auto|exists q1, a1, h1; auto]].
  intros q a h c Hq Es. destruct (nth_error st q) as [[h' c']|] eqn:En; [|apply nth_error_None in En; lia]. destruct (Hst q _ En) as [[a' E'] _]. rewrite Es in E'. injection E' as _ -> ->. apply nth_error_In in En.
  split; [apply (Top (map fst st) h2); [now rewrite map_length|exact A10|apply in_map_iff; exists (h', c'); auto]|apply (Top (map snd st) c1); [now rewrite map_length|exact A7|apply in_map_iff; exists (h', c'); auto]].
Qed.

From Coq Require Import String List Arith Lia Bool Sorting.Sorted Sorting.Permutation.
From Verif Require Import Base Float32 PoolModel TopKSpec SearchSpec ListLemmas PoolProofs2 PoolSafety FlatModel FlatSpec.
Import ListNotations.

Lemma firstn_S_nth : forall (A : Type) (l : list A) i x, nth_error l i = Some x -> firstn (S i) l = firstn i l ++ [x].
Proof.
  intros A l. induction l as [|y l IH]; intros i x H; destruct i; try discriminate; cbn in *.
  - congruence.
  - f_equal. apply IH. auto.
Qed.

Lemma firstn_wr : forall (A : Type) (a b : list A) i x, wr a i x = Ok b -> firstn (S i) b = firstn i a ++ [x] /\ same_from (S i) b a.
Proof.
  intros A a b i x H. assert (Hi : i < length a).
  { unfold wr in H. destruct (i <? length a) eqn:E; [apply Nat.ltb_lt; auto|discriminate]. }
  destruct (wr_nth _ a i x Hi) as [b' [E [L N]]]. assert (b' = b) by congruence. subst b'. split.
  - rewrite (firstn_S_nth _ b i x) by (rewrite N; destruct (Nat.eq_dec i i); congruence). f_equal.
    clear H E. revert b a L N Hi. induction i as [|i IH]; intros b a L N Hi; [reflexivity|].
    destruct a as [|y a]; [cbn in Hi; lia|]. destruct b as [|z b]; [discriminate|]. cbn. f_equal.
    + pose proof (N 0) as N0. destruct (Nat.eq_dec 0 (S i)); [discriminate|]. cbn in N0. congruence.
    + apply IH; cbn in *; try lia. intros j. specialize (N (S j)). change (nth_error (z :: b) (S j)) with (nth_error b j) in N. change (nth_error (y :: a) (S j)) with (nth_error a j) in N. rewrite N.
      destruct (Nat.eq_dec (S j) (S i)), (Nat.eq_dec j i); auto; lia.
  - split; [auto|]. intros j Hj. rewrite N. destruct (Nat.eq_dec j i); [lia|auto].
Qed.

Lemma same_from_trans : forall (A : Type) k k' (a b c : list A), k' <= k -> same_from k a b -> same_from k' b c -> same_from k a c.
Proof. intros A k k' a b c Hk [L1 S1] [L2 S2]. split; [lia|]. intros i Hi. rewrite S1 by auto. apply S2. lia. Qed.

Lemma same_from_le : forall (A : Type) k k' (a b : list A), k <= k' -> same_from k a b -> same_from k' a b.
Proof. intros A k k' a b Hk [L S1]. split; [auto|]. intros i Hi. apply S1. lia. Qed.

Lemma report_ids_ok : forall arr cnt i indices distances,
  i + cnt <= length arr -> i + cnt <= length indices -> (forall d, distances = Some d -> i + cnt <= length d) ->
  exists indices' distances', report_ids arr i cnt indices distances = Ok (indices', distances') /\
    same_from (i + cnt) indices' indices /\
    firstn (i + cnt) indices' = firstn i indices ++ map nid (firstn cnt (skipn i arr)) /\
    match distances, distances' with
    | None, None => True
    | Some d, Some d' => same_from (i + cnt) d' d /\ firstn (i + cnt) d' = firstn i d ++ map ndist (firstn cnt (skipn i arr))
    | _, _ => False
    end.
Proof.
  intros arr cnt. induction cnt as [|cnt IH]; intros i indices distances Ha Hi Hd; cbn [report_ids].
  - exists indices, distances. rewrite Nat.add_0_r. cbn [firstn map]. rewrite app_nil_r. split; [auto|].
    split; [split; auto|]. split; [auto|]. destruct distances; [|auto]. rewrite app_nil_r. split; [split|]; auto.
  - destruct (rd_lt _ arr i) as [x Hx]; [lia|]. rewrite Hx. cbn [bind]. apply rd_ok in Hx.
    destruct (wr_nth _ indices i (nid x)) as [i1 [E1 [L1 _]]]; [lia|]. rewrite E1. cbn [bind].
    destruct (firstn_wr _ _ _ _ _ E1) as [F1 S1].
    assert (Hs : firstn (S cnt) (skipn i arr) = x :: firstn cnt (skipn (S i) arr)).
    { clear - Hx. revert i Hx. induction arr as [|y arr IHa]; intros i Hx; [destruct i; discriminate|].
      destruct i as [|i]; cbn [skipn].
      - cbn in Hx. assert (y = x) by congruence. subst. reflexivity.
      - apply (IHa i Hx). }
    assert (W : exists d1, wr_opt distances i (ndist x) = Ok d1 /\
       match distances, d1 with
       | None, None => True
       | Some d, Some d' => length d' = length d /\ firstn (S i) d' = firstn i d ++ [ndist x] /\ same_from (S i) d' d
       | _, _ => False
       end).
    { destruct distances as [d|]; cbn [wr_opt]; [|exists None; auto]. specialize (Hd d eq_refl).
      destruct (wr_nth _ d i (ndist x)) as [d1 [E2 [L2 _]]]; [lia|]. rewrite E2. cbn [bind]. exists (Some d1).
      split; [auto|]. split; [auto|]. apply firstn_wr. auto. }
    destruct W as [d1 [E2 W]]. rewrite E2. cbn [bind].
    destruct (IH (S i) i1 d1) as [i2 [d2 [E3 [S3 [F3 D3]]]]]; [lia|lia| |].
    { intros d' ->. destruct distances as [d|]; [|contradiction]. destruct W as [W _]. specialize (Hd d eq_refl). lia. }
    exists i2, d2. split; [auto|]. replace (i + S cnt) with (S i + cnt) by lia. split; [|split].
    + eapply same_from_trans; [|exact S3|exact S1]. lia.
    + rewrite F3, F1, Hs. cbn [map]. rewrite <- app_assoc. reflexivity.
    + destruct distances as [d|], d1 as [d1|], d2 as [d2|]; try contradiction; auto.
      destruct D3 as [D3 D4]. destruct W as [W1 [W2 W3]]. split; [eapply same_from_trans; [|exact D3|exact W3]; lia|].
      rewrite D4, W2, Hs. cbn [map]. rewrite <- app_assoc. reflexivity.
Qed.

Lemma top_k_scored : forall dist k l out, is_top_k k (score dist l) out ->
  out = score dist (map fst out) /\ (forall id, In id (map fst out) -> In id l).
Proof.
  intros dist k l out [rest [P _]]. assert (H : forall z, In z out -> exists id, In id l /\ z = (id, dist id)).
  { intros z Hz. assert (In z (score dist l)) as Hs by (eapply Permutation_in; [apply Permutation_sym; exact P|apply in_or_app; auto]).
    unfold score in Hs. apply in_map_iff in Hs. destruct Hs as [id [<- Hid]]. exists id. auto. }
  split.
  - clear P. induction out as [|z out IH]; [reflexivity|].
    change (z :: out = (fst z, dist (fst z)) :: score dist (map fst out)). rewrite <- IH by (intros y Hy; apply H; right; auto).
    destruct (H z (or_introl eq_refl)) as [id [_ ->]]. reflexivity.
  - intros id Hid. apply in_map_iff in Hid. destruct Hid as [z [<- Hz]]. destruct (H z Hz) as [x [Hx ->]]. auto.
Qed.

Lemma flat_search_ok : forall n dist accept acc m cands indices distances, 1 <= m ->
  (forall id, In id cands -> accept id = Ok (acc id)) ->
  (forall id, In id cands -> acc id = true -> id < n) ->
  finite_distances n dist -> room m indices distances ->
  exists ids indices' distances',
    flat_search n dist accept m cands indices distances =
      Ok (indices', distances', length ids, length (nodup Nat.eq_dec (filter acc cands))) /\
    is_top_k m (score dist (nodup Nat.eq_dec (filter acc cands))) (score dist ids) /\
    NoDup ids /\ (forall id, In id ids -> In id cands /\ acc id = true) /\
    holds dist ids indices indices' distances distances'.
Proof.
  intros n dist accept acc m cands indices distances Hm Ha Hn [Hnan Hfin] [Hr1 Hr2].
  assert (Ec : concat [cands] = cands) by (cbn; apply app_nil_r).
  assert (Hfirst : match filter acc (concat [cands]) with [] => True | id :: _ => flt (dist id) FLT_MAX = true end).
  { rewrite Ec. destruct (filter acc cands) as [|id l] eqn:E; auto. assert (In id (filter acc cands)) as Hin by (rewrite E; left; auto).
    apply filter_In in Hin. apply Hfin. apply Hn; tauto. }
  assert (Ha' : forall id, In id (concat [cands]) -> accept id = Ok (acc id)) by (rewrite Ec; auto).
  assert (Hn' : forall id, In id (concat [cands]) -> acc id = true -> id < n) by (rewrite Ec; auto).
  destruct (feed_top n dist accept acc m [cands] Hm Ha' Hn' Hnan Hfirst) as [st [E1 [T [N C]]]].
  destruct (feed_safe n dist accept acc m [cands] Hm Ha' Hn' Hfirst) as [st' [E2 L]].
  assert (st' = st) by congruence. subst st'. clear E2. rewrite Ec in T, C, Hfirst. cbn [feed] in E1.
  destruct (process_candidates n dist accept m (empty_pool m) cands) as [st'| | | |] eqn:Ep; try discriminate.
  cbn [bind] in E1. assert (st' = st) by congruence. subst st'.
  unfold flat_search. rewrite Ep. cbn [bind].
  destruct (top_k_scored _ _ _ _ T) as [T1 T2]. rewrite map_map in T1, T2. cbn [fst] in T1, T2.
  change (fun x : neighbor => fst (PoolProofs.nkey x)) with nid in T1, T2.
  assert (Hcur : p_cur st <= length (p_arr st)).
  { apply (f_equal (@length _)) in T1. clear T1. unfold pool_entries in *.
    destruct T as [rest [P [Tl _]]]. rewrite map_length, firstn_length in Tl.
    pose proof (process_loop_safe n dist accept acc m cands (mkP (p_arr (empty_pool m)) (p_cur (empty_pool m)) (p_ins (empty_pool m)) (p_cmps (empty_pool m)) m)) as S1.
    destruct S1 as [st' [E' [B' _]]]; auto.
    - repeat split; cbn; try lia. rewrite repeat_length. lia.
    - unfold process_candidates in Ep. assert (st' = st) by congruence. subst st'. destruct B' as [_ [B1 [B2 _]]]. lia. }
  assert (Hmin : min (p_cur st) m = length (map nid (pool_entries st))).
  { rewrite map_length. unfold pool_entries. rewrite firstn_length_le by auto.
    destruct T as [rest [P [Tl _]]]. rewrite map_length in Tl. unfold pool_entries in Tl. rewrite firstn_length_le in Tl by auto. lia. }
  rewrite Hmin. destruct (report_ids_ok (p_arr st) (length (map nid (pool_entries st))) 0 indices distances) as [i' [d' [E3 [S3 [F3 D3]]]]].
  { lia. } { lia. } { intros d ->. specialize (Hr2 d eq_refl). lia. }
  assert (Hlen : length (map nid (pool_entries st)) = p_cur st).
  { rewrite map_length. unfold pool_entries. apply firstn_length_le. auto. }
  cbn [skipn firstn app plus] in *. exists (map nid (pool_entries st)), i', d'. rewrite E3. cbn [bind].
  split; [rewrite C; auto|]. rewrite T1 in T. split; [exact T|]. split; [auto|]. split.
  { intros id Hid. apply T2 in Hid. apply nodup_In in Hid. apply filter_In in Hid. auto. }
  split; [auto|]. split; [rewrite F3, Hlen; reflexivity|].
  destruct distances as [d|], d' as [d'|]; try contradiction; auto. destruct D3 as [D3 D4]. split; [auto|].
  rewrite D4, Hlen. fold (pool_entries st). rewrite map_map. apply map_ext_in. intros z Hz.
  assert (In (nid z, ndist z) (score dist (map nid (pool_entries st)))) as Hs.
  { rewrite <- T1. apply in_map_iff. exists z. auto. }
  unfold score in Hs. apply in_map_iff in Hs. destruct Hs as [id [E4 _]]. congruence.
Qed.

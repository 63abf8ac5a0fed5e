(** * Lemmas about HNSW search. *)
From Coq Require Import String List Arith Lia Bool Sorting.Sorted Sorting.Permutation.
From Verif Require Import Base Float32 PoolModel TopKSpec SortSpec GraphSpec GreedyModel SearchSpec SearchModel PruneModel PruneSpec
  BuildModel HnswModel HnswSpec ListLemmas FilterProofs PoolProofs PoolProofs2 GreedyProofs SearchProofs.
Import ListNotations.

(** All initial ids are discovered when there are at most L of them, so the first
    candidate found is no farther than any of them. *)
Lemma greedy_not_worse : forall sortf n dist accept acc L g ids,
  sorts sortf -> 1 <= L -> (forall id, is_nan (dist id) = false) ->
  (forall id, id < n -> accept id = Ok (acc id)) -> graph_ok n g ->
  (forall id, In id ids -> id < n) -> length ids <= L ->
  exists st, greedy_search sortf n dist accept L g ids = Ok st /\
    (ids <> [] -> found st <> []) /\
    (forall e f rest, In e ids -> found st = f :: rest -> fle (ndist f) (dist e) = true).
Proof.
  intros sortf n dist accept acc L g ids Hs HL Hnan Hacc Hg Hids Hlen.
  destruct (greedy_dyn_ok sortf n dist accept acc L (fun _ => g) ids) as
    [st0 [st [E0 [E [HI [_ [Hrun [_ [_ [Hsub [Hall HI0]]]]]]]]]]]; auto.
  destruct (greedy_init_ok sortf n dist L ids) as [st0' [E0' [_ [_ [_ [_ [_ [Hcur _]]]]]]]]; auto.
  assert (st0' = st0) by congruence. subst st0'.
  assert (Hin : forall e, In e ids -> In e (p_ins (g_pool st))).
  { intros e He. apply (run_mono _ _ _ _ _ Hrun). destruct Hall as [Hall|Hall]; auto.
    destruct (gi_top _ _ _ _ _ HI0) as [Hnd _].
    assert (HL2 : length ids <= length (p_ins (g_pool st0))) by lia.
    exact (NoDup_length_incl Hnd HL2 Hsub e He). }
  exists st. split; [exact E|]. split.
  - intros Hne Hf. destruct ids as [|e ids]; [congruence|]. specialize (Hin e (or_introl eq_refl)).
    assert (p_cur (g_pool st) = 0).
    { unfold found in Hf. rewrite <- (pool_entries_length _ _ _ (gi_wf _ _ _ _ _ HI)), Hf. reflexivity. }
    apply (gi_cur _ _ _ _ _ HI) in H. rewrite H in Hin. destruct Hin.
  - intros e f rest He Hf. specialize (Hin e He).
    destruct (gi_wf _ _ _ _ _ HI) as [_ [_ [_ [Hsort Hent]]]]. unfold found in Hf.
    destruct (ginv_discovered _ _ _ _ _ e HI Hin) as [H|[_ H]].
    + unfold found in H. apply in_map_iff in H. destruct H as [z [<- Hz]].
      rewrite <- (proj1 (proj2 (Hent z Hz))). rewrite Hf in Hz, Hsort.
      destruct Hz as [<-|Hz]; [apply fle_refl; apply Hent; rewrite Hf; left; auto|].
      inversion Hsort as [|? ? _ F]. rewrite Forall_forall in F. apply (F z Hz).
    + apply H. unfold found. rewrite Hf. left. auto.
Qed.

Lemma firstn_nth_error : forall (A : Type) k (l : list A) i, i < k -> nth_error (firstn k l) i = nth_error l i.
Proof. intros A k. induction k as [|k IH]; intros l i H; [lia|]. destruct l; [destruct i; reflexivity|]. destruct i; cbn; auto. apply IH. lia. Qed.

Lemma Forall2_nth : forall (A B : Type) (R : A -> B -> Prop) l l', length l = length l' ->
  (forall i a b, nth_error l i = Some a -> nth_error l' i = Some b -> R a b) -> Forall2 R l l'.
Proof.
  intros A B R l. induction l as [|a l IH]; intros l' HL H; destruct l' as [|b l']; cbn in HL; try discriminate; constructor.
  - apply (H 0); reflexivity.
  - apply IH; [lia|]. intros i x y H1 H2. apply (H (S i)); auto.
Qed.

Lemma hnsw_search_ok : forall sortf L rc, sorts sortf -> 1 <= L -> rc <= L ->
  forall inner ix dist filters ind dst, levels_ok (ix :: inner) -> (forall id, is_nan (dist id) = false) ->
  rc <= length ind -> rc <= length dst ->
  exists entry ids ind' dst',
    hnsw_search sortf (ix :: inner) dist L rc filters ind dst = Ok (ind', dst', length ids) /\
    length ids <= rc /\ (1 <= rc -> ids <> []) /\
    same_from rc ind' ind /\ same_from rc dst' dst /\
    reports (ix_n ix) (ix_tags ix) dist ind' dst' ids /\
    handed_down sortf L rc ix inner dist entry /\
    (forall e, In e entry -> e < ix_n ix) /\
    (forall id, In id ids -> reach (fun _ => true) (ix_graph ix) (fun x => In x entry) id) /\
    (forall e f rest, In e entry -> ids = f :: rest -> fle (dist f) (dist e) = true).
Proof.
  intros sortf L rc Hs HL Hrc inner.
  assert (Hcore : forall ix dist entry ind dst, index_ok ix -> (forall id, is_nan (dist id) = false) ->
    rc <= length ind -> rc <= length dst -> (forall e, In e entry -> e < ix_n ix) -> length entry <= L -> (1 <= rc -> entry <> []) ->
    exists ids ind' dst',
      (do st <- greedy_search sortf (ix_n ix) dist (passes_filter (ix_labels ix) []) L (ix_graph ix) entry;
       do bufs <- report (ix_tags ix) (p_arr (g_pool st)) 0 rc ind dst;
       Ok (bufs, min rc (p_cur (g_pool st)))) = Ok (ind', dst', length ids) /\
      length ids <= rc /\ (1 <= rc -> ids <> []) /\
      same_from rc ind' ind /\ same_from rc dst' dst /\
      reports (ix_n ix) (ix_tags ix) dist ind' dst' ids /\
      (forall id, In id ids -> reach (fun _ => true) (ix_graph ix) (fun x => In x entry) id) /\
      (forall e f rest, In e entry -> ids = f :: rest -> fle (dist f) (dist e) = true)).
  { intros ix dist entry ind dst Hix Hnan Hi Hd He Hel Hne. destruct Hix as [Hn [Hg [Ht [Hst Hmed]]]].
    destruct (search_reports sortf (ix_n ix) dist (passes_filter (ix_labels ix) []) (fun _ => true) L (ix_graph ix) entry (ix_tags ix) rc ind dst)
      as [st [ind' [dst' [E [R [Hc [S1 [S2 [Hrep Hreach]]]]]]]]]; auto; try lia.
    destruct (greedy_not_worse sortf (ix_n ix) dist (passes_filter (ix_labels ix) []) (fun _ => true) L (ix_graph ix) entry)
      as [st' [E' [Hfne Hnw]]]; auto.
    assert (st' = st) by congruence. subst st'.
    exists (firstn rc (map nid (found st))), ind', dst'.
    split. { rewrite E. cbn [bind]. rewrite R. cbn [bind]. rewrite firstn_length, map_length, Hc. reflexivity. }
    split; [rewrite firstn_length; lia|]. split.
    { intros H1 Hf. specialize (Hfne (Hne H1)). destruct rc; [lia|]. destruct (found st); [congruence|discriminate]. }
    split; [auto|]. split; [auto|]. split; [auto|]. split.
    - intros id Hid. apply In_firstn in Hid. apply in_map_iff in Hid. destruct Hid as [z [<- Hz]]. auto.
    - intros e f rest Hin Hf. destruct rc as [|rc']; [discriminate|]. destruct (found st) as [|z fs] eqn:Ef; [discriminate|].
      cbn in Hf. assert (f = nid z) by congruence. subst f.
      destruct (greedy_true_distances sortf (ix_n ix) dist (passes_filter (ix_labels ix) []) (fun _ => true) L (ix_graph ix) entry) as [st2 [E2 Htrue]]; auto.
      assert (st2 = st) by congruence. subst st2.
      destruct (Htrue z) as [_ [Hz _]]; [rewrite Ef; left; auto|]. rewrite <- Hz. eapply Hnw; eauto. }
  induction inner as [|inn inner IH]; intros ix dist filters ind dst Hlv Hnan Hi Hd.
  - destruct Hlv as [Hix _].
    destruct (Hcore ix dist [ix_start ix] ind dst) as [ids [ind' [dst' [E H]]]]; auto.
    { intros e [<-|[]]. apply Hix. } { discriminate. }
    exists [ix_start ix], ids, ind', dst'. cbn [hnsw_search bind]. split; [exact E|].
    destruct H as [H1 [H2 [H3 [H4 [H5 [H6 H7]]]]]]. repeat (split; [solve [auto]|]). split; [reflexivity|]. split; [|auto].
    intros e [<-|[]]. apply Hix.
  - destruct Hlv as [Hix [Htg Hlv]].
    destruct (IH inn (inner_dist inn dist) [] (repeat 0 L) (repeat f32_zero L) Hlv) as
      [entry' [ids' [ind0 [dst0 [E0 [HL0 [Hne0 [_ [_ [Hrep0 _]]]]]]]]]].
    { intros id. apply Hnan. } { rewrite repeat_length. auto. } { rewrite repeat_length. auto. }
    set (entry := firstn (length ids') ind0).
    destruct Hrep0 as [R1 [R2 [R3 R4]]].
    assert (Hlvi : length (ix_tags inn) = ix_n inn) by (destruct Hlv as [[_ [_ [X _]]] _]; exact X).
    assert (Hsame : forall i id, nth_error ids' i = Some id -> nth_error entry i = nth_error (ix_tags inn) id).
    { intros i id H. unfold entry. rewrite firstn_nth_error by (apply nth_error_Some; congruence). apply R4. auto. }
    assert (Hle : length ids' <= length ind0).
    { destruct (Nat.le_gt_cases (length ids') (length ind0)) as [|C]; auto. exfalso.
      destruct (nth_error ids' (length ind0)) as [id|] eqn:Eid; [|apply nth_error_None in Eid; lia].
      destruct (R4 _ _ Eid) as [A _]. rewrite (proj2 (nth_error_None ind0 (length ind0))) in A by lia.
      symmetry in A. apply nth_error_None in A. rewrite Hlvi in A. apply nth_error_In in Eid. apply R2 in Eid. lia. }
    assert (Hlen : length entry = length ids') by (unfold entry; apply firstn_length_le; auto).
    assert (Hval : forall e, In e entry -> e < ix_n ix).
    { intros e He. apply Htg. apply In_nth_error in He. destruct He as [i He].
      assert (Hlt : i < length ids') by (rewrite <- Hlen; apply nth_error_Some; congruence).
      destruct (nth_error ids' i) as [id|] eqn:Eid; [|apply nth_error_None in Eid; lia].
      rewrite (Hsame i id Eid) in He. eapply nth_error_In; eauto. }
    destruct (Hcore ix dist entry ind dst) as [ids [ind' [dst' [E H]]]]; auto.
    { lia. } { intros H1 C. specialize (Hne0 H1). rewrite C in Hlen. destruct ids'; [congruence|discriminate]. }
    exists entry, ids, ind', dst'. split.
    { change (hnsw_search sortf (ix :: inn :: inner) dist L rc filters ind dst) with
        (do init <- (do r <- hnsw_search sortf (inn :: inner) (inner_dist inn dist) L rc [] (repeat 0 L) (repeat f32_zero L);
                     let '(is, _, cnt) := r in Ok (firstn cnt is));
         do st <- greedy_search sortf (ix_n ix) dist (passes_filter (ix_labels ix) []) L (ix_graph ix) init;
         do bufs <- report (ix_tags ix) (p_arr (g_pool st)) 0 rc ind dst;
         Ok (bufs, min rc (p_cur (g_pool st)))).
      rewrite E0. cbn [bind]. exact E. }
    destruct H as [H1 [H2 [H3 [H4 [H5 [H6 H7]]]]]]. repeat (split; [solve [auto]|]). split; [|auto].
    exists ids', ind0, dst0. split; [auto|]. split; [repeat (split; [solve [auto]|]); auto|]. split; [reflexivity|].
    apply Forall2_nth; [auto|]. intros i a b Ha Hb. rewrite (Hsame i a Ha) in Hb. auto.
Qed.

(** With more than L results asked for, an object with an inner level writes past
    init_ids. *)
Lemma report_short : forall tags arr cnt i ind dst, length ind < i + cnt -> i <= length ind -> report tags arr i cnt ind dst = UB.
Proof.
  intros tags arr cnt. induction cnt as [|cnt IH]; intros i ind dst H Hi; [lia|]. cbn [report].
  destruct (rd arr i) as [x| | | |] eqn:E1; cbn [bind]; auto; try (unfold rd in E1; destruct (nth_error arr i); discriminate).
  destruct (rd tags (nid x)) as [t| | | |] eqn:E2; cbn [bind]; auto; try (unfold rd in E2; destruct (nth_error tags (nid x)); discriminate).
  destruct (wr ind i t) as [ind1| | | |] eqn:E3; cbn [bind]; auto; try (unfold wr in E3; destruct (i <? length ind); discriminate).
  destruct (wr dst i (ndist x)) as [dst1| | | |] eqn:E4; cbn [bind]; auto; try (unfold wr in E4; destruct (i <? length dst); discriminate).
  assert (i < length ind). { unfold wr in E3. destruct (i <? length ind) eqn:E; [apply Nat.ltb_lt; auto|discriminate]. }
  apply wr_length in E3. apply IH; lia.
Qed.

Lemma hnsw_bottom_ub : forall sortf L rc, sorts sortf -> 1 <= L -> L < rc ->
  forall inner ix dist filters dst, levels_ok (ix :: inner) -> (forall id, is_nan (dist id) = false) ->
  hnsw_search sortf (ix :: inner) dist L rc filters (repeat 0 L) dst = UB.
Proof.
  intros sortf L rc Hs HL Hrc inner. induction inner as [|inn inner IH]; intros ix dist filters dst Hlv Hnan.
  - cbn [hnsw_search bind]. destruct Hlv as [[Hn [Hg [Ht [Hst Hmed]]]] _].
    destruct (greedy_dyn_ok sortf (ix_n ix) dist (passes_filter (ix_labels ix) []) (fun _ => true) L (fun _ => ix_graph ix) [ix_start ix])
      as [st0 [st [_ [E _]]]]; auto. { intros id [<-|[]]. auto. }
    unfold greedy_search. rewrite E. cbn [bind]. rewrite report_short; [reflexivity| |lia]. rewrite repeat_length. lia.
  - destruct Hlv as [_ [_ Hlv]].
    change (hnsw_search sortf (ix :: inn :: inner) dist L rc filters (repeat 0 L) dst) with
        (do init <- (do r <- hnsw_search sortf (inn :: inner) (inner_dist inn dist) L rc [] (repeat 0 L) (repeat f32_zero L);
                     let '(is, _, cnt) := r in Ok (firstn cnt is));
         do st <- greedy_search sortf (ix_n ix) dist (passes_filter (ix_labels ix) []) L (ix_graph ix) init;
         do bufs <- report (ix_tags ix) (p_arr (g_pool st)) 0 rc (repeat 0 L) dst;
         Ok (bufs, min rc (p_cur (g_pool st)))).
    rewrite IH by (auto; intros id; apply Hnan). reflexivity.
Qed.

Lemma hnsw_search_past : forall sortf L rc ix inn inner dist filters ind dst, sorts sortf -> 1 <= L -> L < rc ->
  levels_ok (ix :: inn :: inner) -> (forall id, is_nan (dist id) = false) ->
  hnsw_search sortf (ix :: inn :: inner) dist L rc filters ind dst = UB.
Proof.
  intros sortf L rc ix inn inner dist filters ind dst Hs HL Hrc [_ [_ Hlv]] Hnan.
  change (hnsw_search sortf (ix :: inn :: inner) dist L rc filters ind dst) with
        (do init <- (do r <- hnsw_search sortf (inn :: inner) (inner_dist inn dist) L rc [] (repeat 0 L) (repeat f32_zero L);
                     let '(is, _, cnt) := r in Ok (firstn cnt is));
         do st <- greedy_search sortf (ix_n ix) dist (passes_filter (ix_labels ix) []) L (ix_graph ix) init;
         do bufs <- report (ix_tags ix) (p_arr (g_pool st)) 0 rc ind dst;
         Ok (bufs, min rc (p_cur (g_pool st)))).
  rewrite hnsw_bottom_ub; auto. intros id. apply Hnan.
Qed.

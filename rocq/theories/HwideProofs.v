(** * HNSW search with a list that holds everything reachable. *)
From Coq Require Import ZArith String List Arith Lia Bool Sorting.Sorted Sorting.Permutation.
From Verif Require Import Base Float32 Float32Facts PoolModel TopKSpec SortSpec GraphSpec FilterSpec GreedyModel SearchSpec SearchModel
  FilterProofs GreedyProofs SearchProofs AcceptProofs PruneModel BuildModel HnswModel HnswSpec HnswProofs WideSpec WideProofs.
Import ListNotations.

Lemma handed_down_len : forall sortf L rc ix inner dist entry, sorts sortf -> 1 <= L -> rc <= L -> levels_ok (ix :: inner) ->
  (forall id, is_nan (dist id) = false) -> handed_down sortf L rc ix inner dist entry ->
  length entry <= L /\ (forall e, In e entry -> e < ix_n ix).
Proof.
  intros sortf L rc ix inner dist entry Hs HL Hrc Hlv Hnan H. destruct inner as [|inn inner]; cbn [handed_down] in H.
  - subst entry. split; [cbn; lia|]. intros e [<-|[]]. apply Hlv.
  - destruct H as [ids [ind [dst [E [R [-> F]]]]]]. destruct Hlv as [_ [Ht Hlv]].
    destruct (hnsw_search_ok sortf L rc Hs HL Hrc inner inn (inner_dist inn dist) [] (repeat 0 L) (repeat f32_zero L) Hlv)
      as [en [ids' [ind' [dst' [E' [Hl _]]]]]].
    { intros id. apply Hnan. } { rewrite repeat_length. exact Hrc. } { rewrite repeat_length. exact Hrc. }
    assert (length ids = length ids') by congruence. split.
    + rewrite firstn_length. lia.
    + intros e He. apply Ht. clear - F He. induction F as [|a b l l' H1 F IH]; [destruct He|]. destruct He as [<-|He]; [eapply nth_error_In; eauto|auto].
Qed.

Lemma hnsw_enter : forall sortf L rc ix inner dist filters ind dst entry, handed_down sortf L rc ix inner dist entry ->
  hnsw_search sortf (ix :: inner) dist L rc filters ind dst =
    (do st <- greedy_search sortf (ix_n ix) dist (passes_filter (ix_labels ix) []) L (ix_graph ix) entry;
     do bufs <- report (ix_tags ix) (p_arr (g_pool st)) 0 rc ind dst;
     Ok (bufs, min rc (p_cur (g_pool st)))).
Proof.
  intros sortf L rc ix inner dist filters ind dst entry H. destruct inner as [|inn inner]; cbn [handed_down] in H.
  - subst entry. reflexivity.
  - destruct H as [ids [ind0 [dst0 [E [_ [-> _]]]]]].
    change (hnsw_search sortf (ix :: inn :: inner) dist L rc filters ind dst) with
        (do init <- (do r <- hnsw_search sortf (inn :: inner) (inner_dist inn dist) L rc [] (repeat 0 L) (repeat f32_zero L);
                     let '(is, _, cnt) := r in Ok (firstn cnt is));
         do st <- greedy_search sortf (ix_n ix) dist (passes_filter (ix_labels ix) []) L (ix_graph ix) init;
         do bufs <- report (ix_tags ix) (p_arr (g_pool st)) 0 rc ind dst;
         Ok (bufs, min rc (p_cur (g_pool st)))).
    rewrite E. reflexivity.
Qed.

Lemma handed_down_some : forall sortf L rc ix inner dist, sorts sortf -> 1 <= L -> rc <= L -> levels_ok (ix :: inner) ->
  (forall id, is_nan (dist id) = false) -> exists entry, handed_down sortf L rc ix inner dist entry /\ (1 <= rc -> entry <> []).
Proof.
  intros sortf L rc ix inner dist Hs HL Hrc Hlv Hnan.
  destruct (hnsw_search_ok sortf L rc Hs HL Hrc inner ix dist [] (repeat 0 rc) (repeat f32_zero rc) Hlv Hnan)
    as [en [ids [ind' [dst' [E [Hl [Hne [_ [_ [_ [Hh [_ [Hr _]]]]]]]]]]]]].
  { rewrite repeat_length. lia. } { rewrite repeat_length. lia. }
  exists en. split; [exact Hh|]. intros H1 ->. specialize (Hne H1). destruct ids as [|x ids]; [congruence|].
  specialize (Hr x (or_introl eq_refl)). clear - Hr. induction Hr as [x []|]; auto.
Qed.

(** The answer is exact over the points reached from where the level is entered. *)
Lemma hnsw_wide : forall sortf ix inner dist L k filters indices distances,
  sorts sortf -> levels_ok (ix :: inner) -> 1 <= L -> (forall id, is_nan (dist id) = false) ->
  k <= L -> k <= length indices -> k <= length distances ->
  exists entry, handed_down sortf L k ix inner dist entry /\
    (at_most L (reach (fun _ => true) (ix_graph ix) (fun x => In x entry)) ->
     exists ids indices' distances',
       hnsw_search sortf (ix :: inner) dist L k filters indices distances = Ok (indices', distances', length ids) /\
       reports (ix_n ix) (ix_tags ix) dist indices' distances' ids /\
       nearest_among k (reach (fun _ => true) (ix_graph ix) (fun x => In x entry)) dist ids).
Proof.
  intros sortf ix inner dist L k fs ind dst Hs Hlv HL Hnan Hk Hi Hd.
  destruct (handed_down_some sortf L k ix inner dist Hs HL Hk Hlv Hnan) as [entry [Hh _]].
  exists entry. split; [exact Hh|]. intros Hm.
  destruct (handed_down_len _ _ _ _ _ _ _ Hs HL Hk Hlv Hnan Hh) as [Hel Hev].
  destruct Hlv as [[Hn [Hg [Ht [Hst Hmed]]]] _].
  destruct (search_reports sortf (ix_n ix) dist (passes_filter (ix_labels ix) []) (fun _ => true) L (ix_graph ix) entry (ix_tags ix) k ind dst)
    as [st [ind' [dst' [E [R [Hc [S1 [S2 [Hrep Hreach]]]]]]]]]; auto; try lia.
  destruct (greedy_answers sortf (ix_n ix) dist (passes_filter (ix_labels ix) []) (fun _ => true) L (ix_graph ix) entry) as [st' [E' G]]; auto.
  assert (st' = st) by congruence. subst st'.
  exists (firstn k (map nid (found st))), ind', dst'. split; [|split; [exact Hrep|]].
  - rewrite (hnsw_enter _ _ _ _ _ _ _ _ _ _ Hh), E. cbn [bind]. rewrite R. cbn [bind]. rewrite firstn_length, map_length, Hc. reflexivity.
  - apply greedy_answer_nearest with (L := L); auto.
Qed.

(** If every point is reached from every point, the answer is exact. *)
Lemma hnsw_wide_exact : forall sortf ix inner dist L k filters indices distances,
  sorts sortf -> levels_ok (ix :: inner) -> (forall id, is_nan (dist id) = false) ->
  (forall x y, x < ix_n ix -> y < ix_n ix -> reach (fun _ => true) (ix_graph ix) (fun z => z = x) y) ->
  ix_n ix <= L -> k <= L -> k <= length indices -> k <= length distances ->
  exists ids indices' distances',
    hnsw_search sortf (ix :: inner) dist L k filters indices distances = Ok (indices', distances', length ids) /\
    reports (ix_n ix) (ix_tags ix) dist indices' distances' ids /\
    nearest_among k (fun x => x < ix_n ix) dist ids.
Proof.
  intros sortf ix inner dist L k fs ind dst Hs Hlv Hnan Hc HL Hk Hi Hd.
  assert (Hn : 1 <= ix_n ix) by apply Hlv. assert (HL1 : 1 <= L) by lia.
  destruct (Nat.eq_dec k 0) as [->|Hk0].
  - destruct (hnsw_search_ok sortf L 0 Hs HL1 Hk inner ix dist fs ind dst Hlv Hnan Hi Hd)
      as [en [ids [ind' [dst' [E [Hl [_ [_ [_ [Hr _]]]]]]]]]].
    exists ids, ind', dst'. split; [exact E|]. split; [exact Hr|]. destruct ids; [|cbn in Hl; lia].
    exists (seq 0 (ix_n ix)). split; [apply seq_NoDup|]. split; [intros x; rewrite in_seq; lia|].
    exists (score dist (seq 0 (ix_n ix))). split; [apply Permutation_refl|]. split; [reflexivity|]. split; [constructor|]. intros x y [].
  - destruct (hnsw_wide sortf ix inner dist L k fs ind dst) as [entry [Hh H]]; auto.
    destruct (handed_down_len _ _ _ _ _ _ _ Hs HL1 Hk Hlv Hnan Hh) as [Hel Hev].
    assert (Hg : graph_ok (ix_n ix) (ix_graph ix)) by apply Hlv.
    assert (Hlt : forall x, reach (fun _ => true) (ix_graph ix) (fun x => In x entry) x -> x < ix_n ix).
    { intros x R. eapply reach_lt; [exact Hg| |exact R]. exact Hev. }
    destruct H as [ids [ind' [dst' [E [Hr [all [N [A T]]]]]]]]; [exact (at_most_n (ix_n ix) L _ HL Hlt)|].
    exists ids, ind', dst'. split; [exact E|]. split; [exact Hr|]. exists all. split; [exact N|]. split; [|exact T].
    intros x. rewrite A. split; [apply Hlt|]. intros Hx.
    destruct (handed_down_some sortf L k ix inner dist Hs HL1 Hk Hlv Hnan) as [entry' [Hh' Hne]].
    assert (Ee : entry' = entry).
    { destruct inner as [|inn inner]; cbn [handed_down] in Hh, Hh'; [congruence|].
      destruct Hh as [i1 [j1 [d1 [E1 [_ [-> _]]]]]]. destruct Hh' as [i2 [j2 [d2 [E2 [_ [-> _]]]]]].
      assert (j2 = j1 /\ length i2 = length i1) as [-> ->] by (split; congruence). reflexivity. }
    subst entry'. destruct entry as [|e entry]; [exfalso; apply Hne; [lia|reflexivity]|].
    eapply reach_weaken; [|exact (Hc e x (Hev e (or_introl eq_refl)) Hx)]. intros y ->. left. reflexivity.
Qed.

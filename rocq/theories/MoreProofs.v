(** * Filter lists with more labels, and with repeated ones: proofs. *)
From Coq Require Import NArith String List Arith Lia Bool Sorting.Sorted Sorting.Permutation Floats.SpecFloat.
From Verif Require Import Base Float32 PoolModel TopKSpec SortSpec GraphSpec FilterSpec GreedyModel SearchSpec SearchModel ListLemmas PoolProofs PoolProofs2 FilterProofs GreedyProofs
  SearchProofs AcceptProofs ClosestModel ClosestSpec FlatModel FlatSpec FlatProofs IvfModel IvfProofs LshModel LshSpec LshProofs WideSpec WideProofs LongerSpec LongerProofs LongerProofs2 MoreSpec.
Import ListNotations.

(** ** More labels *)
Lemma matches_more : forall u fs fs' ls, asks_more fs fs' -> matches u fs ls -> matches u fs' ls.
Proof.
  intros u fs fs' ls [->|[Hn Hi]] H; [left; reflexivity|]. destruct H as [H|[[x [Hx Hl]]|[v [E [H|H]]]]].
  - contradiction.
  - right. left. exists x. auto.
  - right. right. exists v. auto.
  - right. right. exists v. auto.
Qed.

Lemma test_more : forall u labels fs fs' acc acc', filter_test u labels fs acc -> filter_test u labels fs' acc' ->
  asks_more fs fs' -> sorted_labels fs' -> (forall ls, In ls labels -> sorted_labels ls) ->
  forall id, (fs' = [] \/ id < length labels) -> acc id = true -> acc' id = true.
Proof.
  intros u labels fs fs' acc acc' [_ T] [Z' T'] Hm Hs Hl id Hid Ha. destruct Hid as [E|Hid]; [apply Z'; exact E|].
  destruct (nth_error labels id) as [ls|] eqn:E; [|apply nth_error_None in E; lia].
  apply (T' id ls E); auto; [apply Hl; eapply nth_error_In; eauto|]. eapply matches_more; [exact Hm|]. apply (T id ls E). exact Ha.
Qed.

Lemma acc_more : forall lc n fs fs' id, asks_more fs fs' -> sorted_labels fs' -> (forall ls, In ls (pts_to_labels lc) -> sorted_labels ls) ->
  (fs' = [] \/ length (pts_to_labels lc) = n) -> id < n -> acc_of lc fs id = true -> acc_of lc fs' id = true.
Proof.
  intros lc n fs fs' id Hm Hs Hl Hn Hid. apply (test_more _ _ _ _ _ _ (acc_filter_test lc fs) (acc_filter_test lc fs') Hm Hs Hl).
  destruct Hn as [E|E]; [left; exact E|right]. exact (eq_ind_r (fun z => id < z) Hid E).
Qed.

Lemma top_more : forall m c c' dist ids ids', is_top_k m (score dist c) (score dist ids) -> is_top_k m (score dist c') (score dist ids') ->
  NoDup c -> incl c c' -> (forall id, is_nan (dist id) = false) -> no_worse dist ids ids'.
Proof.
  intros m c c' dist ids ids' A B Nd I Hn i x Hx.
  destruct (top_k_dominates m m _ _ _ _ A B (le_n _)) with (i := i) (x := (x, dist x)) as [y [Hy Hle]].
  - apply score_NoDup. exact Nd.
  - intros u Hu. unfold score in *. apply in_map_iff in Hu. destruct Hu as [a [<- Ha]]. apply in_map_iff. exists a. auto.
  - intros u Hu. unfold score in Hu. apply in_map_iff in Hu. destruct Hu as [a [<- Ha]]. apply Hn.
  - unfold score. rewrite nth_error_map, Hx. reflexivity.
  - unfold score in Hy. rewrite nth_error_map in Hy. destruct (nth_error ids' i) as [w|]; [|discriminate]. cbn in Hy. injection Hy as <-.
    exists w. split; [reflexivity|exact Hle].
Qed.

Lemma ivf_more_labels : forall popf mbs ix cdist dist probe m fs fs' indices distances,
  pops popf -> 1 <= mbs -> ivf_ok ix -> probe <= ivf_nc ix -> 1 <= m ->
  length (pts_to_labels (ivf_labels ix)) = ivf_n ix -> (forall ls, In ls (pts_to_labels (ivf_labels ix)) -> sorted_labels ls) ->
  asks_more fs fs' -> sorted_labels fs' ->
  (forall c, is_nan (cdist c) = false) -> (exists c, c < ivf_nc ix /\ flt (cdist c) FLT_MAX = true) ->
  finite_distances (ivf_n ix) dist -> room m indices distances ->
  exists ids i1 d1 c1 ids' i2 d2 c2,
    ivf_search popf mbs ix cdist dist probe m fs indices distances = Ok (i1, d1, length ids, c1) /\ holds dist ids indices i1 distances d1 /\
    ivf_search popf mbs ix cdist dist probe m fs' indices distances = Ok (i2, d2, length ids', c2) /\ holds dist ids' indices i2 distances d2 /\
    no_worse dist ids ids' /\ c1 <= c2.
Proof.
  intros popf mbs ix cdist dist probe m fs fs' ind dst Hp Hmb [Hl Hin] Hpr Hm Hlab Hsl Hmore Hs Hnan Hfin Hd Hr.
  destruct (ivf_candidates_ok popf mbs ix cdist probe Hp Hmb Hpr Hl Hnan Hfin) as [probed [A [B [C [D E]]]]].
  set (cands := concat (map (fun c => nth c (ivf_inv ix) []) probed)) in *.
  assert (Hc : forall id, In id cands -> id < ivf_n ix).
  { intros id H. unfold cands in H. apply in_concat in H. destruct H as [l [H1 H2]]. apply in_map_iff in H1.
    destruct H1 as [c [<- Hc]]. apply (Hin (nth c (ivf_inv ix) [])); auto. apply nth_In. rewrite Hl. auto. }
  assert (Q : forall gs, exists ids i' d', flat_search (ivf_n ix) dist (passes_filter (ivf_labels ix) gs) m cands ind dst =
      Ok (i', d', length ids, length (nodup Nat.eq_dec (filter (acc_of (ivf_labels ix) gs) cands))) /\
    is_top_k m (score dist (nodup Nat.eq_dec (filter (acc_of (ivf_labels ix) gs) cands))) (score dist ids) /\ holds dist ids ind i' dst d').
  { intros gs. destruct (flat_search_ok (ivf_n ix) dist (passes_filter (ivf_labels ix) gs) (acc_of (ivf_labels ix) gs) m cands ind dst)
      as [ids [i' [d' [E2 [T [N [F H]]]]]]]; auto.
    - intros id Hid. apply (acc_of_ok _ _ (ivf_n ix)); auto.
    - exists ids, i', d'. auto. }
  destruct (Q fs) as [ids [i1 [d1 [R1 [T1 H1]]]]]. destruct (Q fs') as [ids' [i2 [d2 [R2 [T2 H2]]]]].
  assert (I : incl (nodup Nat.eq_dec (filter (acc_of (ivf_labels ix) fs) cands)) (nodup Nat.eq_dec (filter (acc_of (ivf_labels ix) fs') cands))).
  { intros x Hx. apply nodup_In in Hx. apply nodup_In. apply filter_In in Hx. destruct Hx as [Hx Ha]. apply filter_In. split; [exact Hx|].
    eapply (acc_more _ (ivf_n ix)); eauto. }
  do 3 eexists. eexists. do 3 eexists. eexists. unfold ivf_search. rewrite E. cbn [bind]. split; [exact R1|]. split; [exact H1|]. split; [exact R2|]. split; [exact H2|].
  split; [|apply NoDup_incl_length; [apply NoDup_nodup|exact I]].
  eapply top_more; [exact T1|exact T2|apply NoDup_nodup|exact I|apply Hd].
Qed.

Lemma lsh_more_labels : forall dotf data ts planes ix q dist m fs fs' indices distances,
  (ts <= 64)%N -> l_tags ix = seq 0 (l_n ix) -> lsh_new ix -> 1 <= m ->
  length (pts_to_labels (l_labels ix)) = l_n ix -> (forall ls, In ls (pts_to_labels (l_labels ix)) -> sorted_labels ls) ->
  asks_more fs fs' -> sorted_labels fs' ->
  finite_distances (l_n ix) dist -> room m indices distances ->
  exists ix' ids i1 d1 c1 ix1 ids' i2 d2 c2 ix2,
    lsh_build dotf data ts planes ix = Ok ix' /\
    lsh_search dotf ix' q dist m fs indices distances = Ok ((i1, d1, length ids, c1), ix1) /\ holds dist ids indices i1 distances d1 /\
    lsh_search dotf ix' q dist m fs' indices distances = Ok ((i2, d2, length ids', c2), ix2) /\ holds dist ids' indices i2 distances d2 /\
    no_worse dist ids ids' /\ c1 <= c2.
Proof.
  intros dotf data ts planes ix q dist m fs fs' ind dst Hts Htag Hnew Hm Hlab Hsl Hmore Hs Hd Hr.
  destruct (lsh_search_ok dotf data ts planes ix q dist m fs ind dst) as [ix' [ix1 [c1 [ids [i1 [d1 [B [S1 [N1 [C1 [T1 H1]]]]]]]]]]]; auto.
  destruct (lsh_search_ok dotf data ts planes ix q dist m fs' ind dst) as [ix'' [ix2 [c2 [ids' [i2 [d2 [B' [S2 [N2 [C2 [T2 H2]]]]]]]]]]]; auto.
  rewrite B in B'. injection B' as <-.
  assert (I : incl c1 c2).
  { intros x Hx. apply C1 in Hx. destruct Hx as [Hx [Ha Hc]]. apply C2. split; [exact Hx|]. split; [|exact Hc]. eapply (acc_more _ (l_n ix)); eauto. }
  exists ix', ids, i1, d1, (length c1), ix1, ids', i2, d2, (length c2), ix2. split; [exact B|]. split; [exact S1|]. split; [exact H1|]. split; [exact S2|]. split; [exact H2|].
  split; [|apply NoDup_incl_length; assumption]. eapply top_more; [exact T1|exact T2|exact N1|exact I|apply Hd].
Qed.

Lemma reach_more : forall acc acc' g (S S' : nat -> Prop), (forall x, S x -> S' x) ->
  (forall a l x, nth_error g a = Some l -> In x l -> acc x = true -> acc' x = true) ->
  forall x, reach acc g S x -> reach acc' g S' x.
Proof.
  intros acc acc' g S S' HS HA x R. induction R as [x H|x y R IH H]; [apply reach_start; auto|].
  apply (reach_edge _ _ _ x); [exact IH|]. destruct H as [l [Hl [Hin Ha]]]. exists l. split; [exact Hl|]. split; [exact Hin|]. eapply HA; eauto.
Qed.

Lemma vamana_more_labels : forall sortf ix dist L k fs fs' indices distances,
  sorts sortf -> index_ok ix -> (forall id, is_nan (dist id) = false) ->
  length (pts_to_labels (ix_labels ix)) = ix_n ix -> (forall ls, In ls (pts_to_labels (ix_labels ix)) -> sorted_labels ls) ->
  fs <> [] -> (forall x, In x fs -> In x fs') -> sorted_labels fs' -> ix_n ix <= L -> length fs <= L -> length fs' <= L ->
  k <= L + 1 -> k <= length indices -> k <= length distances ->
  exists ids i1 d1 ids' i2 d2,
    vamana_search sortf ix dist L k fs indices distances = Ok (i1, d1, length ids) /\ reports (ix_n ix) (ix_tags ix) dist i1 d1 ids /\
    vamana_search sortf ix dist L k fs' indices distances = Ok (i2, d2, length ids') /\ reports (ix_n ix) (ix_tags ix) dist i2 d2 ids' /\
    no_worse dist ids ids'.
Proof.
  intros sortf ix dist L k fs fs' ind dst Hs Hix Hnan Hlab Hsl Hne Hsub Hsf HnL Hf Hf' Hk Hi Hd.
  pose proof Hix as [Hn1 [Hg [Ht [Hst Hmed]]]]. assert (Hmore : asks_more fs fs') by (right; auto).
  assert (HL : 1 <= L) by lia.
  destruct (vamana_wide sortf ix dist L k fs ind dst) as [acc [st [F1 [Z1 [M1 W1]]]]]; auto.
  destruct (vamana_wide sortf ix dist L k fs' ind dst) as [acc' [st' [F2 [Z2 [M2 W2]]]]]; auto.
  assert (Bound : forall gs a s, (gs = [] -> s = [ix_start ix]) -> (gs <> [] -> forall id, In id s <-> exists x, In x gs /\ medoid_of (ix_medoids ix) x = Some id) ->
    forall x, reach a (ix_graph ix) (fun y => In y s) x -> x < ix_n ix).
  { intros gs a s Z M x R. induction R as [x H|x y R IH H].
    - destruct gs as [|g0 gs]; [rewrite Z in H by reflexivity; destruct H as [<-|[]]; exact Hst|].
      apply M in H; [|discriminate]. destruct H as [z [_ Hz]]. apply medoid_of_In in Hz. eapply Hmed; eauto.
    - destruct H as [l [Hl [Hin _]]]. destruct Hg as [_ Hg]. eapply Hg; eauto. }
  assert (Cap : forall (P : nat -> Prop), (forall x, P x -> x < ix_n ix) -> at_most L P).
  { intros P H l Nd Hl. eapply Nat.le_trans; [|exact HnL]. rewrite <- (seq_length (ix_n ix) 0). apply NoDup_incl_length; [exact Nd|].
    intros x Hx. apply in_seq. specialize (H x (Hl x Hx)). lia. }
  destruct (W1 (Cap _ (Bound fs acc st Z1 M1))) as [ids [i1 [d1 [S1 [R1 [all [Na [Ha Ta]]]]]]]].
  destruct (W2 (Cap _ (Bound fs' acc' st' Z2 M2))) as [ids' [i2 [d2 [S2 [R2 [all' [Na' [Ha' Ta']]]]]]]].
  exists ids, i1, d1, ids', i2, d2. split; [exact S1|]. split; [exact R1|]. split; [exact S2|]. split; [exact R2|].
  eapply top_more; [exact Ta|exact Ta'|exact Na| |exact Hnan].
  intros x Hx. apply Ha'. apply Ha in Hx. revert Hx. apply reach_more.
  - intros y Hy. destruct fs' as [|f' fs'].
    + destruct fs as [|f fs]; [contradiction|]. destruct (Hsub f); left; reflexivity.
    + apply (M1 Hne) in Hy. destruct Hy as [z [Hz Hy]]. apply M2; [discriminate|]. exists z. auto.
  - intros a l y Hl Hy Hacc. apply (test_more _ _ _ _ _ _ F1 F2 Hmore Hsf Hsl y); [|exact Hacc]. right. apply (eq_ind_r (fun z => y < z)) with (2 := Hlab).
    destruct Hg as [_ Hg]. eapply Hg; eauto.
Qed.

(** ** Repeated labels *)
Lemma inter_repeat : forall fs1 x fs2 ys, set_intersection (fs1 ++ x :: x :: fs2) ys = [] <-> set_intersection (fs1 ++ x :: fs2) ys = [].
Proof.
  induction fs1 as [|f fs1 IH]; intros x fs2 ys; cbn [app].
  - induction ys as [|y ys IHy]; [split; reflexivity|]. cbn [set_intersection]. destruct (String.compare x y) eqn:E.
    + split; discriminate.
    + cbn [set_intersection]. try rewrite E. split; auto.
    + exact IHy.
  - induction ys as [|y ys IHy]; [split; reflexivity|]. cbn [set_intersection]. destruct (String.compare f y) eqn:E.
    + split; discriminate.
    + apply IH.
    + exact IHy.
Qed.

Lemma mem_repeat : forall z fs1 x fs2, label_mem z (fs1 ++ x :: x :: fs2) = label_mem z (fs1 ++ x :: fs2).
Proof.
  intros z fs1 x fs2. unfold label_mem. rewrite !existsb_app. cbn [existsb].
  destruct (String.eqb z x); reflexivity.
Qed.

Lemma passes_repeat : forall lc fs1 x fs2 id, passes_filter lc (fs1 ++ x :: x :: fs2) id = passes_filter lc (fs1 ++ x :: fs2) id.
Proof.
  intros lc fs1 x fs2 id. unfold passes_filter.
  assert (E1 : exists a l, fs1 ++ x :: x :: fs2 = a :: l) by (destruct fs1; cbn; eauto).
  assert (E2 : exists a l, fs1 ++ x :: fs2 = a :: l) by (destruct fs1; cbn; eauto).
  destruct E1 as [a [l E1]]. destruct E2 as [b [l' E2]].
  pose proof (inter_repeat fs1 x fs2) as H. pose proof (fun z => mem_repeat z fs1 x fs2) as M. rewrite E1, E2 in *.
  destruct (rd (pts_to_labels lc) id) as [curr| | | |]; cbn [bind]; try reflexivity. rewrite M. f_equal.
  specialize (H curr). destruct (set_intersection (a :: l) curr) as [|p P]; destruct (set_intersection (b :: l') curr) as [|r Q].
  - reflexivity.
  - destruct H as [H _]. specialize (H eq_refl). discriminate.
  - destruct H as [_ H]. specialize (H eq_refl). discriminate.
  - destruct (use_universal_label lc && (label_mem (universal_label lc) (b :: l') || label_mem (universal_label lc) curr)); reflexivity.
Qed.

Lemma process_ext : forall n dist a1 a2 L st cands, (forall id, a1 id = a2 id) -> process_candidates n dist a1 L st cands = process_candidates n dist a2 L st cands.
Proof.
  intros n dist a1 a2 L st cands H. unfold process_candidates. generalize (mkP (p_arr st) (p_cur st) (p_ins st) (p_cmps st) L).
  induction cands as [|c cands IH]; intros s; [reflexivity|]. cbn [process_loop].
  assert (E : process_one n dist a1 L s c = process_one n dist a2 L s c) by (unfold process_one; rewrite H; reflexivity).
  rewrite E. destruct (process_one n dist a2 L s c); cbn [bind]; auto.
Qed.

Lemma flat_repeat : forall n dist lc fs1 x fs2 m cands ind dst,
  flat_search n dist (passes_filter lc (fs1 ++ x :: x :: fs2)) m cands ind dst = flat_search n dist (passes_filter lc (fs1 ++ x :: fs2)) m cands ind dst.
Proof. intros. unfold flat_search. rewrite (process_ext _ _ _ _ _ _ _ (passes_repeat lc fs1 x fs2)). reflexivity. Qed.

Lemma ivf_repeat : forall popf mbs ix cdist dist probe m fs1 x fs2 indices distances,
  ivf_search popf mbs ix cdist dist probe m (fs1 ++ x :: x :: fs2) indices distances = ivf_search popf mbs ix cdist dist probe m (fs1 ++ x :: fs2) indices distances.
Proof. intros. unfold ivf_search. destruct (ivf_candidates popf mbs ix cdist probe); cbn [bind]; try reflexivity. apply flat_repeat. Qed.

Lemma lsh_repeat : forall dotf ix q dist m fs1 x fs2 indices distances,
  lsh_search dotf ix q dist m (fs1 ++ x :: x :: fs2) indices distances = lsh_search dotf ix q dist m (fs1 ++ x :: fs2) indices distances.
Proof. intros. unfold lsh_search. destruct (lookup_all dotf q (l_tables ix)). rewrite flat_repeat. reflexivity. Qed.

Lemma init_repeat : forall n dist L id s2 s1 arr l ins,
  init_loop n dist L arr l ins (s1 ++ id :: id :: s2) = init_loop n dist L arr l ins (s1 ++ id :: s2).
Proof.
  intros n dist L id s2. induction s1 as [|i s1 IH]; intros arr l ins; cbn [app].
  - cbn [init_loop]. destruct (id <? n) eqn:En; cbn [bind]; [|reflexivity].
    destruct (set_mem id ins) eqn:Em; cbn [bind].
    + rewrite Em. cbn [bind]. destruct (l =? L); reflexivity.
    + destruct (wr arr l (mkN id (dist id) true)) as [arr'| | | |]; cbn [bind]; try reflexivity.
      destruct (S l =? L) eqn:El; [reflexivity|].
      assert (Em' : set_mem id (id :: ins) = true) by (unfold set_mem; cbn [existsb]; rewrite Nat.eqb_refl; reflexivity).
      rewrite Em'. cbn [bind]. rewrite El. reflexivity.
  - cbn [init_loop]. destruct (if i <? n then Ok (dist i) else UB) as [d| | | |]; cbn [bind]; try reflexivity.
    destruct (if set_mem i ins then Ok (arr, l, ins) else do arr' <- wr arr l (mkN i d true); Ok (arr', S l, i :: ins)) as [[[arr' l'] ins']| | | |]; cbn [bind]; try reflexivity.
    destruct (l' =? L); [reflexivity|]. apply IH.
Qed.

Lemma starts_app : forall m a b, filter_starts m (a ++ b) = filter_starts m a ++ filter_starts m b.
Proof. intros m a b. induction a as [|x a IH]; [reflexivity|]. cbn. destruct (medoid_of m x); cbn; rewrite IH; reflexivity. Qed.

Lemma greedy_ext : forall n dist a1 a2 L gs, (forall id, a1 id = a2 id) -> forall fuel i st,
  greedy_loop fuel n dist a1 L gs i st = greedy_loop fuel n dist a2 L gs i st.
Proof.
  intros n dist a1 a2 L gs H. induction fuel as [|fuel IH]; intros i st; cbn [greedy_loop]; destruct (greedy_running st); try reflexivity.
  assert (E : greedy_step n dist a1 L (gs i) st = greedy_step n dist a2 L (gs i) st).
  { unfold greedy_step. destruct (rd (p_arr (g_pool st)) (g_k st)) as [x| | | |]; cbn [bind]; try reflexivity. destruct (nflag x); [|reflexivity].
    destruct (wr (p_arr (g_pool st)) (g_k st) (mkN (nid x) (ndist x) false)) as [arr| | | |]; cbn [bind]; try reflexivity.
    destruct (rd (gs i) (nid x)) as [des| | | |]; cbn [bind]; try reflexivity. rewrite (process_ext _ _ a1 a2) by exact H. reflexivity. }
  rewrite E. destruct (greedy_step n dist a2 L (gs i) st); cbn [bind]; auto.
Qed.

Lemma vamana_repeat : forall sortf ix dist L k fs1 x fs2 indices distances,
  vamana_search sortf ix dist L k (fs1 ++ x :: x :: fs2) indices distances = vamana_search sortf ix dist L k (fs1 ++ x :: fs2) indices distances.
Proof.
  intros sortf ix dist L k fs1 x fs2 ind dst. unfold vamana_search.
  assert (E : greedy_search sortf (ix_n ix) dist (passes_filter (ix_labels ix) (fs1 ++ x :: x :: fs2)) L (ix_graph ix) (vamana_init_ids ix (fs1 ++ x :: x :: fs2)) =
              greedy_search sortf (ix_n ix) dist (passes_filter (ix_labels ix) (fs1 ++ x :: fs2)) L (ix_graph ix) (vamana_init_ids ix (fs1 ++ x :: fs2))).
  { unfold greedy_search, greedy_search_dyn.
    assert (Ei : greedy_init sortf (ix_n ix) dist L (vamana_init_ids ix (fs1 ++ x :: x :: fs2)) = greedy_init sortf (ix_n ix) dist L (vamana_init_ids ix (fs1 ++ x :: fs2))).
    { assert (V : forall a, vamana_init_ids ix (fs1 ++ x :: a) = filter_starts (ix_medoids ix) (fs1 ++ x :: a)) by (intros a; unfold vamana_init_ids; destruct fs1; reflexivity).
      rewrite !V, !starts_app. cbn [filter_starts]. destruct (medoid_of (ix_medoids ix) x) as [id|]; [|reflexivity].
      unfold greedy_init. rewrite init_repeat. reflexivity. }
    rewrite Ei. destruct (greedy_init sortf (ix_n ix) dist L (vamana_init_ids ix (fs1 ++ x :: fs2))); cbn [bind]; try reflexivity.
    apply greedy_ext. apply passes_repeat. }
  rewrite E. reflexivity.
Qed.

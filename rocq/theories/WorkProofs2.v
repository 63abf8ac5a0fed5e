(** * Lemmas for C122: bounds, a list with room for every point, IVF and LSH. *)
From Coq Require Import NArith String List Arith Lia Bool Sorting.Permutation.
From Verif Require Import Base Float32 Float32Facts PoolModel PoolProofs TopKSpec SortSpec GraphSpec GreedyModel GreedyProofs SearchModel SearchSpec SearchProofs HnswModel HnswSpec HnswProofs ListLemmas
  ClosestModel ClosestSpec FlatModel FlatSpec FlatProofs IvfModel IvfProofs LshModel LshSpec LshProofs FilterSpec AcceptProofs WideSpec LongerSpec LongerProofs LongerProofs2 WorkModel WorkSpec WorkProofs.
Import ListNotations.

Lemma below_length : forall n l, NoDup l -> (forall x, In x l -> x < n) -> length l <= n.
Proof.
  intros n l N H. rewrite <- (seq_length n 0). apply NoDup_incl_length; [exact N|]. intros x Hx. apply in_seq. specialize (H x Hx). lia.
Qed.

Lemma apart_NoDup : forall (A : Type) (l l' : list A), NoDup l -> NoDup l' -> (forall x, In x l -> ~ In x l') -> NoDup (l ++ l').
Proof.
  intros A l. induction l as [|a l IH]; intros l' N N' H; [exact N'|]. inversion N as [|? ? X Y]; subst. cbn. constructor.
  - intros C. apply in_app_or in C. destruct C as [C|C]; [auto|]. apply (H a (or_introl eq_refl)). exact C.
  - apply IH; auto. intros x Hx. apply H. right. exact Hx.
Qed.

Lemma work_known : forall acc g n starts ex cm, work acc g n starts ex cm -> NoDup (starts ++ cm).
Proof.
  intros acc g n starts ex cm [_ [N [N' [H _]]]]. apply apart_NoDup; auto. intros x Hx C. apply H in C. tauto.
Qed.

Lemma work_bounds : forall acc g n starts ex cm R, work acc g n starts ex cm -> (forall x l, nth_error g x = Some l -> length l <= R) ->
  length starts + length cm <= n /\ length ex <= length starts + length cm /\ length cm <= R * length ex.
Proof.
  intros acc g n starts ex cm R W HR. assert (K := work_known _ _ _ _ _ _ W). destruct W as [N1 [N2 [N3 [H1 [H2 H3]]]]].
  rewrite <- app_length. split; [|split].
  - apply below_length; auto. intros x Hx. apply H3. apply in_app_or. exact Hx.
  - apply NoDup_incl_length; auto. intros x Hx. apply in_or_app. auto.
  - assert (Hi : incl cm (concat (map (fun e => nth e g []) ex))).
    { intros x Hx. apply H1 in Hx. destruct Hx as [_ [e [He [l [El [Hl _]]]]]]. apply in_concat. exists (nth e g []).
      split; [apply in_map_iff; exists e; auto|]. rewrite (nth_error_nth _ _ _ El). exact Hl. }
    apply NoDup_incl_length in Hi; [|exact N2]. eapply Nat.le_trans; [exact Hi|]. clear - HR. induction ex as [|e ex IH]; cbn; [lia|].
    rewrite app_length. assert (length (nth e g []) <= R).
    { destruct (nth_error g e) as [l|] eqn:E; [rewrite (nth_error_nth _ _ _ E); eauto|]. apply nth_error_None in E. rewrite nth_overflow by exact E. cbn. lia. }
    lia.
Qed.

(** What a search with both counters at zero leaves in them. *)
Lemma vamana_work_bounds : forall sortf ix dist L res_count filters indices distances R i d count hops cmps,
  sorts sortf -> index_ok ix -> 1 <= L -> (forall id, is_nan (dist id) = false) ->
  (filters = [] \/ length (pts_to_labels (ix_labels ix)) = ix_n ix) ->
  res_count <= L + 1 -> res_count <= length indices -> res_count <= length distances ->
  (forall x l, nth_error (ix_graph ix) x = Some l -> length l <= R) ->
  vamana_search_counted sortf ix dist L res_count filters indices distances (Some (0, 0)) = Ok (i, d, count, Some (hops, cmps)) ->
  count <= hops /\ hops <= Nat.min L (Nat.max 1 (length filters)) + cmps /\ cmps <= ix_n ix /\ cmps <= R * hops /\ (filters = [] -> cmps < ix_n ix).
Proof.
  intros sortf ix dist L rc fs ind dst R i d count hops cmps Hs Hix HL Hnan Hfl Hrc Hi Hd HR E.
  destruct (vamana_work sortf ix dist L rc fs ind dst 0 0) as [acc [en [st [ex [cm [ids [i' [d' [_ [E1 [E2 [E3 [_ [_ [Hrep [Hin [Rm [W _]]]]]]]]]]]]]]]]]]; auto.
  rewrite E3 in E. injection E as -> -> <- <- <-.
  destruct (work_bounds _ _ _ _ _ _ R W HR) as [B1 [B2 B3]]. split; [apply NoDup_incl_length; [apply Hrep|exact Hin]|].
  destruct Rm as [R1 [R2 R3]].
  assert (Hs1 : length st <= Nat.max 1 (length fs)).
  { assert (length st <= length en) by (apply NoDup_incl_length; [apply W|exact R1]).
    destruct fs as [|f fs]; [rewrite (E1 eq_refl) in H; cbn [length] in *; lia|]. assert (E4 : length en <= length (f :: fs)) by (apply E2; discriminate). cbn [length] in *. lia. }
  split; [lia|]. split; [lia|]. split; [exact B3|]. intros ->. rewrite (E1 eq_refl) in *. cbn in R3. specialize (R3 HL).
  assert (1 <= length st). { destruct st; [destruct (R3 (ix_start ix) (or_introl eq_refl))|cbn; lia]. } lia.
Qed.

(** ** A list with room for every point *)
Lemma reach_in : forall acc g (S : nat -> Prop) l x, (forall y, S y -> In y l) -> (forall y z, In y l -> edge acc g y z -> In z l) -> reach acc g S x -> In x l.
Proof. intros acc g S l x H1 H2 R. induction R; eauto. Qed.

Lemma vamana_work_full : forall sortf ix dist L res_count indices distances hops cmps,
  sorts sortf -> index_ok ix -> ix_n ix <= L -> (forall id, is_nan (dist id) = false) ->
  res_count <= L + 1 -> res_count <= length indices -> res_count <= length distances ->
  (forall x, x < ix_n ix -> reach (fun _ => true) (ix_graph ix) (fun y => y = ix_start ix) x) ->
  exists i d count, vamana_search_counted sortf ix dist L res_count [] indices distances (Some (hops, cmps)) =
    Ok (i, d, count, Some (hops + ix_n ix, cmps + (ix_n ix - 1))).
Proof.
  intros sortf ix dist L rc ind dst h m Hs Hix HnL Hnan Hrc Hi Hd Hr. assert (HL : 1 <= L) by (destruct Hix as [X _]; lia).
  destruct (vamana_work sortf ix dist L rc [] ind dst h m) as [acc [en [st [ex [cm [ids [i' [d' [Ft [E1 [_ [E3 [_ [_ [_ [_ [Rm [W Hf]]]]]]]]]]]]]]]]]]; auto.
  specialize (Hf HnL). specialize (E1 eq_refl). subst en. assert (Hst := only_start _ _ _ HL (proj1 (proj2 (proj2 W))) Rm). subst st.
  assert (K := work_known _ _ _ _ _ _ W). assert (W' := W). destruct W' as [N1 [N2 [N3 [H1 [H2 H3]]]]].
  assert (Hall : forall x, x < ix_n ix -> In x ex).
  { intros x Hx. apply (reach_in acc (ix_graph ix) (fun y => y = ix_start ix)).
    - intros y ->. apply Hf. left. reflexivity.
    - intros y z Hy He. apply Hf. cbn. destruct (Nat.eq_dec (ix_start ix) z) as [|Hne]; [auto|]. right. apply H1. split; [intros [C|[]]; auto|]. exists y. auto.
    - assert (R := Hr x Hx). clear - R Ft. induction R; [constructor; auto|]. eapply reach_edge; [exact IHR|].
      destruct H as [l [A [B _]]]. exists l. repeat split; auto. apply (proj1 Ft eq_refl). }
  assert (Lx : length ex = ix_n ix).
  { apply Nat.le_antisymm; [apply below_length; auto; intros x Hx; apply H3; apply H2; exact Hx|].
    rewrite <- (seq_length (ix_n ix) 0). apply NoDup_incl_length; [apply seq_NoDup|]. intros x Hx. apply in_seq in Hx. apply Hall. lia. }
  assert (Lc : length cm = ix_n ix - 1).
  { assert (length ([ix_start ix] ++ cm) = ix_n ix); [|cbn in H; lia]. apply Nat.le_antisymm.
    - apply below_length; [exact K|]. intros x Hx. apply H3. apply in_app_or. exact Hx.
    - rewrite <- Lx. apply NoDup_incl_length; [exact N1|]. intros x Hx. apply in_or_app. apply H2. exact Hx. }
  exists i', d', (length ids). etransitivity; [exact E3|]. rewrite Lx, Lc. reflexivity.
Qed.

(** ** HNSW *)
Lemma descent_length : forall levels ws, descent levels ws -> length ws = length levels.
Proof. induction levels as [|ix inner IH]; intros [|w ws] H; try reflexivity; try destruct H. cbn. f_equal. apply IH. apply H0. Qed.

Lemma descent_bounds : forall levels ws R, descent levels ws -> levels <> [] -> (forall ix x l, In ix levels -> nth_error (ix_graph ix) x = Some l -> length l <= R) ->
  total v_compared ws <= list_sum (map ix_n levels) /\ total v_compared ws <= R * total v_expanded ws /\ total v_expanded ws <= list_sum (map ix_n levels).
Proof.
  unfold total. induction levels as [|ix inner IH]; intros ws R D Hne HR; [congruence|]. destruct ws as [|w ws]; [destruct D|].
  destruct D as [W [_ D]]. destruct (work_bounds _ _ _ _ _ _ R W) as [B1 [B2 B3]]; [intros x l; apply HR; left; reflexivity|].
  cbn [map list_sum fold_right]. fold (list_sum). 
  destruct inner as [|inn inner]; [destruct ws; [cbn; lia|destruct D]|].
  destruct (IH ws R D) as [C1 [C2 C3]]; [discriminate|intros; eapply HR; [right|]; eauto|].
  change (fold_right Nat.add 0) with list_sum in *. lia.
Qed.

Lemma hnsw_work_bounds : forall sortf L rc levels dist filters ind dst R i d count hops cmps, sorts sortf -> 1 <= L -> rc <= L ->
  levels_ok levels -> (forall id, is_nan (dist id) = false) -> rc <= length ind -> rc <= length dst ->
  (forall ix x l, In ix levels -> nth_error (ix_graph ix) x = Some l -> length l <= R) ->
  hnsw_search_counted sortf levels dist L rc filters ind dst (Some (0, 0)) = Ok (i, d, count, Some (hops, cmps)) ->
  count <= hops /\ hops <= list_sum (map ix_n levels) /\ cmps <= list_sum (map ix_n levels) /\ cmps <= R * hops.
Proof.
  intros sortf L rc levels dist filters ind dst R i d count hops cmps Hs HL Hrc Hlv Hnan Hi Hd HR E. destruct levels as [|ix inner]; [destruct Hlv|].
  destruct (hnsw_work sortf L rc Hs HL Hrc inner ix dist filters ind dst 0 0 Hlv Hnan Hi Hd) as [w [ws [ids [i' [d' [E1 [_ [_ [Hrep [Hin D]]]]]]]]]].
  rewrite E1 in E. injection E as -> -> <- <- <-.
  destruct (descent_bounds _ _ R D ltac:(discriminate) HR) as [B1 [B2 B3]]. split; [|cbn [Nat.add]; auto].
  eapply Nat.le_trans; [apply NoDup_incl_length; [apply Hrep|exact Hin]|]. unfold total. cbn. lia.
Qed.

(** ** IVF and LSH *)
Lemma ivf_work : forall popf mbs ix cdist dist probe m filters indices distances hops cmps,
  pops popf -> 1 <= mbs -> ivf_ok ix -> probe <= ivf_nc ix -> 1 <= m ->
  (filters = [] \/ length (pts_to_labels (ivf_labels ix)) = ivf_n ix) ->
  (forall c, is_nan (cdist c) = false) -> (exists c, c < ivf_nc ix /\ flt (cdist c) FLT_MAX = true) ->
  finite_distances (ivf_n ix) dist -> room m indices distances ->
  exists acc probed compared ids indices' distances',
    filter_test (universal_of (ivf_labels ix)) (pts_to_labels (ivf_labels ix)) filters acc /\
    length probed = probe /\ NoDup probed /\ (forall c, In c probed -> c < ivf_nc ix) /\
    is_top_k probe (score cdist (seq 0 (ivf_nc ix))) (score cdist probed) /\
    ivf_search_counted popf mbs ix cdist dist probe m filters indices distances (Some (hops, cmps)) =
      Ok (indices', distances', length ids, Some (hops, cmps + length compared)) /\
    ivf_search_counted popf mbs ix cdist dist probe m filters indices distances None = Ok (indices', distances', length ids, None) /\
    NoDup compared /\ (forall x, In x compared <-> acc x = true /\ exists c l, In c probed /\ nth_error (ivf_inv ix) c = Some l /\ In x l) /\
    incl ids compared /\ holds dist ids indices indices' distances distances'.
Proof.
  intros popf mbs ix cdist dist probe m filters indices distances h c0 Hp Hmb [Hl Hin] Hpr Hm Hlab Hnan Hfin Hd Hr.
  destruct (ivf_candidates_ok popf mbs ix cdist probe Hp Hmb Hpr Hl Hnan Hfin) as [probed [A [B [C [D E]]]]].
  set (cands := concat (map (fun c => nth c (ivf_inv ix) []) probed)) in *.
  assert (Hc : forall id, In id cands -> id < ivf_n ix).
  { intros id H. unfold cands in H. apply in_concat in H. destruct H as [l [H1 H2]]. apply in_map_iff in H1.
    destruct H1 as [c [<- Hc]]. apply (Hin (nth c (ivf_inv ix) [])); auto. apply nth_In. rewrite Hl. auto. }
  destruct (flat_search_ok (ivf_n ix) dist (passes_filter (ivf_labels ix) filters) (acc_of (ivf_labels ix) filters) m cands indices distances)
    as [ids [i' [d' [E2 [T [N [F H]]]]]]]; auto.
  { intros id Hid. apply (acc_of_ok _ _ (ivf_n ix)); auto. }
  exists (acc_of (ivf_labels ix) filters), probed, (nodup Nat.eq_dec (filter (acc_of (ivf_labels ix) filters) cands)), ids, i', d'.
  split; [apply acc_filter_test|]. repeat (split; [solve [auto]|]).
  unfold ivf_search_counted, ivf_search. rewrite E. cbn [bind]. rewrite E2. cbn [bind add_cmps].
  split; [reflexivity|]. split; [reflexivity|]. split; [apply NoDup_nodup|]. split.
  - intros x. rewrite nodup_In, filter_In. unfold cands. rewrite in_concat. split.
    + intros [[l [H1 H2]] H3]. split; [exact H3|]. apply in_map_iff in H1. destruct H1 as [c [<- Hc']]. exists c, (nth c (ivf_inv ix) []).
      split; [exact Hc'|]. split; [apply nth_error_nth'; rewrite Hl; auto|exact H2].
    + intros [H3 [c [l [H1 [H2 H4]]]]]. split; [|exact H3]. exists l. split; [|exact H4]. apply in_map_iff. exists c. split; [|exact H1]. apply nth_error_nth. exact H2.
  - split; [|exact H]. intros x Hx. destruct (F x Hx) as [F1 F2]. apply nodup_In. apply filter_In. auto.
Qed.

Lemma lsh_work : forall dotf data ts planes ix q dist m filters indices distances hops cmps,
  (ts <= 64)%N -> l_tags ix = seq 0 (l_n ix) -> lsh_new ix -> 1 <= m ->
  (filters = [] \/ length (pts_to_labels (l_labels ix)) = l_n ix) ->
  finite_distances (l_n ix) dist -> room m indices distances ->
  exists acc ix' ix'' compared ids indices' distances',
    filter_test (universal_of (l_labels ix)) (pts_to_labels (l_labels ix)) filters acc /\
    lsh_build dotf data ts planes ix = Ok ix' /\
    lsh_search_counted dotf ix' q dist m filters indices distances (Some (hops, cmps)) =
      Ok (indices', distances', length ids, Some (hops, cmps + length compared), ix'') /\
    lsh_search_counted dotf ix' q dist m filters indices distances None = Ok (indices', distances', length ids, None, ix'') /\
    NoDup compared /\
    (forall id, In id compared <-> id < l_n ix /\ acc id = true /\ collide dotf planes q (data id)) /\
    holds dist ids indices indices' distances distances'.
Proof.
  intros dotf data ts planes ix q dist m filters indices distances h c0 H1 H2 H3 H4 H5 H6 H7.
  destruct (lsh_search_test dotf data ts planes ix q dist m filters indices distances) as [acc [ix' [ix'' [cm [ids [i' [d' [A [B [C [D [E [_ F]]]]]]]]]]]]]; auto.
  exists acc, ix', ix'', cm, ids, i', d'. split; [exact A|]. split; [exact B|]. unfold lsh_search_counted. rewrite C. cbn [bind add_cmps].
  repeat (split; [solve [auto]|]). auto.
Qed.

(** ** A longer list *)
Lemma vamana_work_longer : forall sortf ix dist L L' k k' filters indices distances indices' distances' hops cmps,
  sorts sortf -> index_ok ix -> 1 <= L -> L <= L' -> (forall id, is_nan (dist id) = false) -> no_ties (ix_n ix) dist ->
  (filters = [] \/ length (pts_to_labels (ix_labels ix)) = ix_n ix) -> length filters <= L ->
  k <= L + 1 -> k' <= L' + 1 -> k <= length indices -> k <= length distances -> k' <= length indices' -> k' <= length distances' ->
  exists r h c r' h' c', vamana_search_counted sortf ix dist L k filters indices distances (Some (hops, cmps)) = Ok (r, Some (hops + h, cmps + c)) /\
    vamana_search_counted sortf ix dist L' k' filters indices' distances' (Some (hops, cmps)) = Ok (r', Some (hops + h', cmps + c')) /\
    h <= h' /\ c <= c'.
Proof.
  intros sortf ix dist L L' k k' fs ind dst ind' dst' h m Hs Hix HL HLL Hnan Ht Hfl HfL Hk Hk' H1 H2 H3 H4.
  assert (Hlen : length (vamana_init_ids ix fs) <= L).
  { unfold vamana_init_ids. destruct fs as [|f fs]; [cbn; lia|]. eapply Nat.le_trans; [apply filter_starts_length|exact HfL]. }
  destruct (greedy_longer sortf (ix_n ix) dist (passes_filter (ix_labels ix) fs) (acc_of (ix_labels ix) fs) L L' (ix_graph ix) (vamana_init_ids ix fs))
    as [st [st' [E [E' [_ [Hh [Hc _]]]]]]]; auto; try apply Hix.
  { intros id Hid. eapply acc_of_ok; eauto. } { apply init_ids_ok. auto. }
  destruct (vamana_work sortf ix dist L k fs ind dst h m) as [a1 [a2 [a3 [ex [cm [ids [i1 [d1 [_ [_ [_ [F [_ [V _]]]]]]]]]]]]]]; auto.
  destruct (vamana_work sortf ix dist L' k' fs ind' dst' h m) as [b1 [b2 [b3 [ex' [cm' [ids' [i2 [d2 [_ [_ [_ [F' [_ [V' _]]]]]]]]]]]]]]; auto; try lia.
  unfold vamana_search_counted in F. rewrite E in F. cbn [bind] in F. cbv zeta in F.
  unfold vamana_search_counted in F'. rewrite E' in F'. cbn [bind] in F'. cbv zeta in F'.
  destruct (report (ix_tags ix) (p_arr (g_pool st)) 0 k ind dst) as [r| | | |] eqn:Er; cbn [bind] in F; try discriminate.
  destruct (report (ix_tags ix) (p_arr (g_pool st')) 0 k' ind' dst') as [r'| | | |] eqn:Er'; cbn [bind] in F'; try discriminate.
  exists (r, min k (p_cur (g_pool st))), (g_hops st), (p_cmps (g_pool st)), (r', min k' (p_cur (g_pool st'))), (g_hops st'), (p_cmps (g_pool st')).
  unfold vamana_search_counted. rewrite E, E'. cbn [bind]. cbv zeta. rewrite Er, Er'. cbn [bind]. split; [reflexivity|]. split; [reflexivity|]. auto.
Qed.

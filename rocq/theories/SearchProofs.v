(** * Lemmas about search results. *)
From Coq Require Import String List Arith Lia Bool Sorting.Sorted Sorting.Permutation.
From Verif Require Import Base Float32 PoolModel TopKSpec SortSpec GraphSpec FilterSpec GreedyModel SearchSpec SearchModel
  ListLemmas PoolProofs PoolProofs2 PoolSafety FilterProofs GreedyProofs.
Import ListNotations.

(** ** Ids stored anywhere in the pool buffer are valid *)
Lemma wr_In : forall (A : Type) (a b : list A) i x z, wr a i x = Ok b -> In z b -> In z a \/ z = x.
Proof.
  intros A a b i x z H Hz. unfold wr in H. destruct (i <? length a); [|discriminate].
  assert (E : b = firstn i a ++ x :: skipn (S i) a) by congruence. rewrite E in Hz. clear H E.
  apply in_app_or in Hz. destruct Hz as [Hz|[Hz|Hz]]; auto.
  - left. eapply In_firstn; eauto.
  - left. rewrite <- (firstn_skipn (S i) a). apply in_or_app. auto.
Qed.

Lemma memmove_In : forall a b s c z, memmove_up a s c = Ok b -> In z b -> In z a.
Proof.
  intros a b s c z H Hz. unfold memmove_up in H. destruct (s + 1 + c <=? length a); [|discriminate].
  assert (E : b = firstn (s + 1) a ++ firstn c (skipn s a) ++ skipn (s + 1 + c) a) by congruence.
  rewrite E in Hz. clear H E.
  apply in_app_or in Hz. destruct Hz as [Hz|Hz]; [eapply In_firstn; eauto|].
  apply in_app_or in Hz. destruct Hz as [Hz|Hz].
  - apply In_firstn in Hz. rewrite <- (firstn_skipn s a). apply in_or_app. auto.
  - rewrite <- (firstn_skipn (s + 1 + c) a). apply in_or_app. auto.
Qed.

Lemma insert_In : forall a K nn b r z, insert_into_pool a K nn = Ok (b, r) -> In z b -> In z a \/ z = nn.
Proof.
  intros a K nn b r z H Hz. unfold insert_into_pool in H.
  apply bind_ok in H. destruct H as [x0 [_ H]]. destruct (fgt (ndist x0) (ndist nn)).
  - apply bind_ok in H. destruct H as [a1 [H1 H]]. apply bind_ok in H. destruct H as [a2 [H2 H]].
    assert (a2 = b) by congruence. subst. apply (wr_In _ _ _ _ _ _ H2) in Hz. destruct Hz; auto.
    left. eapply memmove_In; eauto.
  - destruct K as [|right0]; [discriminate|].
    apply bind_ok in H. destruct H as [xr0 [_ H]]. destruct (flt (ndist xr0) (ndist nn)).
    + apply bind_ok in H. destruct H as [a1 [H1 H]]. assert (a1 = b) by congruence. subst.
      apply (wr_In _ _ _ _ _ _ H1) in Hz. auto.
    + apply bind_ok in H. destruct H as [[l rr] [_ H]]. apply bind_ok in H. destruct H as [w [_ H]].
      destruct w as [l1|]; [|assert (a = b) by congruence; subst; auto].
      apply bind_ok in H. destruct H as [xl [_ H]]. apply bind_ok in H. destruct H as [xr [_ H]].
      destruct ((nid xl =? nid nn) || (nid xr =? nid nn)); [assert (a = b) by congruence; subst; auto|].
      apply bind_ok in H. destruct H as [a1 [H1 H]]. apply bind_ok in H. destruct H as [a2 [H2 H]].
      assert (a2 = b) by congruence. subst. apply (wr_In _ _ _ _ _ _ H2) in Hz. destruct Hz; auto.
      left. eapply memmove_In; eauto.
Qed.

Definition buf_ids (n : nat) (p : pool_state) : Prop := forall z, In z (p_arr p) -> nid z < n.

Lemma process_one_ids : forall n dist accept m st id st', process_one n dist accept m st id = Ok st' ->
  buf_ids n st -> buf_ids n st'.
Proof.
  intros n dist accept m st id st' H Hb. unfold process_one in H.
  apply bind_ok in H. destruct H as [ok [_ H]]. destruct (negb ok); [inversion H; subst; auto|].
  destruct (set_mem id (p_ins st)); [inversion H; subst; auto|].
  apply bind_ok in H. destruct H as [d [Hd H]]. destruct (id <? n) eqn:E; [|discriminate]. apply Nat.ltb_lt in E.
  apply bind_ok in H. destruct H as [skip [_ H]]. destruct skip.
  - inversion H. subst. exact Hb.
  - apply bind_ok in H. destruct H as [[arr' r] [Hi H]]. inversion H. subst. intros z Hz. cbn in Hz.
    apply (insert_In _ _ _ _ _ _ Hi) in Hz. destruct Hz as [Hz| ->]; auto.
Qed.

Lemma process_loop_ids : forall n dist accept m l st st', process_loop n dist accept m st l = Ok st' ->
  buf_ids n st -> buf_ids n st'.
Proof.
  intros n dist accept m l. induction l as [|id l IH]; intros st st' H Hb; cbn in H; [inversion H; subst; auto|].
  apply bind_ok in H. destruct H as [st1 [H1 H]]. eapply IH; eauto. eapply process_one_ids; eauto.
Qed.

Lemma greedy_step_ids : forall n dist accept L g st st', greedy_step n dist accept L g st = Ok st' ->
  buf_ids n (g_pool st) -> buf_ids n (g_pool st').
Proof.
  intros n dist accept L g st st' H Hb. unfold greedy_step in H.
  apply bind_ok in H. destruct H as [x [Hx H]]. destruct (nflag x).
  - apply bind_ok in H. destruct H as [arr1 [Hw H]]. apply bind_ok in H. destruct H as [des [_ H]].
    apply bind_ok in H. destruct H as [p' [Hp H]]. inversion H. cbn. unfold process_candidates in Hp.
    eapply process_loop_ids; [exact Hp|]. intros z Hz. cbn in Hz.
    apply (wr_In _ _ _ _ _ _ Hw) in Hz. destruct Hz as [Hz| ->]; auto. cbn. apply Hb.
    apply rd_ok in Hx. eapply nth_error_In; eauto.
  - inversion H. auto.
Qed.

Lemma greedy_loop_ids : forall n dist accept L gs fuel i st st', greedy_loop fuel n dist accept L gs i st = Ok st' ->
  buf_ids n (g_pool st) -> buf_ids n (g_pool st').
Proof.
  intros n dist accept L gs. induction fuel as [|fuel IH]; intros i st st' H Hb; cbn [greedy_loop] in H.
  - destruct (greedy_running st); [discriminate|inversion H; subst; auto].
  - destruct (greedy_running st); [|inversion H; subst; auto]. apply bind_ok in H. destruct H as [st1 [H1 H]].
    eapply IH; eauto. eapply greedy_step_ids; eauto.
Qed.

Lemma init_loop_ids : forall n dist L ids arr l ins arr' l' ins',
  init_loop n dist L arr l ins ids = Ok (arr', l', ins') ->
  (forall z, In z arr -> nid z < n) -> forall z, In z arr' -> nid z < n.
Proof.
  intros n dist L ids. induction ids as [|id ids IH]; intros arr l ins arr' l' ins' H Hb; cbn [init_loop] in H.
  - inversion H. subst. auto.
  - apply bind_ok in H. destruct H as [d [Hd H]]. destruct (id <? n) eqn:E; [|discriminate]. apply Nat.ltb_lt in E.
    apply bind_ok in H. destruct H as [[[a1 l1] i1] [H1 H]].
    assert (Hb1 : forall z, In z a1 -> nid z < n).
    { destruct (set_mem id ins); [inversion H1; subst; auto|].
      apply bind_ok in H1. destruct H1 as [a2 [Hw H1]]. inversion H1; subst. intros z Hz.
      apply (wr_In _ _ _ _ _ _ Hw) in Hz. destruct Hz as [Hz| ->]; auto. }
    destruct (l1 =? L); [inversion H; subst; auto|]. eapply IH; eauto.
Qed.

Lemma greedy_search_ids : forall sortf n dist accept L gs ids st, sorts sortf ->
  (forall id, is_nan (dist id) = false) -> 1 <= n ->
  greedy_search_dyn sortf n dist accept L gs ids = Ok st -> buf_ids n (g_pool st).
Proof.
  intros sortf n dist accept L gs ids st Hs Hnan Hn H. unfold greedy_search_dyn in H.
  apply bind_ok in H. destruct H as [st0 [H0 H]]. eapply greedy_loop_ids; [exact H|].
  unfold greedy_init in H0. apply bind_ok in H0. destruct H0 as [[[arr l] ins] [Hi H0]].
  inversion H0. cbn. intros z Hz. cbn in Hz.
  assert (Ha : forall z, In z arr -> nid z < n).
  { eapply init_loop_ids; [exact Hi|]. intros y Hy. apply repeat_spec in Hy. subst. cbn. lia. }
  apply in_app_or in Hz. destruct Hz as [Hz|Hz].
  - assert (Hno : forall y, In y (firstn l arr) -> is_nan (ndist y) = false).
    { assert (Hall : forall y, In y arr -> is_nan (ndist y) = false).
      { clear - Hi Hnan. revert arr l ins Hi. assert (Hr : forall y, In y (repeat default_neighbor (L + 1)) -> is_nan (ndist y) = false).
        { intros y Hy. apply repeat_spec in Hy. subst. reflexivity. }
        revert Hr. generalize (repeat default_neighbor (L + 1)) as a0. generalize 0 as l0. generalize (@nil nat) as i0.
        induction ids as [|id ids IH]; intros i0 l0 a0 Hr arr l ins Hi; cbn [init_loop] in Hi.
        - inversion Hi. subst. auto.
        - apply bind_ok in Hi. destruct Hi as [d [Hd Hi]]. destruct (id <? n); [|discriminate]. inversion Hd; subst d.
          apply bind_ok in Hi. destruct Hi as [[[a1 l1] i1] [H1 Hi]].
          assert (Hb1 : forall z, In z a1 -> is_nan (ndist z) = false).
          { destruct (set_mem id i0); [inversion H1; subst; auto|].
            apply bind_ok in H1. destruct H1 as [a2 [Hw H1]]. inversion H1; subst. intros z Hz.
            apply (wr_In _ _ _ _ _ _ Hw) in Hz. destruct Hz as [Hz| ->]; auto. cbn. auto. }
          destruct (l1 =? L); [inversion Hi; subst; auto|]. eapply IH; eauto. }
      intros y Hy. apply Hall. eapply In_firstn; eauto. }
    destruct (Hs _ Hno) as [P _]. apply (Permutation_in _ (Permutation_sym P)) in Hz.
    apply Ha. eapply In_firstn; eauto.
  - apply Ha. rewrite <- (firstn_skipn l arr). apply in_or_app. auto.
Qed.

(** ** The reporting loop *)
Lemma report_ok : forall tags arr cnt i ind dst,
  i + cnt <= length arr -> i + cnt <= length ind -> i + cnt <= length dst ->
  (forall z, In z arr -> nid z < length tags) ->
  exists ind' dst', report tags arr i cnt ind dst = Ok (ind', dst') /\
    length ind' = length ind /\ length dst' = length dst /\
    (forall j, j < i \/ i + cnt <= j -> nth_error ind' j = nth_error ind j /\ nth_error dst' j = nth_error dst j) /\
    (forall j z, i <= j -> j < i + cnt -> nth_error arr j = Some z ->
       nth_error ind' j = nth_error tags (nid z) /\ nth_error dst' j = Some (ndist z)).
Proof.
  intros tags arr cnt. induction cnt as [|cnt IH]; intros i ind dst Ha Hi Hd Ht.
  - exists ind, dst. cbn. repeat split; auto; lia.
  - cbn [report]. destruct (rd_lt _ arr i) as [x Hx]; [lia|]. rewrite Hx. cbn [bind].
    assert (Hxe : nth_error arr i = Some x) by (apply rd_ok; auto).
    destruct (rd_lt _ tags (nid x)) as [t Htg]; [apply Ht; eapply nth_error_In; eauto|]. rewrite Htg. cbn [bind].
    destruct (wr_nth _ ind i t) as [ind1 [W1 [L1 N1]]]; [lia|]. rewrite W1. cbn [bind].
    destruct (wr_nth _ dst i (ndist x)) as [dst1 [W2 [L2 N2]]]; [lia|]. rewrite W2. cbn [bind].
    destruct (IH (S i) ind1 dst1) as [ind' [dst' [E [Li [Ld [Out In']]]]]]; try lia; auto.
    exists ind', dst'. split; [auto|]. split; [lia|]. split; [lia|]. split.
    + intros j Hj. destruct (Out j) as [O1 O2]; [lia|]. rewrite O1, O2, N1, N2.
      destruct (Nat.eq_dec j i); [lia|auto].
    + intros j z Hj1 Hj2 Hz. destruct (Nat.eq_dec j i) as [->|].
      * destruct (Out i) as [O1 O2]; [lia|]. rewrite O1, O2, N1, N2.
        destruct (Nat.eq_dec i i); [|congruence]. assert (z = x) by congruence. subst. split; auto.
        apply rd_ok in Htg. auto.
      * apply In'; auto; lia.
Qed.

Lemma report_past : forall tags arr cnt i ind dst,
  i <= length arr -> length arr < i + cnt -> report tags arr i cnt ind dst = UB.
Proof.
  intros tags arr cnt. induction cnt as [|cnt IH]; intros i ind dst H1 H2; [lia|].
  cbn [report]. destruct (Nat.eq_dec i (length arr)) as [->|Hne].
  - unfold rd at 1. replace (nth_error arr (length arr)) with (@None neighbor); [reflexivity|].
    symmetry. apply nth_error_None. lia.
  - destruct (rd_lt _ arr i) as [x ->]; [lia|]. cbn [bind].
    unfold rd. destruct (nth_error tags (nid x)); [|reflexivity]. cbn [bind].
    destruct (wr ind i n) eqn:E1; try (unfold wr in E1; destruct (i <? length ind); discriminate); [|reflexivity].
    cbn [bind]. destruct (wr dst i (ndist x)) eqn:E2; try (unfold wr in E2; destruct (i <? length dst); discriminate); [|reflexivity].
    cbn [bind]. apply IH; lia.
Qed.

(** ** The common core of the three searches *)
Lemma acc_of_ok : forall lc filters n id,
  (filters = [] \/ length (pts_to_labels lc) = n) -> id < n ->
  passes_filter lc filters id = Ok (acc_of lc filters id).
Proof.
  intros lc filters n id H Hid. unfold acc_of. destruct filters as [|f fs]; [reflexivity|].
  destruct H as [H|H]; [discriminate|].
  destruct (passes_filter_defined lc (f :: fs) id) as [c [b [_ [-> _]]]]; [discriminate|lia|reflexivity].
Qed.

Lemma search_core : forall sortf n dist accept acc L g ids tags res_count ind dst,
  sorts sortf -> 1 <= L -> (forall id, is_nan (dist id) = false) ->
  (forall id, id < n -> accept id = Ok (acc id)) -> graph_ok n g ->
  (forall id, In id ids -> id < n) -> 1 <= n -> length tags = n ->
  res_count <= L + 1 -> res_count <= length ind -> res_count <= length dst ->
  exists st ind' dst',
    greedy_search sortf n dist accept L g ids = Ok st /\
    report tags (p_arr (g_pool st)) 0 res_count ind dst = Ok (ind', dst') /\
    p_cur (g_pool st) = length (found st) /\
    length ind' = length ind /\ length dst' = length dst /\
    (forall i, res_count <= i -> nth_error ind' i = nth_error ind i /\ nth_error dst' i = nth_error dst i) /\
    (forall i z, i < res_count -> nth_error (found st) i = Some z ->
       nth_error ind' i = nth_error tags (nid z) /\ nth_error dst' i = Some (ndist z)).
Proof.
  intros sortf n dist accept acc L g ids tags rc ind dst Hs HL Hnan Hacc Hg Hids Hn Ht Hrc Hi Hd.
  destruct (greedy_dyn_ok sortf n dist accept acc L (fun _ => g) ids) as [st0 [st [_ [E [HI _]]]]]; auto.
  assert (Hbuf := greedy_search_ids _ _ _ _ _ _ _ _ Hs Hnan Hn E).
  destruct (gi_wf _ _ _ _ _ HI) as [Hm [Hlen [Hcur _]]].
  destruct (report_ok tags (p_arr (g_pool st)) rc 0 ind dst) as [ind' [dst' [R1 [R2 [R3 [R4 R5]]]]]]; try lia.
  { intros z Hz. rewrite Ht. apply Hbuf. auto. }
  exists st, ind', dst'. split; [exact E|]. split; [exact R1|]. split.
  - unfold found, pool_entries. rewrite firstn_length. lia.
  - split; [auto|]. split; [auto|]. split.
    + intros i Hi'. apply R4. lia.
    + intros i z Hi' Hz. apply R5; try lia. unfold found, pool_entries in Hz.
      rewrite <- (firstn_skipn (p_cur (g_pool st)) (p_arr (g_pool st))).
      rewrite nth_error_app1; auto. apply nth_error_Some. congruence.
Qed.

Lemma search_reports : forall sortf n dist accept acc L g ids tags res_count ind dst,
  sorts sortf -> 1 <= L -> (forall id, is_nan (dist id) = false) ->
  (forall id, id < n -> accept id = Ok (acc id)) -> graph_ok n g ->
  (forall id, In id ids -> id < n) -> 1 <= n -> length tags = n ->
  res_count <= L + 1 -> res_count <= length ind -> res_count <= length dst ->
  exists st ind' dst',
    greedy_search sortf n dist accept L g ids = Ok st /\
    report tags (p_arr (g_pool st)) 0 res_count ind dst = Ok (ind', dst') /\
    p_cur (g_pool st) = length (found st) /\
    same_from res_count ind' ind /\ same_from res_count dst' dst /\
    reports n tags dist ind' dst' (firstn res_count (map nid (found st))) /\
    (forall z, In z (found st) -> reach acc g (fun x => In x ids) (nid z)).
Proof.
  intros sortf n dist accept acc L g ids tags rc ind dst Hs HL Hnan Hacc Hg Hids Hn Ht Hrc Hi Hd.
  destruct (search_core sortf n dist accept acc L g ids tags rc ind dst) as
    [st [ind' [dst' [E [R [Hc [L1 [L2 [Hsame Hrep]]]]]]]]]; auto.
  destruct (greedy_true_distances sortf n dist accept acc L g ids) as [st' [E' Htrue]]; auto.
  assert (st' = st) by congruence. subst st'.
  destruct (greedy_sorted_distinct sortf n dist accept acc L (fun _ => g) ids) as [st' [E'' [Hsort Hnd]]]; auto.
  assert (st' = st) by (unfold greedy_search in E; congruence). subst st'.
  exists st, ind', dst'. split; [auto|]. split; [auto|]. split; [auto|].
  split; [split; [auto|intros i Hi'; apply Hsame; auto]|].
  split; [split; [auto|intros i Hi'; apply Hsame; auto]|]. split.
  - split; [|split; [|split]].
    + assert (HH : exists t, map nid (found st) = firstn rc (map nid (found st)) ++ t).
      { exists (skipn rc (map nid (found st))). symmetry. apply firstn_skipn. }
      destruct HH as [t HH]. rewrite HH in Hnd. eapply NoDup_app_l; eauto.
    + intros id Hid. apply In_firstn in Hid. apply in_map_iff in Hid. destruct Hid as [z [<- Hz]].
      apply Htrue. auto.
    + assert (HS : StronglySorted (fun x y => fle (dist x) (dist y) = true) (map nid (found st))).
      { assert (Hd' : forall z, In z (found st) -> ndist z = dist (nid z)) by (intros z Hz; apply Htrue; auto).
        clear - Hsort Hd'. induction Hsort as [|a l HS IH HF]; cbn; constructor.
        - apply IH. intros z Hz. apply Hd'. right. auto.
        - rewrite Forall_forall in *. intros x Hx. apply in_map_iff in Hx. destruct Hx as [z [<- Hz]].
          rewrite <- !Hd' by (cbn; auto). auto. }
      rewrite <- (firstn_skipn rc (map nid (found st))) in HS. apply ssorted_app in HS. apply HS.
    + intros i id Hi'. assert (Hlt : i < rc).
      { assert (i < length (firstn rc (map nid (found st)))) by (apply nth_error_Some; congruence).
        rewrite firstn_length in H. lia. }
      rewrite nth_error_firstn_lt in Hi' by auto. rewrite nth_error_map in Hi'.
      destruct (nth_error (found st) i) as [z|] eqn:Ez; [|discriminate]. cbn in Hi'.
      assert (id = nid z) by congruence. subst id.
      destruct (Hrep i z Hlt Ez) as [-> ->]. split; auto. f_equal.
      apply Htrue. eapply nth_error_In; eauto.
  - intros z Hz. apply Htrue. auto.
Qed.

(** ** Vamana and RelativeNG *)
Lemma medoid_of_In : forall m x id, medoid_of m x = Some id -> In (x, id) m.
Proof.
  induction m as [|[y j] m IH]; intros x id H; cbn in H; [discriminate|].
  destruct (String.eqb x y) eqn:E; [|right; auto].
  apply String.eqb_eq in E. inversion H. subst. left. auto.
Qed.

Lemma filter_starts_In : forall m fs id, In id (filter_starts m fs) <-> exists x, In x fs /\ medoid_of m x = Some id.
Proof.
  intros m fs id. induction fs as [|f fs IH]; cbn [filter_starts].
  - split; [intros []|intros [x [[] _]]].
  - destruct (medoid_of m f) as [j|] eqn:E; cbn [In]; rewrite IH; split.
    + intros [->|[x [H1 H2]]]; [exists f|exists x]; auto.
    + intros [x [[->|H1] H2]]; [left; congruence|right; eauto].
    + intros [x [H1 H2]]; exists x; auto.
    + intros [x [[->|H1] H2]]; [congruence|eauto].
Qed.

Lemma init_ids_ok : forall ix filters, index_ok ix -> forall id, In id (vamana_init_ids ix filters) -> id < ix_n ix.
Proof.
  intros ix fs [_ [_ [_ [Hs Hm]]]] id H. unfold vamana_init_ids in H. destruct fs as [|f fs].
  - destruct H as [<-|[]]. auto.
  - apply filter_starts_In in H. destruct H as [x [_ H]]. apply medoid_of_In in H. eauto.
Qed.

Lemma vamana_search_ok : forall sortf ix dist L res_count filters ind dst,
  sorts sortf -> index_ok ix -> 1 <= L -> (forall id, is_nan (dist id) = false) ->
  (filters = [] \/ length (pts_to_labels (ix_labels ix)) = ix_n ix) ->
  res_count <= L + 1 -> res_count <= length ind -> res_count <= length dst ->
  exists st ind' dst',
    greedy_search sortf (ix_n ix) dist (passes_filter (ix_labels ix) filters) L (ix_graph ix)
      (vamana_init_ids ix filters) = Ok st /\
    vamana_search sortf ix dist L res_count filters ind dst = Ok (ind', dst', min res_count (length (found st))) /\
    same_from res_count ind' ind /\ same_from res_count dst' dst /\
    reports (ix_n ix) (ix_tags ix) dist ind' dst' (firstn res_count (map nid (found st))) /\
    (forall z, In z (found st) ->
       reach (acc_of (ix_labels ix) filters) (ix_graph ix) (fun x => In x (vamana_init_ids ix filters)) (nid z)).
Proof.
  intros sortf ix dist L rc fs ind dst Hs Hix HL Hnan Hfl Hrc Hi Hd.
  destruct (search_reports sortf (ix_n ix) dist (passes_filter (ix_labels ix) fs) (acc_of (ix_labels ix) fs) L (ix_graph ix)
    (vamana_init_ids ix fs) (ix_tags ix) rc ind dst) as [st [ind' [dst' [E [R [Hc [S1 [S2 [Hrep Hreach]]]]]]]]]; auto;
    try apply Hix.
  - intros id Hid. eapply acc_of_ok; eauto.
  - apply init_ids_ok. auto.
  - exists st, ind', dst'. split; [auto|]. split; [|auto].
    unfold vamana_search. rewrite E. cbn [bind]. rewrite R. cbn [bind]. rewrite Hc. reflexivity.
Qed.

Lemma vamana_search_past : forall sortf ix dist L res_count filters ind dst,
  sorts sortf -> index_ok ix -> 1 <= L -> (forall id, is_nan (dist id) = false) ->
  (filters = [] \/ length (pts_to_labels (ix_labels ix)) = ix_n ix) ->
  L + 1 < res_count ->
  vamana_search sortf ix dist L res_count filters ind dst = UB.
Proof.
  intros sortf ix dist L rc fs ind dst Hs Hix HL Hnan Hfl Hrc.
  destruct (greedy_dyn_ok sortf (ix_n ix) dist (passes_filter (ix_labels ix) fs) (acc_of (ix_labels ix) fs) L
    (fun _ => ix_graph ix) (vamana_init_ids ix fs)) as [st0 [st [_ [E [HI _]]]]]; auto.
  - intros id Hid. eapply acc_of_ok; eauto.
  - intros _. apply Hix.
  - apply init_ids_ok. auto.
  - destruct (gi_wf _ _ _ _ _ HI) as [Hm [Hlen [Hcur _]]].
    unfold vamana_search, greedy_search. rewrite E. cbn [bind].
    rewrite report_past by lia. reflexivity.
Qed.

Lemma rng_is_vamana : forall sortf ix dist L rc filters ind dst,
  rng_search sortf ix dist L rc filters ind dst = vamana_search sortf ix dist L rc [] ind dst.
Proof. reflexivity. Qed.

(** What the caller sees, for both. *)
Lemma graph_search_tags : forall sortf ix dist L res_count filters ind dst,
  sorts sortf -> index_ok ix -> 1 <= L -> (forall id, is_nan (dist id) = false) ->
  (filters = [] \/ length (pts_to_labels (ix_labels ix)) = ix_n ix) ->
  res_count <= L + 1 -> res_count <= length ind -> res_count <= length dst ->
  exists ind' dst' ids,
    vamana_search sortf ix dist L res_count filters ind dst = Ok (ind', dst', length ids) /\
    length ids <= res_count /\ same_from res_count ind' ind /\ same_from res_count dst' dst /\
    reports (ix_n ix) (ix_tags ix) dist ind' dst' ids.
Proof.
  intros. destruct (vamana_search_ok sortf ix dist L res_count filters ind dst) as
    [st [ind' [dst' [_ [E [S1 [S2 [R _]]]]]]]]; auto.
  exists ind', dst', (firstn res_count (map nid (found st))).
  split; [rewrite E, firstn_length, map_length; auto|].
  split; [rewrite firstn_length; lia|]. auto.
Qed.

Lemma reach_cases : forall acc g (S : nat -> Prop) x, reach acc g S x -> S x \/ acc x = true.
Proof. intros acc g S x H. destruct H as [x H|x y H [nb [_ [_ He]]]]; auto. Qed.

(** Filtered search. *)
Lemma vamana_search_filtered : forall sortf ix dist L res_count filters ind dst,
  sorts sortf -> index_ok ix -> 1 <= L -> (forall id, is_nan (dist id) = false) ->
  length (pts_to_labels (ix_labels ix)) = ix_n ix -> filters <> [] ->
  res_count <= L + 1 -> res_count <= length ind -> res_count <= length dst ->
  exists ind' dst' ids,
    vamana_search sortf ix dist L res_count filters ind dst = Ok (ind', dst', length ids) /\
    reports (ix_n ix) (ix_tags ix) dist ind' dst' ids /\
    forall id labels, In id ids -> nth_error (pts_to_labels (ix_labels ix)) id = Some labels ->
      (exists x, In x filters /\ medoid_of (ix_medoids ix) x = Some id) \/
      matches (universal_of (ix_labels ix)) filters labels.
Proof.
  intros sortf ix dist L rc fs ind dst Hs Hix HL Hnan Hl Hne Hrc Hi Hd.
  destruct (vamana_search_ok sortf ix dist L rc fs ind dst) as
    [st [ind' [dst' [_ [E [S1 [S2 [R Hreach]]]]]]]]; auto.
  exists ind', dst', (firstn rc (map nid (found st))).
  split; [rewrite E, firstn_length, map_length; auto|]. split; [auto|].
  intros id labels Hid Hlab. apply In_firstn in Hid. apply in_map_iff in Hid. destruct Hid as [z [<- Hz]].
  destruct (reach_cases _ _ _ _ (Hreach z Hz)) as [Hin|Hacc].
  - left. unfold vamana_init_ids in Hin. destruct fs as [|f fs]; [congruence|].
    apply filter_starts_In in Hin. exact Hin.
  - right. eapply passes_filter_sound; eauto.
    unfold acc_of in Hacc. destruct (passes_filter (ix_labels ix) fs (nid z)); congruence.
Qed.

(** If every recorded entry point of a label carries it (or the universal label),
    no reported point fails the filter. *)
Lemma vamana_search_matching : forall sortf ix dist L res_count filters ind dst,
  sorts sortf -> index_ok ix -> 1 <= L -> (forall id, is_nan (dist id) = false) ->
  length (pts_to_labels (ix_labels ix)) = ix_n ix -> filters <> [] ->
  (forall x id labels, medoid_of (ix_medoids ix) x = Some id ->
     nth_error (pts_to_labels (ix_labels ix)) id = Some labels -> matches (universal_of (ix_labels ix)) [x] labels) ->
  res_count <= L + 1 -> res_count <= length ind -> res_count <= length dst ->
  exists ind' dst' ids,
    vamana_search sortf ix dist L res_count filters ind dst = Ok (ind', dst', length ids) /\
    reports (ix_n ix) (ix_tags ix) dist ind' dst' ids /\
    forall id labels, In id ids -> nth_error (pts_to_labels (ix_labels ix)) id = Some labels ->
      matches (universal_of (ix_labels ix)) filters labels.
Proof.
  intros sortf ix dist L rc fs ind dst Hs Hix HL Hnan Hl Hne Hmed Hrc Hi Hd.
  destruct (vamana_search_filtered sortf ix dist L rc fs ind dst) as [ind' [dst' [ids [E [R H]]]]]; auto.
  exists ind', dst', ids. split; [auto|]. split; [auto|]. intros id labels Hid Hlab.
  destruct (H id labels Hid Hlab) as [[x [Hx Hm]]|Hm]; auto.
  destruct (Hmed x id labels Hm Hlab) as [C|[[y [[<-|[]] Hy]]|[u [Hu [[<-|[]]|Hu']]]]]; [discriminate| | |].
  - right. left. exists x. auto.
  - right. right. exists x. auto.
  - right. right. exists u. auto.
Qed.

(** ** List size 0 *)
Lemma insert_full_ub : forall x nn, nid x <> nid nn -> insert_into_pool [x] 1 nn = UB.
Proof.
  intros x nn H. unfold insert_into_pool. cbn. destruct (fgt (ndist x) (ndist nn)); [reflexivity|].
  destruct (flt (ndist x) (ndist nn)); [reflexivity|].
  apply Nat.eqb_neq in H. rewrite H. reflexivity.
Qed.

Lemma process_full_ub : forall n dist s nbrs y arr ins c b,
  ins = [s] -> In y nbrs -> y <> s -> (forall z, In z nbrs -> z < n) -> nid arr = s ->
  process_loop n dist (fun _ => Ok true) 0 (mkP [arr] 1 ins c b) nbrs = UB.
Proof.
  intros n dist s nbrs. induction nbrs as [|z nbrs IH]; intros y arr ins c b Hi Hy Hne Hlt Ha; [destruct Hy|].
  cbn [process_loop]. unfold process_one. cbn [bind negb p_ins p_cmps p_cur p_arr p_best]. subst ins.
  cbn [set_mem existsb orb]. destruct (z =? s) eqn:E; cbn [orb].
  - apply Nat.eqb_eq in E. cbn [bind]. destruct Hy as [Hy|Hy]; [congruence|].
    eapply IH; eauto. intros w Hw. apply Hlt. right. auto.
  - apply Nat.eqb_neq in E. assert (Hz : z <? n = true) by (apply Nat.ltb_lt; apply Hlt; left; auto).
    rewrite Hz. cbn [bind]. change (0 <? 1) with true. cbn [bind rd nth_error Nat.sub].
    change (1 =? 0) with false. rewrite andb_false_r.
    rewrite insert_full_ub; [reflexivity|]. cbn. congruence.
Qed.

Lemma greedy_zero_ub : forall sortf n dist g s nbrs y,
  sortf [mkN s (dist s) true] = [mkN s (dist s) true] -> s < n -> nth_error g s = Some nbrs -> In y nbrs -> y <> s ->
  (forall z, In z nbrs -> z < n) ->
  greedy_search sortf n dist (fun _ => Ok true) 0 g [s] = UB.
Proof.
  intros sortf n dist g s nbrs y Hsort Hs Hg Hy Hne Hlt.
  unfold greedy_search, greedy_search_dyn, greedy_init. cbn [init_loop Nat.add repeat].
  assert (E : s <? n = true) by (apply Nat.ltb_lt; auto). rewrite E.
  cbn [bind set_mem existsb].
  change (wr [default_neighbor] 0 {| nid := s; ndist := dist s; nflag := true |}) with (Ok [mkN s (dist s) true]).
  cbn [bind]. change (1 =? 0) with false. cbn [init_loop bind firstn skipn app]. rewrite Hsort. cbn [app].
  replace ((n + 1) * 1) with (S n) by lia. cbn [greedy_loop].
  unfold greedy_running at 1. cbn [g_k g_pool p_cur]. change (0 <? 1) with true. cbv iota.
  unfold greedy_step. cbn [g_pool g_k p_arr rd nth_error bind nflag].
  unfold wr. cbn [length firstn skipn app nid ndist]. change (0 <? 1) with true. cbn [bind].
  unfold rd. rewrite Hg. cbn [bind p_cur p_ins p_cmps p_best].
  unfold process_candidates. cbn [p_arr p_cur p_ins p_cmps].
  rewrite (process_full_ub n dist s nbrs y) by auto. reflexivity.
Qed.

Lemma sorts_single : forall sortf d id f, sorts sortf -> is_nan d = false -> sortf [mkN id d f] = [mkN id d f].
Proof.
  intros sortf d id f H Hn. destruct (H [mkN id d f]) as [P _].
  - intros z [<-|[]]. auto.
  - apply Permutation_length_1_inv in P. auto.
Qed.

Lemma rng_search_tags : forall sortf ix dist L res_count filters ind dst,
  sorts sortf -> index_ok ix -> 1 <= L -> (forall id, is_nan (dist id) = false) ->
  res_count <= L + 1 -> res_count <= length ind -> res_count <= length dst ->
  exists ind' dst' ids,
    rng_search sortf ix dist L res_count filters ind dst = Ok (ind', dst', length ids) /\
    length ids <= res_count /\ same_from res_count ind' ind /\ same_from res_count dst' dst /\
    reports (ix_n ix) (ix_tags ix) dist ind' dst' ids.
Proof. intros. rewrite rng_is_vamana. apply graph_search_tags; auto. Qed.

Lemma make_tags_ok : forall n tags,
  (length tags = n -> 1 <= n -> make_tags n tags = Ok tags) /\
  (exists t, make_tags n [] = Ok t /\ length t = n /\ forall i, i < n -> nth_error t i = Some i) /\
  (length tags <> n -> length tags <> 0 -> make_tags n tags = Throw).
Proof.
  intros n tags. split; [|split].
  - intros H Hn. unfold make_tags. rewrite H, Nat.eqb_refl.
    destruct (n =? 0) eqn:E; [apply Nat.eqb_eq in E; lia|]. reflexivity.
  - exists (seq 0 n). split; [|split].
    + unfold make_tags. cbn [length]. destruct n; reflexivity.
    + apply seq_length.
    + intros i Hi. rewrite nth_error_nth' with (d := 0) by (rewrite seq_length; auto). rewrite seq_nth; auto.
  - intros H1 H2. unfold make_tags. apply Nat.eqb_neq in H1. apply Nat.eqb_neq in H2. rewrite H1, H2. reflexivity.
Qed.

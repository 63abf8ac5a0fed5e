(** * Search theorems restated without the model's filter test and search state. *)
From Coq Require Import ZArith String List Arith Lia Bool Sorting.Sorted Sorting.Permutation.
From Verif Require Import Base Float32 PoolModel TopKSpec SortSpec GraphSpec FilterSpec FilterProofs PoolProofs GreedyModel SearchSpec SearchModel
  GreedyProofs SearchProofs ClosestModel ClosestSpec FlatModel FlatSpec IvfModel IvfProofs LshModel LshSpec LshProofs.
Import ListNotations.

Lemma acc_filter_test : forall lc filters, filter_test (universal_of lc) (pts_to_labels lc) filters (acc_of lc filters).
Proof.
  intros lc filters. split.
  - intros -> id. apply acc_of_nil.
  - intros id ls H. split.
    + intros Ha. eapply passes_filter_sound; [exact H|].
      unfold acc_of in Ha. destruct (passes_filter lc filters id); congruence.
    + intros Hf Hl Hm. destruct (passes_filter_exact lc filters id ls H Hf Hl) as [b [Eb Hb]].
      unfold acc_of. rewrite Eb. apply Hb. exact Hm.
Qed.

Lemma run_ins : forall acc gs i st st', run acc gs i st st' ->
  forall x, In x (p_ins (g_pool st)) -> In x (p_ins (g_pool st')).
Proof. intros. eapply run_mono; eauto. Qed.

Lemma greedy_answers : forall sortf n dist accept acc L g init_ids,
  sorts sortf -> 1 <= L -> (forall id, is_nan (dist id) = false) ->
  (forall id, id < n -> accept id = Ok (acc id)) -> graph_ok n g ->
  (forall id, In id init_ids -> id < n) ->
  exists st, greedy_search sortf n dist accept L g init_ids = Ok st /\
    greedy_answer acc dist g init_ids L (map nid (found st)).
Proof.
  intros sortf n dist accept acc L g init_ids Hs HL Hnan Hacc Hg Hn.
  destruct (greedy_dyn_ok sortf n dist accept acc L (fun _ => g) init_ids)
    as [st0 [st [E0 [E [HI [Hr [Hrun [Hexp [Hk [H1 [H2 HI0]]]]]]]]]]]; auto.
  destruct (greedy_fixed_point sortf n dist accept acc L g init_ids) as [st1 [E1 [F1 F2]]]; auto.
  assert (st1 = st) by (unfold greedy_search in E1; congruence). subst st1.
  destruct (greedy_sorted_distinct sortf n dist accept acc L (fun _ => g) init_ids) as [st1 [E2 [G1 G2]]]; auto.
  assert (st1 = st) by congruence. subst st1.
  destruct (greedy_true_distances sortf n dist accept acc L g init_ids) as [st1 [E3 T]]; auto.
  assert (st1 = st) by (unfold greedy_search in E3; congruence). subst st1.
  exists st. split; [exact E|]. split; [exact G2|].
  assert (Hlen : length (map nid (found st)) <= L).
  { rewrite map_length. destruct (gi_wf _ _ _ _ _ HI) as [W1 [W2 [W3 _]]]. unfold found, pool_entries. rewrite firstn_length. lia. }
  split; [exact Hlen|]. split; [|split].
  - assert (A : forall l, (forall z, In z l -> ndist z = dist (nid z)) ->
      StronglySorted (fun x y => fle (ndist x) (ndist y) = true) l ->
      StronglySorted (fun x y => fle (dist x) (dist y) = true) (map nid l)).
    { induction l as [|a l IH]; intros Ha Hl; cbn [map]; [constructor|].
      inversion Hl as [|? ? S1 S2]; subst. constructor; [apply IH; auto; intros; apply Ha; right; auto|].
      apply Forall_forall. intros y Hy. apply in_map_iff in Hy. destruct Hy as [z [<- Hz]].
      rewrite <- (Ha a (or_introl eq_refl)), <- (Ha z (or_intror Hz)). rewrite Forall_forall in S2. apply S2. exact Hz. }
    apply A; [|exact G1]. intros z Hz. apply (T z Hz).
  - intros id Hid. apply in_map_iff in Hid. destruct Hid as [z [<- Hz]]. apply (T z Hz).
  - assert (B : forall y, In y (p_ins (g_pool st)) -> In y (map nid (found st)) \/
       (length (map nid (found st)) = L /\ forall z, In z (map nid (found st)) -> fle (dist z) (dist y) = true)).
    { intros y Hy. destruct (ginv_discovered _ _ _ _ _ y HI Hy) as [D|[D1 D2]]; [left; exact D|right].
      split; [rewrite map_length; exact D1|]. intros z Hz. apply in_map_iff in Hz. destruct Hz as [w [<- Hw]].
      destruct (T w Hw) as [_ [<- _]]. apply D2. exact Hw. }
    intros y [[x [Hx He]]|[Hy Hl]].
    + apply in_map_iff in Hx. destruct Hx as [z [<- Hz]].
      destruct (F2 (nid z) y (F1 z Hz) He) as [D|[D1 D2]]; [left; exact D|right].
      split; [rewrite map_length; exact D1|]. intros w Hw. apply in_map_iff in Hw. destruct Hw as [v [<- Hv]].
      destruct (T v Hv) as [_ [<- _]]. apply D2. exact Hv.
    + apply B. apply (run_ins _ _ _ _ _ Hrun).
      destruct H2 as [H2|H2]; [|apply H2; exact Hy].
      destruct (greedy_init_ok sortf n dist L init_ids) as [s0 [I0 [_ [_ [_ [_ [_ [I6 _]]]]]]]]; auto.
      assert (s0 = st0) by congruence. subst s0.
      destruct (gi_top _ _ _ _ _ HI0) as [T1 _].
      apply (NoDup_length_incl (l' := init_ids) T1); [lia| |exact Hy]. intros w Hw. apply H1. exact Hw.
Qed.

(** The points a Vamana search starts from. *)
Lemma filter_starts_length : forall m fs, length (filter_starts m fs) <= length fs.
Proof. intros m. induction fs as [|f fs IH]; cbn; [lia|]. destruct (medoid_of m f); cbn; lia. Qed.

Lemma vamana_search_answer : forall sortf ix dist L res_count filters indices distances,
  sorts sortf -> index_ok ix -> 1 <= L -> (forall id, is_nan (dist id) = false) ->
  (filters = [] \/ length (pts_to_labels (ix_labels ix)) = ix_n ix) ->
  res_count <= L + 1 -> res_count <= length indices -> res_count <= length distances ->
  exists acc starts ids indices' distances',
    filter_test (universal_of (ix_labels ix)) (pts_to_labels (ix_labels ix)) filters acc /\
    (filters = [] -> starts = [ix_start ix]) /\
    (filters <> [] -> length starts <= length filters /\
       forall id, In id starts <-> exists x, In x filters /\ medoid_of (ix_medoids ix) x = Some id) /\
    greedy_answer acc dist (ix_graph ix) starts L ids /\
    vamana_search sortf ix dist L res_count filters indices distances =
      Ok (indices', distances', min res_count (length ids)) /\
    same_from res_count indices' indices /\ same_from res_count distances' distances /\
    reports (ix_n ix) (ix_tags ix) dist indices' distances' (firstn res_count ids).
Proof.
  intros sortf ix dist L rc fs ind dst Hs Hix HL Hnan Hfl Hrc Hi Hd.
  destruct (vamana_search_ok sortf ix dist L rc fs ind dst) as [st [ind' [dst' [E [V [S1 [S2 [R _]]]]]]]]; auto.
  destruct (greedy_answers sortf (ix_n ix) dist (passes_filter (ix_labels ix) fs) (acc_of (ix_labels ix) fs) L (ix_graph ix)
    (vamana_init_ids ix fs)) as [st' [E' G]]; auto; try apply Hix.
  { intros id Hid. eapply acc_of_ok; eauto. }
  { apply init_ids_ok. auto. }
  assert (st' = st) by congruence. subst st'.
  exists (acc_of (ix_labels ix) fs), (vamana_init_ids ix fs), (map nid (found st)), ind', dst'.
  split; [apply acc_filter_test|]. split; [intros ->; reflexivity|]. split.
  { intros Hne. unfold vamana_init_ids. destruct fs as [|f fs]; [congruence|]. split; [apply filter_starts_length|].
    intros id. apply filter_starts_In. }
  split; [exact G|]. split; [rewrite map_length; exact V|]. auto.
Qed.

Lemma rng_search_answer : forall sortf ix dist L res_count filters indices distances,
  sorts sortf -> index_ok ix -> 1 <= L -> (forall id, is_nan (dist id) = false) ->
  res_count <= L + 1 -> res_count <= length indices -> res_count <= length distances ->
  exists ids indices' distances',
    greedy_answer (fun _ => true) dist (ix_graph ix) [ix_start ix] L ids /\
    rng_search sortf ix dist L res_count filters indices distances =
      Ok (indices', distances', min res_count (length ids)) /\
    same_from res_count indices' indices /\ same_from res_count distances' distances /\
    reports (ix_n ix) (ix_tags ix) dist indices' distances' (firstn res_count ids).
Proof.
  intros sortf ix dist L rc fs ind dst Hs Hix HL Hnan Hrc Hi Hd.
  destruct (vamana_search_ok sortf ix dist L rc [] ind dst) as [st [ind' [dst' [E [V [S1 [S2 [R _]]]]]]]]; auto.
  destruct (greedy_answers sortf (ix_n ix) dist (passes_filter (ix_labels ix) []) (fun _ => true) L (ix_graph ix)
    [ix_start ix]) as [st' [E' G]]; auto; try apply Hix.
  { intros id [<-|[]]. apply Hix. }
  change (vamana_init_ids ix []) with [ix_start ix] in E.
  assert (st' = st) by congruence. subst st'.
  exists (map nid (found st)), ind', dst'. split; [exact G|].
  rewrite rng_is_vamana. split; [rewrite map_length; exact V|]. auto.
Qed.

(** IVF and LSH. *)
Lemma ivf_search_probed_test : forall popf mbs ix cdist dist probe m filters indices distances,
  pops popf -> 1 <= mbs -> ivf_ok ix -> probe <= ivf_nc ix -> 1 <= m ->
  (filters = [] \/ length (pts_to_labels (ivf_labels ix)) = ivf_n ix) ->
  (forall c, is_nan (cdist c) = false) -> (exists c, c < ivf_nc ix /\ flt (cdist c) FLT_MAX = true) ->
  finite_distances (ivf_n ix) dist -> room m indices distances ->
  exists acc probed ids indices' distances' cmps,
    filter_test (universal_of (ivf_labels ix)) (pts_to_labels (ivf_labels ix)) filters acc /\
    length probed = probe /\ NoDup probed /\ (forall c, In c probed -> c < ivf_nc ix) /\
    is_top_k probe (score cdist (seq 0 (ivf_nc ix))) (score cdist probed) /\
    ivf_search popf mbs ix cdist dist probe m filters indices distances = Ok (indices', distances', length ids, cmps) /\
    is_top_k m (score dist (nodup Nat.eq_dec (filter acc
                              (concat (map (fun c => nth c (ivf_inv ix) []) probed))))) (score dist ids) /\
    NoDup ids /\ (forall id, In id ids -> id < ivf_n ix /\ acc id = true) /\
    holds dist ids indices indices' distances distances'.
Proof.
  intros. destruct (ivf_search_probed popf mbs ix cdist dist probe m filters indices distances) as
    [probed [ids [i' [d' [c' P]]]]]; auto.
  exists (acc_of (ivf_labels ix) filters), probed, ids, i', d', c'. split; [apply acc_filter_test|exact P].
Qed.

Lemma ivf_search_exact_test : forall popf mbs ix cdist dist m filters indices distances,
  pops popf -> 1 <= mbs -> length (ivf_inv ix) = ivf_nc ix -> Permutation (concat (ivf_inv ix)) (seq 0 (ivf_n ix)) -> 1 <= m ->
  (filters = [] \/ length (pts_to_labels (ivf_labels ix)) = ivf_n ix) ->
  (forall c, is_nan (cdist c) = false) -> (exists c, c < ivf_nc ix /\ flt (cdist c) FLT_MAX = true) ->
  finite_distances (ivf_n ix) dist -> room m indices distances ->
  exists acc ids indices' distances' cmps,
    filter_test (universal_of (ivf_labels ix)) (pts_to_labels (ivf_labels ix)) filters acc /\
    ivf_search popf mbs ix cdist dist (ivf_nc ix) m filters indices distances = Ok (indices', distances', length ids, cmps) /\
    is_top_k m (score dist (filter acc (seq 0 (ivf_n ix)))) (score dist ids) /\
    holds dist ids indices indices' distances distances'.
Proof.
  intros. destruct (ivf_search_exact popf mbs ix cdist dist m filters indices distances) as
    [ids [i' [d' [c' P]]]]; auto.
  exists (acc_of (ivf_labels ix) filters), ids, i', d', c'. split; [apply acc_filter_test|exact P].
Qed.

Lemma ivf_search_wide_test : forall popf mbs ix cdist dist probe m filters indices distances l0 rest,
  ivf_ok ix -> ivf_inv ix = l0 :: rest -> ivf_nc ix < probe -> 1 <= m ->
  (filters = [] \/ length (pts_to_labels (ivf_labels ix)) = ivf_n ix) ->
  finite_distances (ivf_n ix) dist -> room m indices distances ->
  exists acc ids indices' distances' cmps,
    filter_test (universal_of (ivf_labels ix)) (pts_to_labels (ivf_labels ix)) filters acc /\
    ivf_search popf mbs ix cdist dist probe m filters indices distances = Ok (indices', distances', length ids, cmps) /\
    is_top_k m (score dist (nodup Nat.eq_dec (filter acc l0))) (score dist ids) /\
    holds dist ids indices indices' distances distances'.
Proof.
  intros. destruct (ivf_search_wide popf mbs ix cdist dist probe m filters indices distances l0 rest) as
    [ids [i' [d' [c' P]]]]; auto.
  exists (acc_of (ivf_labels ix) filters), ids, i', d', c'. split; [apply acc_filter_test|exact P].
Qed.

Lemma lsh_search_test : forall dotf data ts planes ix q dist m filters indices distances,
  (ts <= 64)%N -> l_tags ix = seq 0 (l_n ix) -> lsh_new ix -> 1 <= m ->
  (filters = [] \/ length (pts_to_labels (l_labels ix)) = l_n ix) ->
  finite_distances (l_n ix) dist -> room m indices distances ->
  exists acc ix' ix'' cands ids indices' distances',
    filter_test (universal_of (l_labels ix)) (pts_to_labels (l_labels ix)) filters acc /\
    lsh_build dotf data ts planes ix = Ok ix' /\
    lsh_search dotf ix' q dist m filters indices distances = Ok ((indices', distances', length ids, length cands), ix'') /\
    NoDup cands /\
    (forall id, In id cands <-> id < l_n ix /\ acc id = true /\ collide dotf planes q (data id)) /\
    is_top_k m (score dist cands) (score dist ids) /\
    holds dist ids indices indices' distances distances'.
Proof.
  intros. destruct (lsh_search_ok dotf data ts planes ix q dist m filters indices distances) as
    [ix' [ix'' [cands [ids [i' [d' P]]]]]]; auto.
  exists (acc_of (l_labels ix) filters), ix', ix'', cands, ids, i', d'. split; [apply acc_filter_test|exact P].
Qed.

(** The other theorems whose conclusions used helpers of the model. *)
Lemma ivf_build_appends : forall popf mbs dmat n nc orders old, pops popf -> 1 <= n -> 1 <= mbs ->
  block_orders n 1 (min n mbs) orders ->
  (forall j c, is_nan (dmat j c) = false) ->
  (forall j, j < n -> exists c, c < nc /\ flt (dmat j c) FLT_MAX = true) ->
  exists (assign : nat -> nat) inv,
    ivf_build popf mbs dmat n nc orders old = Ok inv /\ length inv = nc /\
    (forall j, j < n -> first_nearest (dmat j) nc (assign j)) /\
    forall c, c < nc -> exists new, nth_error inv c = Some (nth c old [] ++ new) /\
      Permutation new (filter (fun j => assign j =? c) (seq 0 n)).
Proof.
  intros popf mbs dmat n nc orders old Hp Hn Hm Ho Hnan Hfin.
  destruct (ivf_build_ok popf mbs dmat n nc orders old Hp Hn Hm Ho Hnan Hfin) as [assign [inv [E [L [Ha Hl]]]]].
  exists assign, inv. split; [exact E|]. split; [exact L|]. split; [exact Ha|]. intros c Hc. apply Hl.
  unfold resize_lists. destruct (Nat.lt_ge_cases c (length old)) as [H|H].
  - rewrite nth_error_app1 by (rewrite firstn_length; lia). rewrite nth_error_nth' with (d := []) by (rewrite firstn_length; lia).
    f_equal. rewrite <- (firstn_skipn nc old) at 2. rewrite app_nth1; [reflexivity|rewrite firstn_length; lia].
  - rewrite nth_overflow by lia. rewrite nth_error_app2 by (rewrite firstn_length; lia).
    rewrite firstn_length, nth_error_repeat by lia. reflexivity.
Qed.

Lemma lsh_rebuild_lists : forall dotf data ts planes1 planes2 ix ix1 ix2,
  (ts <= 64)%N -> length (l_tags ix) = l_n ix -> lsh_new ix ->
  lsh_build dotf data ts planes1 ix = Ok ix1 -> lsh_build dotf data ts planes2 ix1 = Ok ix2 ->
  length (l_tables ix2) = length planes1 + length planes2 /\ l_num_tables ix2 = N.of_nat (length planes2) /\
  forall i hps t, nth_error planes1 i = Some hps -> nth_error (l_tables ix2) i = Some t ->
    t_hps t = hps /\ exists key : nat -> N,
      (forall j j', key j = key j' <-> sign_pattern dotf hps (data j) = sign_pattern dotf hps (data j')) /\
      forall k, bucket (t_map t) k =
        map (fun j => nth j (l_tags ix) 0) (filter (fun j => N.eqb k (key j)) (seq 0 (l_n ix))) ++
        map (fun j => nth j (l_tags ix) 0) (filter (fun j => N.eqb k (key j)) (seq 0 (l_n ix))).
Proof.
  intros dotf data ts planes1 planes2 ix ix1 ix2 H1 H2 H3 H4 H5.
  destruct (lsh_rebuild dotf data ts planes1 planes2 ix ix1 ix2 H1 H2 H3 H4 H5) as [R1 [R2 R3]].
  split; [exact R1|]. split; [exact R2|]. intros i hps t Hi Ht. destruct (R3 i hps t Hi Ht) as [A B]. split; [exact A|].
  exists (fun j => get_hash dotf (mkT hps []) (data j)). split.
  - intros j j'. apply (hash_pattern dotf (mkT hps [])).
  - exact B.
Qed.

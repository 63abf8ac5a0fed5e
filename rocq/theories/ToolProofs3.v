(** * Lemmas about the IVF and LSH tools. *)
From Coq Require Import NArith String List Arith Lia Bool Permutation Sorting.Sorted.
From Verif Require Import Base Float32 Float32Facts Bytes StreamModel BinModel BinSpec BinProofs BinProofs2 TextModel TextProofs GraphFileSpec PoolModel GraphSpec FilterSpec FilterProofs
  SortSpec TopKSpec GreedyModel SearchModel SearchSpec SearchProofs ClosestModel ClosestSpec FlatModel FlatSpec IvfModel IvfProofs LshModel LshSpec LshProofs
  IndexFileModel IndexFileSpec IndexFileProofs IndexFileProofs2 IndexFileProofs3 SystemModel SystemSpec SystemProofs SystemProofs2 SystemProofs3 SystemProofs4
  ToolModel ToolSpec ToolProofs ToolProofs2.
Import ListNotations.
Local Open Scope string_scope.

Lemma labels_sorted_le : forall l, labels_sorted l -> sorted_labels l.
Proof.
  intros l H. unfold labels_sorted, sorted_labels in *. induction H as [|x l H IH F]; constructor; auto.
  rewrite Forall_forall in *. intros y Hy. specialize (F y Hy). unfold label_order, String.leb, label_le in *.
  destruct (String.compare x y); congruence.
Qed.

(** The points a filter accepts are those whose line matches. *)
Lemma accepted_lines : forall w g data_name tags labels_name d a filters id, files_ok w g data_name tags labels_name d a -> filter_ok labels_name filters ->
  id < N.to_nat (a_n a) -> (acc_of (labels_view a) filters id = true <-> line_matches d labels_name filters id).
Proof.
  intros w g data_name tags labels_name d a filters id [H1 H2 H3 H4 H5 H6 H7] Hfo Hid.
  destruct filters as [|f0 fs]; [split; [left; auto|auto]|]. destruct Hfo as [Hfo|[Hne Hso]]; [discriminate|].
  destruct (construct_spec _ _ _ _ _ _ _ H1 H2 H3 H6 H4 H5) as (Hl & Hn & Ht & Htb & Hu & Huv & Hnd & Hcl & Hlab).
  destruct (String.eqb labels_name "") eqn:El; [apply String.eqb_eq in El; congruence|].
  destruct Hlab as [Hf [Hlen [Hls [[lines [El1 [El2 El3]]] _]]]].
  assert (Huo : universal_of (labels_view a) = Some "0") by (unfold universal_of, labels_view; cbn; rewrite Hu, Huv; auto).
  destruct (nth_error lines id) as [line|] eqn:Eline; [|apply nth_error_None in Eline; lia].
  destruct (El3 id line Eline) as [l [Hl1 Hl2]].
  destruct (passes_filter_exact (labels_view a) (f0 :: fs) id l) as [b [P1 P2]]; auto.
  { apply labels_sorted_le, Hls. eapply nth_error_In; eauto. }
  rewrite Huo in P2. unfold acc_of. rewrite P1, P2. unfold line_matches.
  destruct (d labels_name) as [by0|] eqn:Eb; [|rewrite El1 in Eline; destruct id; discriminate]. split.
  - intros M. right. exists by0, line. split; [auto|]. split; [rewrite <- El1; auto|]. eapply matches_perm; [apply Permutation_sym; exact Hl2|auto].
  - intros [C|[b' [line' [C1 [C2 C3]]]]]; [discriminate|]. assert (b' = by0) by congruence. subst b'. rewrite <- El1 in C2.
    assert (line' = line) by congruence. subst line'. eapply matches_perm; eauto.
Qed.

Lemma labels_length : forall w g data_name tags labels_name d a filters, files_ok w g data_name tags labels_name d a -> filter_ok labels_name filters ->
  filters = [] \/ length (pts_to_labels (labels_view a)) = N.to_nat (a_n a).
Proof.
  intros w g data_name tags labels_name d a filters [H1 H2 H3 H4 H5 H6 H7] [Hf|[Hne _]]; [auto|right].
  destruct (construct_spec _ _ _ _ _ _ _ H1 H2 H3 H6 H4 H5) as (_ & _ & _ & _ & _ & _ & _ & _ & Hlab).
  destruct (String.eqb labels_name "") eqn:El; [apply String.eqb_eq in El; congruence|]. apply Hlab.
Qed.

Lemma top_k_perm : forall k c c' out, Permutation c c' -> is_top_k k c out -> is_top_k k c' out.
Proof.
  intros k c c' out P [rest [H1 [H2 H3]]]. exists rest. split; [eapply Permutation_trans; [apply Permutation_sym; exact P|auto]|].
  split; [rewrite <- (Permutation_length P); auto|auto].
Qed.

Lemma skipn_nth_error : forall (A : Type) (l : list A) k i, nth_error (skipn k l) i = nth_error l (k + i).
Proof. induction l as [|x l IH]; intros [|k] i; cbn; auto. destruct i; reflexivity. Qed.

Lemma filled_row : forall k (ids row : list nat), same_from (length ids) row (repeat 0 k) -> firstn (length ids) row = ids ->
  row = (ids ++ repeat 0 (k - length ids))%list.
Proof.
  intros k ids row [H1 H2] H. rewrite <- (firstn_skipn (length ids) row) at 1. rewrite H. f_equal. rewrite repeat_length in H1.
  assert (Hz : forall y, In y (skipn (length ids) row) -> y = 0).
  { intros y Hy. apply In_nth_error in Hy. destruct Hy as [i Hi]. rewrite skipn_nth_error in Hi. rewrite H2 in Hi by lia.
    apply nth_error_In in Hi. apply repeat_spec in Hi. auto. }
  assert (Hl : length (skipn (length ids) row) = k - length ids) by (rewrite skipn_length; lia).
  rewrite <- Hl. clear - Hz. induction (skipn (length ids) row) as [|y t IH]; [reflexivity|]. cbn. rewrite (Hz y) by (left; auto). f_equal.
  apply IH. intros z Hin. apply Hz. right. auto.
Qed.

(** ** IVF *)
Lemma ivf_tool_ok : forall w g popf mbs cd data_name tags labels_name nc centers orders path d a, pops popf ->
  ivf_session_ok w g mbs cd data_name tags labels_name nc centers orders d a ->
  exists x d', ivf_tool w g popf mbs cd data_name tags labels_name nc centers orders path d = Ok (x, d') /\
    i_ann x = a /\ i_k x = nc /\ i_centers x = centers /\ ivf_ok w x /\
    Permutation (concat (i_lists x)) (map N.of_nat (seq 0 (N.to_nat (a_n a)))) /\
    (forall m, ~ family ivf_suffixes path m -> d' m = d m) /\
    forall g', garbage_ok g' -> exists a' rows, load_ivf w g' path (mkIA (new_ann 0 0) 0 [] []) d' = Ok (a', nc, rows, i_lists x) /\
      a_adim a' = a_adim a /\
      forall qd cd' filters k,
        same_answers (ivf_searcher popf mbs qd cd' filters k a (centres_of_array (N.to_nat (a_adim a)) (N.to_nat nc) centers) nc (i_lists x))
          (ivf_searcher popf mbs qd cd' filters k a' (centres_of_rows (N.to_nat (a_adim a')) rows) nc (i_lists x)).
Proof.
  intros w g popf mbs cd data_name tags labels_name nc centers orders path d a Hp [Hf Hn Hm Hnc Hlen Hwd Hft Had Hord Hcd].
  destruct (files_ann_ok _ _ _ _ _ _ _ Hf) as [Hann [Hn2 _]].
  set (cs := centres_of_array (N.to_nat (a_adim a)) (N.to_nat nc) centers).
  destruct (ivf_build_fresh popf mbs (fun i c => cd (nth i (a_data a) []) (nth c cs [])) (N.to_nat (a_n a)) (N.to_nat nc) orders) as [inv [E [Li [Pi _]]]]; auto.
  - lia.
  - intros j c. apply Hcd.
  - intros j _. exists 0. split; [lia|]. apply Hcd.
  - set (x := mkIA a nc centers (map (map N.of_nat) inv)).
    assert (Hin : forall l y, In l inv -> In y l -> y < N.to_nat (a_n a)).
    { intros l y Hl Hy. assert (In y (concat inv)) as Hc by (apply in_concat; eauto). apply (Permutation_in _ Pi), in_seq in Hc. lia. }
    assert (Hok : ivf_ok w x).
    { unfold x. split; [auto|]. cbn [i_ann i_k i_centers i_lists]. split; [unfold u32_range; lia|]. split; [auto|]. split; [auto|]. split; [auto|].
      split; [unfold u32_range; lia|]. split; [rewrite map_length; auto|]. intros l Hl. apply in_map_iff in Hl. destruct Hl as [l0 [<- Hl]]. split.
      - rewrite map_length. assert (length l0 <= N.to_nat (a_n a)).
        { rewrite <- (seq_length (N.to_nat (a_n a)) 0), <- (Permutation_length Pi). apply in_split in Hl. destruct Hl as [l1 [l2 ->]].
          rewrite concat_app, app_length. cbn [concat]. rewrite app_length. lia. }
        lia.
      - intros y Hy. apply in_map_iff in Hy. destruct Hy as [y0 [<- Hy]]. specialize (Hin _ _ Hl Hy). lia. }
    destruct (ivf_round_trip w g path x d 0 0 0 [] (fo_garbage _ _ _ _ _ _ _ Hf) Hok) as [d' [a1 [rows1 [S1 [_ [_ [_ [_ S6]]]]]]]].
    exists x, d'. split.
    { unfold ivf_tool. rewrite (fo_made _ _ _ _ _ _ _ Hf). cbn [bind]. fold cs. rewrite E. cbn [bind]. fold x. rewrite S1. reflexivity. }
    repeat (split; [solve [auto]|]). split.
    { unfold x. cbn [i_lists]. rewrite <- concat_map. apply Permutation_map. auto. }
    split; [auto|]. intros g' Hg'. destruct (ivf_reload w g' path x d Hg' Hok) as [d2 [a' [rows [R1 [R2 [R3 R4]]]]]].
    assert (d2 = d') by congruence. subst d2. exists a', rows. split; [exact R2|]. split; [exact R3|]. intros qd cd' filters k. apply R4.
Qed.

Lemma ivf_tool_search : forall w g popf mbs cd data_name tags labels_name nc centers orders path d a x d', pops popf ->
  ivf_session_ok w g mbs cd data_name tags labels_name nc centers orders d a ->
  ivf_tool w g popf mbs cd data_name tags labels_name nc centers orders path d = Ok (x, d') ->
  forall g' g1 g2 query_name prefix k args order qd filters nq qadim mem, garbage_ok g' ->
  queries_in w g1 g2 (d' query_name) nq qadim mem -> (1 <= nq)%N -> (a_adim a <= qadim)%N ->
  (forall q p, finite (qd q p)) -> filter_ok labels_name filters -> (1 <= k)%N ->
  (exists L, In L args /\ (1 <= L)%N) -> (forall L, In L args -> (L <= nc)%N) ->
  (forall L, In L args -> (1 <= L)%N -> each_once (N.to_nat nq) (order L)) ->
  exists d'', search_tool w g1 g2 query_name prefix k 1 args order (load_for_ivf w g' popf mbs qd cd filters (N.to_nat k) path) d' = Ok (Some d'') /\
    forall L, In L args -> (1 <= L)%N -> exists rows,
      d'' (result_name prefix L) = Some (bin_file 4 nq k (map N.of_nat (concat rows))) /\ length rows = N.to_nat nq /\
      forall i row, nth_error rows i = Some row -> length row = N.to_nat k /\
        let dist := fun id => qd (firstn (N.to_nat (a_adim a) * w) (nth i mem [])) (nth id (a_data a) []) in
        exists found, row = (found ++ repeat 0 (N.to_nat k - length found))%list /\ NoDup found /\
          (forall id, In id found -> id < N.to_nat (a_n a) /\ line_matches d labels_name filters id) /\
          (L = nc -> forall accepted, NoDup accepted ->
             (forall id, In id accepted <-> id < N.to_nat (a_n a) /\ line_matches d labels_name filters id) ->
             is_top_k (N.to_nat k) (score dist accepted) (score dist found)).
Proof.
  intros w g popf mbs cd data_name tags labels_name nc centers orders path d a x d' Hp Hs Htool
    g' g1 g2 query_name prefix k args order qd filters nq qadim mem Hg' Hq Hnq Hdim Hqd Hfo Hk Hex Hle Ho.
  destruct (ivf_tool_ok w g popf mbs cd data_name tags labels_name nc centers orders path d a Hp Hs) as [x1 [d1 [E [H1 [H2 [H3 [H4 [H5 [H6 H7]]]]]]]]].
  assert (x1 = x) by congruence. assert (d1 = d') by congruence. subst x1 d1.
  destruct (H7 g' Hg') as [a' [rws [R1 [R2 R3]]]].
  pose proof (is_files _ _ _ _ _ _ _ _ _ _ _ _ Hs) as Hf. pose proof (labels_length _ _ _ _ _ _ _ _ Hf Hfo) as Hlab.
  set (cs := centres_of_array (N.to_nat (a_adim a)) (N.to_nat nc) centers) in *.
  assert (Hcsl : length cs = N.to_nat nc) by (unfold cs, centres_of_array; rewrite map_length, seq_length; auto).
  pose proof (is_nc _ _ _ _ _ _ _ _ _ _ _ _ Hs) as Hnc.
  assert (Hinv : Permutation (concat (map ids_view (i_lists x))) (seq 0 (N.to_nat (a_n a)))).
  { unfold ids_view. rewrite <- concat_map. apply (Permutation_map N.to_nat) in H5. rewrite map_map in H5.
    assert (Em : map (fun y => N.to_nat (N.of_nat y)) (seq 0 (N.to_nat (a_n a))) = seq 0 (N.to_nat (a_n a))).
    { rewrite <- (map_id (seq 0 (N.to_nat (a_n a)))) at 2. apply map_ext. intros y. apply Nat2N.id. }
    rewrite Em in H5. exact H5. }
  assert (Hll : length (map ids_view (i_lists x)) = N.to_nat nc).
  { rewrite map_length. destruct H4 as (_ & _ & _ & _ & _ & _ & H4 & _). rewrite H4, H2. auto. }
  destruct (tool_rows w g1 g2 query_name prefix k 1 args order (load_for_ivf w g' popf mbs qd cd filters (N.to_nat k) path) d' nq qadim mem (a_adim a)
    (ivf_searcher popf mbs qd cd filters (N.to_nat k) a cs nc (i_lists x))
    (ivf_searcher popf mbs qd cd filters (N.to_nat k) a' (centres_of_rows (N.to_nat (a_adim a')) rws) nc (i_lists x))
    (fun L i row ds c =>
       let dist := fun id => qd (firstn (N.to_nat (a_adim a) * w) (nth i mem [])) (nth id (a_data a) []) in
        exists found, row = (found ++ repeat 0 (N.to_nat k - length found))%list /\ NoDup found /\
          (forall id, In id found -> id < N.to_nat (a_n a) /\ line_matches d labels_name filters id) /\
          (L = nc -> forall accepted, NoDup accepted ->
             (forall id, In id accepted <-> id < N.to_nat (a_n a) /\ line_matches d labels_name filters id) ->
             is_top_k (N.to_nat k) (score dist accepted) (score dist found)))) as [d'' [T1 T2]]; auto.
  - unfold load_for_ivf. rewrite R1. cbn [bind]. rewrite R2. reflexivity.
  - apply local_ivf.
  - intros L i HL1 HL2 Hi. cbn zeta. set (q := firstn (N.to_nat (a_adim a) * w) (nth i mem [])).
    set (ix := ivf_view a nc (i_lists x)).
    assert (Hix : IvfProofs.ivf_ok ix).
    { split; [exact Hll|]. intros l id Hl Hid. assert (In id (concat (map ids_view (i_lists x)))) as Hc by (apply in_concat; exists l; auto).
      apply (Permutation_in _ Hinv), in_seq in Hc. unfold ix, ivf_view. cbn [ivf_n]. lia. }
    set (cdist := fun c => nth c (map (cd q) cs) f32_zero).
    assert (Hc1 : forall c, is_nan (cdist c) = false).
    { intros c. unfold cdist. destruct (Nat.lt_ge_cases c (length (map (cd q) cs))) as [Hc|Hc]; [|rewrite nth_overflow by auto; reflexivity].
      rewrite (nth_indep _ f32_zero (cd q [])) by auto. rewrite map_nth. apply (is_cd _ _ _ _ _ _ _ _ _ _ _ _ Hs). }
    assert (Hc2 : exists c, c < ivf_nc ix /\ flt (cdist c) FLT_MAX = true).
    { exists 0. unfold ix, ivf_view, cdist. cbn [ivf_nc]. split; [lia|].
      rewrite (nth_indep _ f32_zero (cd q [])) by (rewrite map_length; lia). rewrite map_nth. apply (is_cd _ _ _ _ _ _ _ _ _ _ _ _ Hs). }
    assert (Hfd : finite_distances (ivf_n ix) (query_dist qd a q)) by (split; intros id; [apply Hqd|intros _; apply Hqd]).
    assert (Hroom : room (N.to_nat k) (repeat 0 (N.to_nat k)) (Some (repeat f32_zero (N.to_nat k)))).
    { split; [rewrite repeat_length; auto|]. intros v Ev. assert (v = repeat f32_zero (N.to_nat k)) by congruence. subst v. rewrite repeat_length. auto. }
    assert (Hmb : 1 <= mbs) by apply (is_mbs _ _ _ _ _ _ _ _ _ _ _ _ Hs).
    assert (Hpr : N.to_nat L <= ivf_nc ix) by (unfold ix, ivf_view; cbn [ivf_nc]; specialize (Hle L HL1); lia).
    assert (Hkk : 1 <= N.to_nat k) by lia.
    destruct (ivf_search_probed popf mbs ix cdist (query_dist qd a q) (N.to_nat L) (N.to_nat k) filters (repeat 0 (N.to_nat k)) (Some (repeat f32_zero (N.to_nat k)))
      Hp Hmb Hix Hpr Hkk Hlab Hc1 Hc2 Hfd Hroom) as [probed [ids [i' [ds' [cm [_ [_ [_ [_ [S1 [_ [S3 [S4 S5]]]]]]]]]]]]].
    destruct ds' as [dv|]; [|destruct S5 as [_ [_ []]]].
    assert (Es : ivf_searcher popf mbs qd cd filters (N.to_nat k) a cs nc (i_lists x) q (N.to_nat L) (repeat 0 (N.to_nat k)) (repeat f32_zero (N.to_nat k)) = Ok (i', dv, length ids)).
    { unfold ivf_searcher. fold ix cdist. rewrite S1. reflexivity. }
    exists i', dv, (length ids). split; [exact Es|]. exists ids. split; [apply filled_row; apply S5|]. split; [auto|]. split.
    + intros id Hid. destruct (S4 id Hid) as [A B]. split; [exact A|]. apply (accepted_lines _ _ _ _ _ _ _ _ _ Hf Hfo A). exact B.
    + intros EL accepted Hnd Hacc.
      assert (EL' : N.to_nat L = ivf_nc ix) by (rewrite EL; reflexivity).
      destruct (ivf_search_exact popf mbs ix cdist (query_dist qd a q) (N.to_nat k) filters (repeat 0 (N.to_nat k)) (Some (repeat f32_zero (N.to_nat k)))
        Hp Hmb Hll Hinv Hkk Hlab Hc1 Hc2 Hfd Hroom) as [ids2 [i2 [ds2 [cm2 [T1 [T2 T3]]]]]].
      rewrite <- EL' in T1. rewrite S1 in T1.
      assert (Ei : ids2 = ids).
      { destruct S5 as [_ [S5 _]]. destruct T3 as [_ [T3 _]]. assert (i2 = i') by congruence. assert (length ids2 = length ids) by congruence. subst i2. congruence. }
      subst ids2. eapply top_k_perm; [|exact T2]. apply Permutation_map. apply NoDup_Permutation; auto.
      * apply NoDup_filter, seq_NoDup.
      * intros id. rewrite filter_In, in_seq, Hacc. unfold ix at 1, ivf_view. cbn [ivf_n]. split.
        -- intros [A B]. split; [lia|]. apply (accepted_lines _ _ _ _ _ _ _ _ _ Hf Hfo); [lia|exact B].
        -- intros [A B]. split; [lia|]. apply (accepted_lines _ _ _ _ _ _ _ _ _ Hf Hfo A). exact B.
  - exists d''. split; [auto|]. intros L HL1 HL2. destruct (T2 L HL1 HL2) as [rows [U1 [U2 U3]]]. exists rows. split; [auto|]. split; [auto|].
    intros i row Hrow. destruct (U3 i row Hrow) as [V1 [_ [_ V2]]]. auto.
Qed.

(** ** LSH *)
Lemma construct_tags : forall w g data_name labels_name d a, construct w g data_name [] labels_name d = Ok a ->
  ids_view (a_tags a) = seq 0 (N.to_nat (a_n a)).
Proof.
  intros w g data_name labels_name d a H. unfold construct in H. apply bind_ok in H. destruct H as [[[[n dim] adim] rows] [_ H]].
  unfold tag_map in H. cbn [length Nat.eqb negb andb bind] in H. rewrite andb_false_r in H. cbn [bind] in H.
  assert (E : a_n a = n /\ a_tags a = map N.of_nat (seq 0 (N.to_nat n))).
  { destruct (String.eqb labels_name "").
    - assert (Ea : a = mkA n dim adim rows (map N.of_nat (seq 0 (N.to_nat n))) false [] [] true "0") by congruence. rewrite Ea. auto.
    - unfold parse_label_file in H. apply bind_ok in H. destruct H as [[pts labs] [_ H]]. cbn [a_n a_dim a_adim a_data a_tags a_use_univ a_univ] in H.
      destruct (N.eqb _ _); [|discriminate].
      assert (Ea : a = mkA n dim adim rows (map N.of_nat (seq 0 (N.to_nat n))) true pts labs true "0") by congruence. rewrite Ea. auto. }
  destruct E as [-> ->]. unfold ids_view. rewrite map_map. rewrite <- (map_id (seq 0 (N.to_nat n))) at 2. apply map_ext. intros y. apply Nat2N.id.
Qed.

Lemma local_lsh : forall dotf fv qd filters k x, writes_own_slots k (lsh_searcher dotf fv qd filters k x).
Proof.
  intros dotf fv qd filters k x q L a a2 b b2 Ha Hb. unfold lsh_searcher, lsh_search, flat_search.
  destruct (lookup_all _ _ _) as [cands ts].
  destruct (process_candidates _ _ _ _ _ _) as [st| | | |]; cbn [bind fst]; auto.
  pose proof (report_ids_app (p_arr st) (min (p_cur st) k) 0 a a2 b b2 ltac:(lia) ltac:(lia)) as H.
  destruct (report_ids _ 0 _ a (Some b)) as [[u v]| | | |]; cbn [bind fst]; [|rewrite H; auto..].
  destruct H as [y' [-> [H [H1 H2]]]]. rewrite H. cbn [bind fst]. split; [auto|lia].
Qed.

Lemma update_length : forall m k f, length (map_update m k f) <= S (length m).
Proof. induction m as [|[k' l] m IH]; intros k f; cbn; [lia|]. destruct (k <? k')%N; cbn; [lia|]. destruct (k =? k')%N; cbn; [lia|]. specialize (IH k f). lia. Qed.

Lemma fill_length : forall dotf data tags cnt i t t', fill_table dotf data tags i cnt t = Ok t' -> length (t_map t') <= length (t_map t) + cnt.
Proof.
  intros dotf data tags cnt. induction cnt as [|cnt IH]; intros i t t' H; cbn [fill_table] in H.
  - assert (t' = t) by congruence. subst. lia.
  - apply bind_ok in H. destruct H as [tag [_ H]]. apply IH in H. unfold add_vector in H. cbn [t_map] in H.
    pose proof (update_length (t_map t) (get_hash dotf t (data i)) (fun l => (l ++ [tag])%list)). lia.
Qed.

Lemma fill_tables_length : forall dotf data tags n ts ts', fill_tables dotf data tags n ts = Ok ts' -> (forall t, In t ts -> t_map t = []) ->
  forall t', In t' ts' -> length (t_map t') <= n.
Proof.
  intros dotf data tags n ts. induction ts as [|t ts IH]; intros ts' H He t' Ht; cbn [fill_tables] in H.
  - assert (ts' = []) by congruence. subst. destruct Ht.
  - apply bind_ok in H. destruct H as [t1 [E H]]. apply bind_ok in H. destruct H as [ts1 [E1 H]]. assert (ts' = t1 :: ts1) by congruence. subst ts'.
    destruct Ht as [<-|Ht].
    + apply fill_length in E. rewrite (He t) in E by (left; auto). exact E.
    + apply (IH ts1 E1); [intros; apply He; right; auto|auto].
Qed.

Lemma build_length : forall dotf data ts planes ix ix', lsh_build dotf data ts planes ix = Ok ix' -> lsh_new ix ->
  forall t, In t (l_tables ix') -> length (t_map t) <= l_n ix.
Proof.
  intros dotf data ts planes ix ix' H Hn t Ht. unfold lsh_build in H. destruct ((64 <? ts)%N && negb (length planes =? 0)%nat); [discriminate|].
  rewrite Hn in H. cbn [app] in H. apply bind_ok in H. destruct H as [ts' [E H]].
  assert (ix' = mkLsh (l_n ix) (l_tags ix) (l_labels ix) (N.of_nat (length planes)) ts ts') by congruence. subst ix'. cbn [l_tables] in Ht.
  eapply fill_tables_length; [exact E| |exact Ht]. intros x Hx. apply in_map_iff in Hx. destruct Hx as [p [<- _]]. reflexivity.
Qed.

Lemma lsh_tool_ok : forall w g dotf fv data_name tags labels_name ts planes path d a,
  lsh_session_ok w g data_name tags labels_name ts planes d a ->
  exists x d', lsh_tool w g dotf fv data_name tags labels_name ts planes path d = Ok (x, d') /\
    sh_ann x = a /\ map t_hps (sh_tables x) = planes /\
    lsh_build dotf (fun i => fv (nth i (a_data a) [])) ts planes (lsh_view (mkLA a 0 0 [])) = Ok (lsh_view x) /\
    (forall m, ~ family lsh_suffixes path m -> d' m = d m) /\
    forall g', garbage_ok g' -> exists y, load_lsh w g' path new_lsh d' = Ok y /\ a_adim (sh_ann y) = a_adim a /\
      sh_tables y = sh_tables x /\
      forall qd filters k, same_answers (lsh_searcher dotf fv qd filters k x) (lsh_searcher dotf fv qd filters k y).
Proof.
  intros w g dotf fv data_name tags labels_name ts planes path d a [Hf Hts Hnt Hpl].
  destruct (files_ann_ok _ _ _ _ _ _ _ Hf) as [Hann [Hn2 _]].
  assert (Htl : length (ids_view (a_tags a)) = N.to_nat (a_n a)) by (unfold ids_view; rewrite map_length; apply Hann).
  destruct (lsh_build_ok dotf (fun i => fv (nth i (a_data a) [])) ts planes (lsh_view (mkLA a 0 0 [])) Hts) as [ix [E [En [Et [El [Ent [Ets _]]]]]]]; [exact Htl|reflexivity|].
  destruct (lsh_built_shape _ _ _ _ _ _ E ltac:(reflexivity)) as [Sh _].
  set (x := mkLA a (l_num_tables ix) (l_table_size ix) (l_tables ix)).
  assert (Ex : lsh_view x = ix) by (destruct ix; cbn in *; unfold x, lsh_view; cbn; congruence).
  destruct (save_ann_ok w path a d Hann) as [d1 [S1 [S2 S3]]].
  exists x, (fs_set d1 (path ++ "_index.bin") (Some (lsh_bytes (lsh_view x)))). split.
  { unfold lsh_tool. rewrite (fo_made _ _ _ _ _ _ _ Hf). cbn [bind]. rewrite E. cbn [bind]. fold x. unfold save_lsh. change (sh_ann x) with a. rewrite S1. reflexivity. }
  split; [reflexivity|]. split; [exact Sh|]. split; [rewrite Ex; exact E|]. split.
  { intros m Hm. rewrite fs_set_other by (eapply not_family; [exact Hm|left; auto]). apply S3. intros [s [Hs ->]]. apply Hm. exists s. split; [right; auto|auto]. }
  intros g' Hg'.
  assert (S2' : ann_on w a path (fs_set d1 (path ++ "_index.bin") (Some (lsh_bytes (lsh_view x))))).
  { apply (ann_on_ext _ _ _ d1); auto. intros s Hs. apply fs_set_other. rewrite eqb_app. clear - Hs. cbn in Hs. intuition (subst; reflexivity). }
  destruct (load_ann_ok w g' path a _ 0 0 Hg' Hann S2') as [a' [L1 L2]].
  pose proof L2 as (An & _ & Ad & Ada & At & _).
  assert (Hst : forall t, In t (l_tables ix) -> (N.of_nat (length (t_map t)) < 2 ^ 32)%N).
  { intros t Ht. pose proof (build_length _ _ _ _ _ _ E ltac:(reflexivity) t Ht) as B. cbn in B. lia. }
  destruct (lsh_life dotf (fun i => fv (nth i (a_data a) [])) ts planes (lsh_view (mkLA a 0 0 [])) ix [] [] ix (N.to_nat (a_adim a))
    (lsh_view (mkLA a' 0 0 []))) as [ix3 [I1 [I2 [I3 I4]]]]; auto.
  { reflexivity. }
  { cbn. rewrite N2Nat.id. auto. }
  { cbn. intros t Ht. apply in_map_iff in Ht. destruct Ht as [t0 [<- Ht]]. rewrite N2Nat.id. apply Hann. auto. }
  assert (Ev : l_n ix3 = N.to_nat (a_n a) /\ l_labels ix3 = labels_view a).
  { unfold lsh_load in I1. apply bind_ok in I1. destruct I1 as [s1 [_ I1]]. apply bind_ok in I1. destruct I1 as [nt [_ I1]].
    apply bind_ok in I1. destruct I1 as [tsz [_ I1]]. apply bind_ok in I1. destruct I1 as [tt [_ I1]].
    assert (Ei : ix3 = mkLsh (N.to_nat (a_n a')) (ids_view (a_tags a')) (labels_view a') 0 0 tt) by (cbn in I1; congruence).
    rewrite Ei. cbn. rewrite An, (labels_view_same _ _ L2). auto. }
  exists (mkLA a' (l_num_tables ix3) (l_table_size ix3) (l_tables ix3)). split.
  { unfold load_lsh. cbn [new_lsh sh_ann sh_num_tables sh_table_size sh_tables]. rewrite L1. cbn [bind]. rewrite fs_set_same, Ad, Ex.
    rewrite I1. reflexivity. }
  cbn [sh_ann sh_tables]. split; [exact Ad|]. split; [rewrite I2; reflexivity|].
  intros qd filters k q L ids ds. unfold lsh_searcher, lsh_search. cbn [lsh_view sh_ann l_tables l_n l_labels sh_tables]. rewrite I2.
  rewrite (query_dist_same qd _ _ q Ada), An, (labels_view_same _ _ L2). unfold x. cbn [sh_tables sh_ann].
  destruct (lookup_all dotf (fv q) (l_tables ix)) as [cands tb]. destruct (flat_search _ _ _ _ _ _ _); reflexivity.
Qed.

Lemma lsh_tool_search : forall w g dotf fv data_name labels_name ts planes path d a x d',
  lsh_session_ok w g data_name [] labels_name ts planes d a ->
  lsh_tool w g dotf fv data_name [] labels_name ts planes path d = Ok (x, d') ->
  forall g' g1 g2 query_name prefix k args order qd filters nq qadim mem, garbage_ok g' ->
  queries_in w g1 g2 (d' query_name) nq qadim mem -> (1 <= nq)%N -> (a_adim a <= qadim)%N ->
  (forall q p, finite (qd q p)) -> filter_ok labels_name filters -> (1 <= k)%N ->
  (exists L, In L args /\ (1 <= L)%N) ->
  (forall L, In L args -> (1 <= L)%N -> each_once (N.to_nat nq) (order L)) ->
  exists d'', search_tool w g1 g2 query_name prefix k 1 args order (load_for_lsh w g' dotf fv qd filters (N.to_nat k) path) d' = Ok (Some d'') /\
    forall L, In L args -> (1 <= L)%N -> exists rows,
      d'' (result_name prefix L) = Some (bin_file 4 nq k (map N.of_nat (concat rows))) /\ length rows = N.to_nat nq /\
      forall i row, nth_error rows i = Some row -> length row = N.to_nat k /\
        let q := firstn (N.to_nat (a_adim a) * w) (nth i mem []) in
        let dist := fun id => qd q (nth id (a_data a) []) in
        exists near found, NoDup near /\
          (forall id, In id near <-> id < N.to_nat (a_n a) /\ line_matches d labels_name filters id /\ collide dotf planes (fv q) (fv (nth id (a_data a) []))) /\
          row = (found ++ repeat 0 (N.to_nat k - length found))%list /\ is_top_k (N.to_nat k) (score dist near) (score dist found).
Proof.
  intros w g dotf fv data_name labels_name ts planes path d a x d' Hs Htool
    g' g1 g2 query_name prefix k args order qd filters nq qadim mem Hg' Hq Hnq Hdim Hqd Hfo Hk Hex Ho.
  destruct (lsh_tool_ok w g dotf fv data_name [] labels_name ts planes path d a Hs) as [x1 [d1 [E [H1 [H2 [H3 [H4 H5]]]]]]].
  assert (x1 = x) by congruence. assert (d1 = d') by congruence. subst x1 d1.
  destruct (H5 g' Hg') as [y [R1 [R2 [_ R3]]]].
  pose proof (hs_files _ _ _ _ _ _ _ _ _ Hs) as Hf. pose proof (labels_length _ _ _ _ _ _ _ _ Hf Hfo) as Hlab.
  destruct (tool_rows w g1 g2 query_name prefix k 1 args order (load_for_lsh w g' dotf fv qd filters (N.to_nat k) path) d' nq qadim mem (a_adim a)
    (lsh_searcher dotf fv qd filters (N.to_nat k) x) (lsh_searcher dotf fv qd filters (N.to_nat k) y)
    (fun L i row ds c =>
        let q := firstn (N.to_nat (a_adim a) * w) (nth i mem []) in
        let dist := fun id => qd q (nth id (a_data a) []) in
        exists near found, NoDup near /\
          (forall id, In id near <-> id < N.to_nat (a_n a) /\ line_matches d labels_name filters id /\ collide dotf planes (fv q) (fv (nth id (a_data a) []))) /\
          row = (found ++ repeat 0 (N.to_nat k - length found))%list /\ is_top_k (N.to_nat k) (score dist near) (score dist found))) as [d'' [T1 T2]]; auto.
  - unfold load_for_lsh. rewrite R1. cbn [bind]. rewrite R2. reflexivity.
  - apply local_lsh.
  - intros L i HL1 HL2 Hi. cbn zeta. set (q := firstn (N.to_nat (a_adim a) * w) (nth i mem [])).
    assert (Hroom : room (N.to_nat k) (repeat 0 (N.to_nat k)) (Some (repeat f32_zero (N.to_nat k)))).
    { split; [rewrite repeat_length; auto|]. intros v Ev. assert (v = repeat f32_zero (N.to_nat k)) by congruence. subst v. rewrite repeat_length. auto. }
    destruct (lsh_search_ok dotf (fun i => fv (nth i (a_data a) [])) ts planes (lsh_view (mkLA a 0 0 [])) (fv q) (query_dist qd a q) (N.to_nat k) filters
      (repeat 0 (N.to_nat k)) (Some (repeat f32_zero (N.to_nat k)))) as [ix' [ix'' [cands [ids [i' [ds' [S0 [S1 [S2 [S3 [S4 S5]]]]]]]]]]]; auto.
    + apply (hs_ts _ _ _ _ _ _ _ _ _ Hs).
    + cbn. apply (construct_tags _ _ _ _ _ _ (fo_made _ _ _ _ _ _ _ Hf)).
    + reflexivity.
    + lia.
    + split; intros id; [apply Hqd|intros _; apply Hqd].
    + assert (ix' = lsh_view x) by congruence. subst ix'.
      destruct ds' as [dv|]; [|destruct S5 as [_ [_ []]]].
      exists i', dv, (length ids). split.
      { unfold lsh_searcher. rewrite H1. rewrite S1. reflexivity. }
      exists cands, ids. split; [auto|]. split; [|split; [apply filled_row; apply S5|exact S4]].
      intros id. rewrite S3. cbn [l_n l_labels lsh_view sh_ann]. split.
      * intros [A [B C]]. split; [auto|]. split; [apply (accepted_lines _ _ _ _ _ _ _ _ _ Hf Hfo A); auto|auto].
      * intros [A [B C]]. split; [auto|]. split; [apply (accepted_lines _ _ _ _ _ _ _ _ _ Hf Hfo A); auto|auto].
  - exists d''. split; [auto|]. intros L HL1 HL2. destruct (T2 L HL1 HL2) as [rows [U1 [U2 U3]]]. exists rows. split; [auto|]. split; [auto|].
    intros i row Hrow. destruct (U3 i row Hrow) as [V1 [_ [_ V2]]]. auto.
Qed.

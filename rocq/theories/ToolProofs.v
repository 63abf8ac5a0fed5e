(** * Lemmas about the build tools: RelativeNG and HNSW. *)
From Coq Require Import NArith String List Arith Lia Bool Permutation Sorting.Sorted.
From Verif Require Import Base Float32 Float32Facts Bytes StreamModel BinModel BinSpec BinProofs BinProofs2 TextModel TextProofs GraphFileSpec PoolModel GraphSpec
  SortSpec GreedyModel SearchModel SearchSpec SearchProofs HnswModel HnswSpec HnswProofs2 HnswProofs3 PruneModel BuildModel EntryModel EntrySpec RngModel RngSpec RngProofs
  IndexFileModel IndexFileSpec IndexFileProofs IndexFileProofs2 IndexFileProofs3 SystemModel SystemSpec SystemProofs SystemProofs2 SystemProofs3 SystemProofs4
  ToolModel ToolSpec.
Import ListNotations.
Local Open Scope string_scope.

Lemma files_ann_ok : forall w g data_name tags labels_name d a, files_ok w g data_name tags labels_name d a ->
  ann_ok w a /\ (a_n a < 2 ^ 32)%N /\ (labels_name = "" -> a_filtered a = false).
Proof.
  intros w g data_name tags labels_name d a H. destruct H as [H1 H2 H3 H4 H5 H6 H7].
  destruct (construct_spec _ _ _ _ _ _ _ H1 H2 H3 H6 H4 H5) as (Hl & Hn & Ht & Htb & Hu & Huv & Hnd & Hcl & Hlab).
  split; [|split; [auto|]].
  - split; [auto|]. split; [auto|]. split; [auto|]. split; [auto|]. destruct (String.eqb labels_name "").
    + destruct Hlab as [-> [-> _]]. auto.
    + destruct Hlab as [-> [L1 [L2 _]]]. split; [auto|]. split.
      * intros l Hl'. destruct (L2 l Hl') as [_ [S1 S2]]. split; [auto|]. split; [auto|]. apply H7. auto.
      * rewrite Huv. split; [discriminate|]. intros c Hc. cbn in Hc. destruct Hc as [<-|[]]. cbn. lia.
  - intros ->. cbn in Hlab. apply Hlab.
Qed.

Lemma fle_not_nan : forall x, fle f32_zero x = true -> is_nan x = false.
Proof. intros [| | |]; auto. Qed.

Lemma view_dissim : forall pd a, vec_dissim pd -> dissimilarity (sp_pd (space_view pd a)).
Proof. intros pd a [H1 H2 H3 H4]. constructor; cbn; intros; auto. Qed.

Lemma rng_session_input : forall w g sortf pd data_name tags cent order d a, sorts sortf ->
  rng_session_ok w g pd data_name tags cent order d a ->
  rng_input_ok sortf (space_view pd a) (ids_view (a_tags a)) cent order.
Proof.
  intros w g sortf pd data_name tags cent order d a Hs [Hf Hn Hd [Hc1 Hc2] Ho].
  destruct (files_ann_ok _ _ _ _ _ _ _ Hf) as [[Hl [Ht [Htb [Hu Hlab]]]] [Hn2 Hfil]].
  constructor; cbn [space_view sp_n sp_pd sp_filtered sp_labels]; auto.
  - lia.
  - intros i j. apply fle_not_nan, Hd.
  - unfold ids_view. rewrite map_length. auto.
  - intros C. rewrite Hfil in C by auto. discriminate.
Qed.

Lemma seq_bounded_length : forall n (l : list nat), NoDup l -> (forall y, In y l -> y < n) -> length l <= n.
Proof.
  intros n l Hn Hb. rewrite <- (seq_length n 0). apply NoDup_incl_length; auto. intros y Hy. apply in_seq. specialize (Hb y Hy). lia.
Qed.

Lemma rng_tool_ok : forall w g sortf pd data_name tags cent order path d a, sorts sortf ->
  rng_session_ok w g pd data_name tags cent order d a ->
  exists x d', rng_tool w g sortf pd data_name tags cent order path d = Ok (x, d') /\
    g_ann x = a /\ gann_ok w x /\ index_ok (graph_view x) /\
    rng_covers (N.to_nat (a_n a)) (fun i j => pd (nth i (a_data a) []) (nth j (a_data a) [])) (ix_graph (graph_view x)) /\
    (forall m, ~ family rng_suffixes path m -> d' m = d m) /\
    forall g', garbage_ok g' -> exists x', load_rng w g' path (new_gann 0 0 0) d' = Ok (x', true) /\
      a_adim (g_ann x') = a_adim a /\ max_length (ix_graph (graph_view x')) (N.to_nat (g_max x')) /\
      forall qd k, same_answers (rng_searcher sortf qd k x) (rng_searcher sortf qd k x').
Proof.
  intros w g sortf pd data_name tags cent order path d a Hs H.
  pose proof (rng_session_input _ _ _ _ _ _ _ _ _ _ Hs H) as Hin. destruct H as [Hf Hn Hd [Hc1 Hc2] Ho].
  destruct (files_ann_ok _ _ _ _ _ _ _ Hf) as [Hann [Hn2 Hfil]].
  destruct (rng_build_ok _ _ _ _ _ Hin (view_dissim pd a Hd)) as [ix [md [E [Hix [I1 [I2 [I3 [I4 [I5 [I6 I7]]]]]]]]]].
  cbn [space_view sp_n sp_pd sp_labels] in *.
  assert (Ev : graph_view (built a ix md) = ix) by (apply graph_view_built; auto).
  pose proof Hix as Hix0. destruct Hix as [J1 [[J2 J2'] [J3 [J4 J5]]]]. rewrite I1 in *.
  assert (Hdeg : forall l, In l (ix_graph ix) -> length l <= N.to_nat (a_n a)).
  { intros l Hl. apply In_nth_error in Hl. destruct Hl as [i Hi]. destruct (I6 i l Hi) as [A B]. apply seq_bounded_length; auto. intros y Hy. apply B, Hy. }
  assert (Hmd : md <= N.to_nat (a_n a)).
  { destruct I5 as [_ [[_ ->]|[l [Hl <-]]]]; [lia|auto]. }
  assert (Hgok : gann_ok w (built a ix md)).
  { split; [auto|]. unfold built. cbn [g_lists g_max g_start g_ann]. split; [rewrite map_length; auto|]. split; [|split; unfold u32_range; lia].
    intros l Hl'. apply in_map_iff in Hl'. destruct Hl' as [l0 [<- Hl0]]. split.
    - rewrite map_length. specialize (Hdeg l0 Hl0). lia.
    - intros y Hy. apply in_map_iff in Hy. destruct Hy as [y0 [<- Hy]]. apply In_nth_error in Hl0. destruct Hl0 as [i Hi].
      destruct (I6 i l0 Hi) as [_ B]. apply B in Hy. lia. }
  destruct (save_rng_ok w path (built a ix md) d Hgok) as [d' [S1 [S2 S3]]].
  exists (built a ix md), d'. split.
  { unfold rng_tool. rewrite (fo_made _ _ _ _ _ _ _ Hf). cbn [bind]. rewrite E. cbn [bind fst snd]. rewrite S1. reflexivity. }
  split; [reflexivity|]. split; [auto|]. rewrite Ev. split; [auto|]. split; [exact I7|]. split; [auto|].
  intros g' Hg'. destruct (rng_reload w g' path (built a ix md) d Hg' Hgok) as [d1 [x' [R1 [R2 [R3 [Rmx [Rgr R4]]]]]]].
  assert (d1 = d') by congruence. subst d1. exists x'. split; [auto|]. split; [exact R3|]. split.
  { rewrite Rgr, Rmx, Ev. cbn [built g_max]. rewrite Nat2N.id. exact I5. }
  intros qd k. apply R4.
Qed.

(** The result row when the queries are the indexed vectors. *)
Lemma rng_tool_search : forall w g sortf pd data_name tags cent order path d a x d', sorts sortf ->
  rng_session_ok w g pd data_name tags cent order d a ->
  rng_tool w g sortf pd data_name tags cent order path d = Ok (x, d') ->
  forall g' g1 g2 query_name prefix k args orders, garbage_ok g' ->
  queries_in w g1 g2 (d' query_name) (a_n a) (a_adim a) (a_data a) -> (1 <= k)%N ->
  (exists L, In L args /\ (k <= L)%N) -> (forall L, In L args -> (k <= L)%N -> each_once (N.to_nat (a_n a)) (orders L)) ->
  exists d'', search_tool w g1 g2 query_name prefix k k args orders (load_for_rng w g' sortf (fun q p => pd p q) (N.to_nat k) path) d' = Ok (Some d'') /\
    forall L, In L args -> (k <= L)%N -> exists rows,
      d'' (result_name prefix L) = Some (bin_file 4 (a_n a) k (map N.of_nat (concat rows))) /\ length rows = N.to_nat (a_n a) /\
      forall i row, nth_error rows i = Some row -> length row = N.to_nat k /\
        exists id t, nth_error row 0 = Some (N.to_nat t) /\ nth_error (a_tags a) id = Some t /\
          feq (pd (nth id (a_data a) []) (nth i (a_data a) [])) f32_zero = true.
Proof.
  intros w g sortf pd data_name tags cent order path d a x d' Hs H Htool
    g' g1 g2 query_name prefix k args orders Hg' Hq Hk Hex Ho.
  pose proof (rng_session_input _ _ _ _ _ _ _ _ _ _ Hs H) as Hin.
  destruct (rng_tool_ok w g sortf pd data_name tags cent order path d a Hs H) as [x1 [d1 [E [Ha [Hok [Hix [Hcov [Hfr Hld]]]]]]]].
  assert (x1 = x) by congruence. assert (d1 = d') by congruence. subst x1 d1.
  destruct (Hld g' Hg') as [x' [L1 [L2 [_ L4]]]].
  pose proof (rs_dist _ _ _ _ _ _ _ _ _ H) as Hd. pose proof (rs_files _ _ _ _ _ _ _ _ _ H) as Hf. pose proof (rs_n _ _ _ _ _ _ _ _ _ H) as Hn.
  destruct (files_ann_ok _ _ _ _ _ _ _ Hf) as [[_ [Ht [Htb _]]] [Hn2 Hfil]].
  set (z := repeat 0 (N.to_nat k)). set (zf := repeat f32_zero (N.to_nat k)).
  set (q := fun i => firstn (N.to_nat (a_adim a) * w) (nth i (a_data a) [])).
  assert (Hrows : length (a_data a) = N.to_nat (a_n a) /\ forall r, In r (a_data a) -> length r = N.to_nat (a_adim a) * w).
  { pose proof Hq as [Hw [[G1 G1b] [[G2 G2b] [b [qdim [Eb [Hb [El Hsz]]]]]]]].
    eapply (queries_of_file w g1 g2 b (a_n a) qdim (a_adim a)); auto. rewrite <- Eb. auto. }
  destruct Hrows as [Hlen Hr].
  assert (Eq : forall i, i < N.to_nat (a_n a) -> q i = nth i (a_data a) []).
  { intros i Hi. unfold q. apply firstn_all2. rewrite Hr; [lia|]. apply nth_In. lia. }
  (* the built index *)
  unfold rng_tool in E. apply bind_ok in E. destruct E as [a0 [E0 E]]. assert (a0 = a) by (pose proof (fo_made _ _ _ _ _ _ _ Hf); congruence). subst a0.
  apply bind_ok in E. destruct E as [[ix md] [Eb E]]. apply bind_ok in E. destruct E as [d2 [_ E]]. cbn [fst snd] in E.
  assert (Ex : x = built a ix md) by congruence.
  destruct (rng_build_ok _ _ _ _ _ Hin (view_dissim pd a Hd)) as [ix1 [md1 [E1 [_ [I1 [I2 [I3 _]]]]]]].
  assert (ix1 = ix) by congruence. subst ix1. cbn [space_view sp_n sp_labels] in I1, I2, I3.
  assert (Ev : graph_view x = ix) by (rewrite Ex; apply graph_view_built; auto).
  assert (Hone : forall L i, (k <= L)%N -> i < N.to_nat (a_n a) -> exists row ds c,
     rng_searcher sortf (fun q p => pd p q) (N.to_nat k) x (q i) (N.to_nat L) z zf = Ok (row, ds, c) /\
     exists id t, nth_error row 0 = Some (N.to_nat t) /\ nth_error (a_tags a) id = Some t /\
          feq (pd (nth id (a_data a) []) (nth i (a_data a) [])) f32_zero = true).
  { intros L i HL Hi. rewrite (Eq i Hi).
    destruct (rng_search_finds sortf (space_view pd a) (ids_view (a_tags a)) cent order ix md i (N.to_nat L) (N.to_nat k) [] z zf)
      as [ind' [dst' [cnt [id [S1 [S2 [S3 [S4 [S5 S6]]]]]]]]]; auto.
    - apply view_dissim. auto.
    - lia. - lia. - unfold z. rewrite repeat_length. lia. - unfold zf. rewrite repeat_length. lia.
    - cbn [space_view sp_n sp_pd] in S1, S3, S5, S6. exists ind', dst', cnt. split.
      + unfold rng_searcher, query_dist. rewrite Ev, Ha. exact S1.
      + destruct (nth_error (a_tags a) id) as [t|] eqn:Et; [|apply nth_error_None in Et; lia].
        exists id, t. split; [|split; auto]. rewrite S4. unfold ids_view. rewrite nth_error_map, Et. reflexivity. }
  set (R := fun (L : N) (i : nat) => match rng_searcher sortf (fun q p => pd p q) (N.to_nat k) x (q i) (N.to_nat L) z zf with Ok (ids, _, _) => ids | _ => [] end).
  destruct (tool_ok w g1 g2 query_name prefix k k args orders (load_for_rng w g' sortf (fun q p => pd p q) (N.to_nat k) path) d' (a_n a) (a_adim a) (a_data a)
    (a_adim a) (rng_searcher sortf (fun q p => pd p q) (N.to_nat k) x') R) as [d'' [T1 [T2 _]]]; auto.
  - lia.
  - unfold load_for_rng. rewrite L1. cbn [bind fst]. rewrite L2. reflexivity.
  - lia.
  - apply local_rng.
  - intros L i _ HL Hi. destruct (Hone L i HL Hi) as [row [ds [c [S1 _]]]]. exists ds, c.
    rewrite (L4 (fun q p => pd p q) (N.to_nat k)). unfold R. fold z zf (q i). rewrite S1. auto.
  - exists d''. split; [auto|]. intros L HL1 HL2. exists (map (R L) (seq 0 (N.to_nat (a_n a)))).
    split; [apply T2; auto|]. split; [rewrite map_length, seq_length; auto|].
    intros i row Hrow. rewrite nth_error_map in Hrow.
    assert (Hi : i < N.to_nat (a_n a)).
    { destruct (nth_error (seq 0 (N.to_nat (a_n a))) i) eqn:Ei; [|discriminate].
      assert (Hi : i < length (seq 0 (N.to_nat (a_n a)))) by (apply nth_error_Some; congruence). rewrite seq_length in Hi. auto. }
    rewrite (nth_error_nth' _ 0) in Hrow by (rewrite seq_length; auto). rewrite seq_nth in Hrow by auto. cbn [option_map plus] in Hrow.
    destruct (Hone L i HL2 Hi) as [row' [ds [c [S1 S2]]]].
    assert (Er : row' = row) by (unfold R in Hrow; rewrite S1 in Hrow; congruence). subst row'. split; [|auto].
    pose proof (local_rng sortf (fun q p => pd p q) (N.to_nat k) x (q i) (N.to_nat L) z [] zf [] (repeat_length _ _) (repeat_length _ _)) as Hl.
    rewrite S1 in Hl. apply Hl.
Qed.

(** HNSW and Vamana on vector files. *)
From Coq Require Import NArith ZArith Reals Lra Lia String List Arith Bool Sorting.Sorted Permutation Floats.SpecFloat.
From Flocq Require Import Core.
From Verif Require Import Base Bytes Float32 Float32Facts DivFacts FloatBits DistSpec DistModel DistProofs FusedModel FusedProofs RealSpec FloatReal L2ErrorProofs RealDistProofs ClosestModel ConvertModel StreamModel BinModel BinSpec NormModel NormSpec NormProofs2 StatsProofs4
  PoolModel SortSpec TopKSpec ClosestSpec SearchSpec HnswSpec PruneModel HnswModel MeanProofs3 IndexFileModel IndexFileSpec SystemModel SystemSpec SystemProofs SystemProofs2 SystemProofs3 SystemProofs4 ToolModel ToolSpec ToolProofs ToolProofs2 ToolProofs3 GtToolSpec GtToolProofs3 RealSearchModel RealSearchSpec RealSearchProofs RealSearchProofs2 RealSearchProofs3.
Import ListNotations.
Local Open Scope R_scope.

Lemma first_of_reports : forall n tags (d : nat -> f32) row ds found (dist err : nat -> R), reports n tags d row ds found ->
  (forall id, (id < n)%nat -> DistSpec.finite (d id) /\ f32_valid (d id) = true /\ Rabs (real (d id) - dist id) <= err id) -> nearest_first n tags dist err row found.
Proof.
  intros n tags d row ds found dist err [ND [Hn [S R]]] Hd. split; [exact ND|]. split; [exact Hn|]. split.
  - eapply sorted_impl; [|exact S]. cbv beta. intros x y Hx Hy Q. destruct (Hd x (Hn x Hx)) as [Fx [Vx Ex]]. destruct (Hd y (Hn y Hy)) as [Fy [Vy Ey]]. apply fle_real in Q; auto. apply Rabs_le_inv in Ex, Ey. lra.
  - intros j id Hj. apply (R j id Hj).
Qed.

Lemma mem_not_nan : forall kt T F p q, loops_ok T F -> is_nan (mem_l2 kt T F p q) = false.
Proof. intros kt T F p q HT. apply (mem_finite kt T F p q HT). Qed.

Lemma hnsw_real : forall kt T F dim rows qrows g sortf data_name tags prm cs path d a levels d', sorts sortf -> loops_ok T F ->
  files_ok (kwidth kt) g data_name tags ""%string d a -> (1 <= bp_L prm)%nat -> (N.of_nat (bp_R prm) < 2 ^ 32)%N -> choices_ok (length rows) cs ->
  d data_name = vector_file kt dim rows -> vectors_ok kt dim rows ->
  hnsw_tool (kwidth kt) g sortf (mem_l2 kt T F) data_name tags prm cs path d = Ok (levels, d') ->
  forall g' g1 g2 query_name prefix k args orders, garbage_ok g' -> length g1 = 4%nat /\ is_bytes g1 -> length g2 = 4%nat /\ is_bytes g2 ->
  d' query_name = vector_file kt dim qrows -> vectors_ok kt dim qrows -> (1 <= k)%N ->
  (exists L, In L args /\ (k <= L)%N) -> (forall L, In L args -> (k <= L)%N -> each_once (length qrows) (orders L)) ->
  exists d'', search_tool (kwidth kt) g1 g2 query_name prefix k k args orders (load_for_hnsw (kwidth kt) g' sortf (mem_l2 kt T F) (N.to_nat k) (length cs) path) d' = Ok (Some d'') /\
    forall L, In L args -> (k <= L)%N -> exists results,
      d'' (result_name prefix L) = Some (bin_file 4 (N.of_nat (length qrows)) k (map N.of_nat (concat results))) /\ length results = length qrows /\
      forall i row, nth_error results i = Some row -> length row = N.to_nat k /\ let dist := fun id => elem_l2 kt (nth i qrows []) (nth id rows []) in
        exists found, found <> [] /\ nearest_first (length rows) (ids_view (a_tags a)) dist (fun id => dist_err kt dim (dist id)) row found.
Proof.
  intros kt T F dim rows qrows g sortf data_name tags prm cs path d a levels d' Hso HT Hf HL HR Hcs Ed Hr Hb g' g1 g2 query_name prefix k args orders Hg' G1 G2 Eq Hq Hk Hargs Ho.
  destruct (object_of_file kt dim rows g data_name tags _ d a Hf Ed Hr) as [An [Ad [Al Am]]].
  destruct (RealSearchProofs2.queries_of_file kt dim qrows g1 g2 Hq G1 G2) as [mem [Qm [Lm Rm]]]. rewrite <- Eq in Qm.
  destruct (hnsw_tool_search (kwidth kt) g sortf (mem_l2 kt T F) data_name tags prm cs path d a levels d' Hso Hf HL HR) with (g' := g') (g1 := g1) (g2 := g2) (query_name := query_name) (prefix := prefix) (k := k) (args := args) (orders := orders) (qd := mem_l2 kt T F) (nq := N.of_nat (length qrows)) (qadim := round_up (N.of_nat dim) 8) (mem := mem) as [d'' [Q W]]; auto.
  - intros p q. apply mem_not_nan, HT.
  - rewrite An, Nat2N.id. exact Hcs.
  - destruct Hq as [Hq _]. destruct qrows; [congruence|]. cbn [length]. lia.
  - rewrite Ad. lia.
  - intros q p. apply mem_not_nan, HT.
  - rewrite Nat2N.id. auto.
  - exists d''. split; [exact Q|]. intros L HL1 HL2. destruct (W L HL1 HL2) as [res [W1 [W2 W3]]]. rewrite Nat2N.id in W2. exists res. split; [exact W1|]. split; [exact W2|].
    intros i row Hi. destruct (W3 i row Hi) as [Lr [ds [c [_ [found [_ [Ne Rp]]]]]]]. split; [exact Lr|]. exists found. split; [exact Ne|].
    assert (Hiq : (i < length qrows)%nat) by (rewrite <- W2; apply nth_error_Some; congruence).
    assert (Mi : in_mem kt dim (N.to_nat (round_up (N.of_nat dim) 8)) (nth i qrows []) (nth i mem [])) by (apply (Rm i); apply nth_error_nth'; lia).
    assert (Eqv : firstn (N.to_nat (a_adim a) * kwidth kt) (nth i mem []) = nth i mem []) by (apply firstn_all2; destruct Mi as [_ [_ [_ [-> _]]]]; rewrite Ad; lia). rewrite Eqv, An, Nat2N.id in Rp.
    eapply first_of_reports; [exact Rp|]. intros id Hid. destruct (Am id Hid) as [Mid Fid]. eapply dist_ok; eauto. apply (vectors_fits kt dim qrows); auto. apply nth_In, Hiq.
Qed.

Lemma vamana_real : forall kt T F dim rows qrows g sortf data_name tags labels_name prm cent work sched order path d a x d', sorts sortf -> loops_ok T F ->
  session_ok (kwidth kt) g (mem_l2 kt T F) data_name tags labels_name prm cent work sched order path d a -> labels_name <> ""%string ->
  d data_name = vector_file kt dim rows -> vectors_ok kt dim rows ->
  vamana_tool (kwidth kt) g sortf (mem_l2 kt T F) data_name tags labels_name prm cent work sched order path d = Ok (x, d') ->
  forall g' g1 g2 query_name prefix k args orders filters, garbage_ok g' -> length g1 = 4%nat /\ is_bytes g1 -> length g2 = 4%nat /\ is_bytes g2 ->
  d' query_name = vector_file kt dim qrows -> vectors_ok kt dim qrows -> filters <> [] -> (1 <= k)%N ->
  (exists L, In L args /\ (k <= L)%N) -> (forall L, In L args -> (k <= L)%N -> each_once (length qrows) (orders L)) ->
  exists d'', search_tool (kwidth kt) g1 g2 query_name prefix k k args orders (load_for_vamana (kwidth kt) g' sortf (mem_l2 kt T F) filters (N.to_nat k) path) d' = Ok (Some d'') /\
    forall L, In L args -> (k <= L)%N -> exists results,
      d'' (result_name prefix L) = Some (bin_file 4 (N.of_nat (length qrows)) k (map N.of_nat (concat results))) /\ length results = length qrows /\
      forall i row, nth_error results i = Some row -> length row = N.to_nat k /\ let dist := fun id => elem_l2 kt (nth i qrows []) (nth id rows []) in
        exists found, (forall id, In id found -> line_matches d labels_name filters id) /\
          nearest_first (length rows) (ids_view (a_tags a)) dist (fun id => dist_err kt dim (dist id)) row found.
Proof.
  intros kt T F dim rows qrows g sortf data_name tags labels_name prm cent work sched order path d a x d' Hso HT Hs Hln Ed Hr Hb g' g1 g2 query_name prefix k args orders filters Hg' G1 G2 Eq Hq Hfl Hk Hargs Ho.
  assert (Hf : files_ok (kwidth kt) g data_name tags labels_name d a) by (destruct Hs; constructor; auto).
  destruct (object_of_file kt dim rows g data_name tags _ d a Hf Ed Hr) as [An [Ad [Al Am]]].
  destruct (RealSearchProofs2.queries_of_file kt dim qrows g1 g2 Hq G1 G2) as [mem [Qm [Lm Rm]]]. rewrite <- Eq in Qm.
  destruct (session_filtered _ _ _ _ _ _ _ _ _ _ _ _ _ _ _ _ _ Hso Hs Hb Hln g' Hg') as [x' [El Hx]].
  destruct (session_run _ _ sortf _ _ _ _ _ _ _ _ _ _ _ _ Hso Hs) as [Ef|[x2 [d2 [E2 [_ [_ [_ [_ [_ S7]]]]]]]]]; [congruence|]. rewrite Hb in E2. injection E2 as <- <-.
  destruct (S7 g' Hg') as [x3 [El3 [Ead _]]]. rewrite El in El3. injection El3 as <-.
  pose proof (tool_rows (kwidth kt) g1 g2 query_name prefix k k args orders (load_for_vamana (kwidth kt) g' sortf (mem_l2 kt T F) filters (N.to_nat k) path) d' (N.of_nat (length qrows)) (round_up (N.of_nat dim) 8) mem (a_adim a)
    (vamana_searcher sortf (mem_l2 kt T F) filters (N.to_nat k) x') (vamana_searcher sortf (mem_l2 kt T F) filters (N.to_nat k) x')
    (fun L i row ds c => exists found, c = length found /\ reports (N.to_nat (a_n a)) (ids_view (a_tags a)) (fun id => mem_l2 kt T F (firstn (N.to_nat (a_adim a) * kwidth kt) (nth i mem [])) (nth id (a_data a) [])) row ds found /\
       forall id, In id found -> line_matches d labels_name filters id)) as TR.
  destruct TR as [d'' [Q W]]; auto.
  - destruct Hq as [Hq _]. destruct qrows; [congruence|]. cbn [length]. lia.
  - unfold load_for_vamana. rewrite El. cbn [bind fst]. rewrite Ead. reflexivity.
  - rewrite Ad. lia.
  - apply local_vamana.
  - intros q0 L0 i0 d0. reflexivity.
  - rewrite Nat2N.id. auto.
  - intros L i HL1 HL2 Hi. destruct (Hx (mem_l2 kt T F) filters (N.to_nat k) (firstn (N.to_nat (a_adim a) * kwidth kt) (nth i mem [])) (N.to_nat L) (repeat 0%nat (N.to_nat k)) (repeat f32_zero (N.to_nat k))) as [ids' [ds' [found [E3 [Rp Hm]]]]]; rewrite ?repeat_length; auto; try lia.
    { intros p. apply mem_not_nan, HT. }
    exists ids', ds', (length found). split; [exact E3|]. exists found. split; [reflexivity|]. split; [exact Rp|]. intros id Hid. right. apply Hm, Hid.
  - exists d''. split; [exact Q|]. intros L HL1 HL2. destruct (W L HL1 HL2) as [res [W1 [W2 W3]]]. rewrite Nat2N.id in W2. exists res. split; [exact W1|]. split; [exact W2|].
    intros i row Hi. destruct (W3 i row Hi) as [Lr [ds [c [found [_ [Rp Hm]]]]]]. split; [exact Lr|]. exists found. split; [exact Hm|].
    assert (Hiq : (i < length qrows)%nat) by (rewrite <- W2; apply nth_error_Some; congruence).
    assert (Mi : in_mem kt dim (N.to_nat (round_up (N.of_nat dim) 8)) (nth i qrows []) (nth i mem [])) by (apply (Rm i); apply nth_error_nth'; lia).
    assert (Eqv : firstn (N.to_nat (a_adim a) * kwidth kt) (nth i mem []) = nth i mem []) by (apply firstn_all2; destruct Mi as [_ [_ [_ [-> _]]]]; rewrite Ad; lia). rewrite Eqv, An, Nat2N.id in Rp.
    eapply first_of_reports; [exact Rp|]. intros id Hid. destruct (Am id Hid) as [Mid Fid]. eapply dist_ok; eauto. apply (vectors_fits kt dim qrows); auto. apply nth_In, Hiq.
Qed.

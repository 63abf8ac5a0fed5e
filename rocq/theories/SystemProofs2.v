(** * Lemmas about whole programs: construct, build, save, load. *)
From Coq Require Import NArith String List Arith Lia Bool Permutation Sorting.Sorted.
From Verif Require Import Base Float32 Bytes StreamModel BinModel BinSpec BinProofs BinProofs2 TextModel TextProofs GraphFileSpec PoolModel GraphSpec FilterSpec
  SortSpec GreedyModel SearchModel SearchSpec SearchProofs HnswModel PruneModel BuildModel BuildSpec EntryModel EntrySpec EntryProofs VamanaModel VamanaProofs
  ClosestModel FlatModel IvfModel IndexFileModel IndexFileSpec IndexFileProofs IndexFileProofs2 IndexFileProofs3 SystemModel SystemSpec SystemProofs.
Import ListNotations.
Local Open Scope string_scope.

Lemma set_insert_NoDup : forall x s, NoDup s -> NoDup (set_insert x s).
Proof.
  intros x s H. unfold set_insert. destruct (existsb (String.eqb x) s) eqn:E; [auto|].
  apply Permutation_NoDup with (x :: s); [apply Permutation_cons_append|]. constructor; [|auto].
  intros Hx. assert (Ht : existsb (String.eqb x) s = true) by (apply existsb_exists; exists x; split; [auto|apply String.eqb_refl]). congruence.
Qed.

Lemma set_insert_all_NoDup : forall l s, NoDup s -> NoDup (fold_left (fun s x => set_insert x s) l s).
Proof. induction l as [|x l IH]; intros s H; cbn [fold_left]; [auto|]. apply IH, set_insert_NoDup, H. Qed.

Lemma parse_lines_labels : forall lines acc labs pts labs', parse_lines lines acc labs = Ok (pts, labs') ->
  NoDup labs -> (forall x, In x labs -> clean x) -> NoDup labs' /\ (forall x, In x labs' -> clean x) /\
  (forall x, In x labs -> In x labs') /\ (lines <> [] -> labs' <> []).
Proof.
  induction lines as [|line lines IH]; intros acc labs pts labs' H Hn Hc; cbn [parse_lines] in H.
  - assert (labs' = labs) by congruence. subst. split; [auto|]. split; [auto|]. split; [auto|]. congruence.
  - destruct (line_tokens line) as [|t toks] eqn:Et; [discriminate|]. rewrite <- Et in H.
    destruct (IH _ _ _ _ H) as [A [B [C _]]].
    + apply set_insert_all_NoDup. auto.
    + intros x Hx. apply set_insert_all in Hx. destruct Hx as [Hx|Hx]; [eapply line_tokens_clean; eauto|auto].
    + split; [auto|]. split; [auto|]. split.
      * intros x Hx. apply C, set_insert_all. auto.
      * intros _ E. assert (Hin : In t labs') by (apply C, set_insert_all; left; rewrite Et; left; auto). rewrite E in Hin. destruct Hin.
Qed.

(** What construct gives. *)
Lemma construct_spec : forall w g data_name tags labels_name d a, width w -> garbage_ok g ->
  (forall b, d data_name = Some b -> is_bytes b) -> (forall t, In t tags -> (t < 2 ^ 32)%N) ->
  construct w g data_name tags labels_name d = Ok a -> (a_n a * (a_dim a + 8) * N.of_nat w + 8 < 2 ^ 64)%N ->
  data_loaded w a /\ (a_n a < 2 ^ 32)%N /\ length (a_tags a) = N.to_nat (a_n a) /\ (forall t, In t (a_tags a) -> (t < 2 ^ 32)%N) /\
  a_use_univ a = true /\ a_univ a = "0" /\ NoDup (a_labels a) /\ (forall x, In x (a_labels a) -> clean x) /\
  (if String.eqb labels_name "" then a_filtered a = false /\ a_pts a = [] /\ a_labels a = []
   else a_filtered a = true /\ length (a_pts a) = N.to_nat (a_n a) /\
     (forall l, In l (a_pts a) -> l <> [] /\ labels_sorted l /\ forall x, In x l -> clean x) /\
     (exists lines, lines = match d labels_name with Some b => file_lines b | None => [] end /\ length lines = N.to_nat (a_n a) /\
        forall i line, nth_error lines i = Some line -> exists l, nth_error (a_pts a) i = Some l /\ Permutation (line_tokens line) l) /\
     (a_n a <> 0%N -> a_labels a <> [])).
Proof.
  intros w g data_name tags labels_name d a Hw Hg Hb Ht H Hs. unfold construct in H.
  apply bind_ok in H. destruct H as [[[[n dim] adim] rows] [El H]]. apply bind_ok in H. destruct H as [tg [Et H]].
  assert (Ha : a_n a = n /\ a_dim a = dim /\ a_adim a = adim /\ a_data a = rows /\ a_tags a = tg /\ a_use_univ a = true /\ a_univ a = "0").
  { destruct (String.eqb labels_name "").
    - assert (E : a = mkA n dim adim rows tg false [] [] true "0") by congruence. rewrite E. cbn. repeat split; reflexivity.
    - unfold parse_label_file in H. apply bind_ok in H. destruct H as [[pts labs] [_ H]]. cbn [a_n a_dim a_adim a_data a_tags a_use_univ a_univ] in H.
      destruct (N.eqb _ _); [|discriminate].
      assert (E : a = mkA n dim adim rows tg true pts labs true "0") by congruence. rewrite E. cbn. repeat split; reflexivity. }
  destruct Ha as (En & Ed & Ead & Eda & Etg & Eu & Euv). 
  assert (Hf : exists b, d data_name = Some b).
  { destruct (Hg 0) as [L0 B0]. destruct (Hg 1) as [L1 B1]. rewrite En, Ed in Hs.
    destruct (aligned_cases w (g 0) (g 1) (d data_name) n dim adim rows Hw L0 L1 B0 B1 Hb El) as [rest [E _]]; [|eauto].
    eapply N.le_lt_trans; [|exact Hs]. apply N.add_le_mono_r, N.mul_le_mono_r, N.mul_le_mono_l. lia. }
  destruct Hf as [b Eb]. rewrite Eb in El.
  assert (Hload : data_loaded w a).
  { split; [auto|]. split; [|auto]. exists (g 0), (g 1), b. destruct (Hg 0), (Hg 1).
    split; [auto|]. split; [auto|]. split; [auto|]. split; [auto|]. split; [auto|]. rewrite En, Ed, Ead, Eda. exact El. }
  destruct (data_loaded_file w a Hload) as [Rn _].
  assert (Htg : length tg = N.to_nat n /\ forall t, In t tg -> (t < 2 ^ 32)%N).
  { unfold tag_map in Et. destruct (negb (N.eqb (N.of_nat (length tags)) n) && negb (Nat.eqb (length tags) 0)) eqn:E1; [discriminate|].
    destruct (negb (Nat.eqb (length tags) 0)) eqn:E2.
    - rewrite andb_true_r in E1. apply negb_false_iff, N.eqb_eq in E1. assert (Eq0 : tg = tags) by congruence. rewrite Eq0. split; [lia|auto].
    - assert (Eq0 : tg = map N.of_nat (seq 0 (N.to_nat n))) by congruence. rewrite Eq0. split; [rewrite map_length, seq_length; auto|].
      intros t Hin. apply in_map_iff in Hin. destruct Hin as [i [<- Hi]]. apply in_seq in Hi. unfold u32_range in Rn. rewrite En in Rn. lia. }
  destruct Htg as [Htl Htb]. rewrite En, Etg.
  split; [auto|]. split; [rewrite <- En; exact Rn|]. split; [auto|]. split; [auto|]. split; [auto|]. split; [auto|].
  destruct (String.eqb labels_name "").
  - assert (E : a = mkA n dim adim rows tg false [] [] true "0") by congruence. rewrite E. cbn.
    split; [constructor|]. split; [intros x []|]. auto.
  - unfold parse_label_file in H. apply bind_ok in H. destruct H as [[pts labs] [Ep H]].
    cbn [a_n a_dim a_adim a_data a_tags a_use_univ a_univ a_pts a_labels] in H, Ep.
    destruct (N.eqb (N.of_nat (length pts)) n) eqn:Eq; [|discriminate]. apply N.eqb_eq in Eq.
    assert (E : a = mkA n dim adim rows tg true pts labs true "0") by congruence.
    destruct (parse_lines_labels _ _ _ _ _ Ep) as [N1 [C1 [_ NE]]]; [constructor|intros x []|].
    destruct (parse_lines_spec _ _ _ _ _ Ep) as [new [E1 [E2 [E3 E4]]]]. cbn [app] in E1. subst new.
    rewrite E. cbn [a_labels a_filtered a_pts]. split; [auto|]. split; [auto|]. split; [auto|]. split; [lia|]. split; [auto|]. split.
    + eexists. split; [reflexivity|]. split; [|exact E4]. unfold file_lines. rewrite <- E2. lia.
    + intros Hn0. apply NE. intros En0. rewrite En0 in E2. cbn in E2. lia.
Qed.

Lemma label_medoids_keys : forall lc work st st', label_medoids lc work st = Ok st' ->
  NoDup (map fst work ++ map fst (ms_medoids st))%list ->
  NoDup (map fst (ms_medoids st')) /\ (forall x, In x (map fst (ms_medoids st')) -> In x (map fst work) \/ In x (map fst (ms_medoids st))).
Proof.
  intros lc work. induction work as [|[x r] work IH]; intros st st' H Hn; cbn [label_medoids] in H.
  - assert (st' = st) by congruence. subst. cbn in Hn. auto.
  - apply bind_ok in H. destruct H as [st1 [E H]]. cbn [map fst app] in Hn. inversion Hn as [|? ? Hx Hn']. subst.
    assert (K : map fst (ms_medoids st1) = map fst (ms_medoids st) \/ map fst (ms_medoids st1) = x :: map fst (ms_medoids st)).
    { unfold label_medoid_step in E. destruct (filtered_points lc x 0 (pts_to_labels lc)) as [|p pts].
      - left. congruence.
      - apply bind_ok in E. destruct E as [[best counts] [_ E]].
        right. assert (E' : st1 = mkMS ((x, best) :: ms_medoids st) ((best, S (match count_of counts best with Some c => c | None => 0 end)) :: counts)) by congruence.
        rewrite E'. reflexivity. }
    destruct (IH st1 st' H) as [A B].
    + destruct K as [-> | ->]; [auto|]. apply Permutation_NoDup with (x :: map fst work ++ map fst (ms_medoids st))%list; [apply Permutation_middle|]. constructor; auto.
    + split; [auto|]. intros y Hy. apply B in Hy. cbn [map fst In]. destruct Hy as [Hy|Hy]; [auto|].
      destruct K as [K|K]; rewrite K in Hy; [auto|]. destruct Hy as [<-|Hy]; auto.
Qed.

Lemma vamana_build_medoids : forall v ix md, vamana_build v = Ok (ix, md) ->
  if sp_filtered (vi_sp v) then exists ms, label_medoids (sp_labels (vi_sp v)) (vi_work v) (mkMS [] []) = Ok ms /\ ix_medoids ix = ms_medoids ms
  else ix_medoids ix = [].
Proof.
  intros v ix md H. unfold vamana_build in H. apply bind_ok in H. destruct H as [env [Ee H]].
  apply bind_ok in H. destruct H as [st [_ H]]. destruct (all_done st); [|discriminate].
  apply bind_ok in H. destruct H as [g [_ H]]. apply bind_ok in H. destruct H as [m [_ H]].
  assert (Ei : ix_medoids ix = be_medoids env).
  { assert (E : ix = mkI (sp_n (vi_sp v)) (vi_tags v) (sp_labels (vi_sp v)) (be_medoids env) (be_start env) g) by congruence. rewrite E. reflexivity. }
  rewrite Ei. unfold vamana_env in Ee. destruct (sp_filtered (vi_sp v)).
  - apply bind_ok in Ee. destruct Ee as [ms [Em Ee]]. apply bind_ok in Ee. destruct Ee as [s [_ Ee]].
    exists ms. split; [auto|]. assert (E : env = mkEnv (vi_sort v) (vi_sp v) (vi_prm v) s (ms_medoids ms)) by congruence. rewrite E. reflexivity.
  - cbn [bind ms_medoids] in Ee. apply bind_ok in Ee. destruct Ee as [s [_ Ee]].
    assert (E : env = mkEnv (vi_sort v) (vi_sp v) (vi_prm v) s []) by congruence. rewrite E. reflexivity.
Qed.

Lemma map_to_of : forall l, ids_view (map N.of_nat l) = l.
Proof. intros l. unfold ids_view. rewrite map_map. rewrite <- (map_id l) at 2. apply map_ext. apply Nat2N.id. Qed.

Lemma graph_view_built : forall a ix md, ix_n ix = N.to_nat (a_n a) -> ix_tags ix = ids_view (a_tags a) -> ix_labels ix = labels_view a ->
  graph_view (built a ix md) = ix.
Proof.
  intros a ix md H1 H2 H3. destruct ix as [n tags lc med st gr]. cbn in *. subst. unfold graph_view. cbn.
  rewrite Nat2N.id. f_equal.
  - rewrite map_map. rewrite <- (map_id med) at 2. apply map_ext. intros [x id]. cbn. rewrite Nat2N.id. auto.
  - rewrite map_map. rewrite <- (map_id gr) at 2. apply map_ext. intros l. apply map_to_of.
Qed.

Lemma session_input : forall w g sortf pd data_name tags labels_name prm cent work sched order path d a, sorts sortf ->
  session_ok w g pd data_name tags labels_name prm cent work sched order path d a ->
  vinput_ok (mkV sortf (space_view pd a) prm (ids_view (a_tags a)) cent work sched order).
Proof.
  intros w g sortf pd data_name tags labels_name prm cent work sched order path d a Hs H.
  destruct (construct_spec _ _ _ _ _ _ _ (so_width _ _ _ _ _ _ _ _ _ _ _ _ _ _ H) (so_garbage _ _ _ _ _ _ _ _ _ _ _ _ _ _ H)
    (so_data _ _ _ _ _ _ _ _ _ _ _ _ _ _ H) (so_tags _ _ _ _ _ _ _ _ _ _ _ _ _ _ H) (so_made _ _ _ _ _ _ _ _ _ _ _ _ _ _ H) (so_fits _ _ _ _ _ _ _ _ _ _ _ _ _ _ H))
    as (Hl & Hn & Ht & Htb & _ & _ & _ & _ & Hlab).
  constructor; cbn [vi_sort vi_sp vi_prm vi_tags vi_centroid vi_work vi_sched vi_order space_view sp_n sp_pd sp_filtered sp_labels].
  - auto.
  - pose proof (so_n _ _ _ _ _ _ _ _ _ _ _ _ _ _ H). lia.
  - apply (so_L _ _ _ _ _ _ _ _ _ _ _ _ _ _ H).
  - intros i j. apply (so_nan _ _ _ _ _ _ _ _ _ _ _ _ _ _ H).
  - unfold ids_view. rewrite map_length. auto.
  - apply (so_cent _ _ _ _ _ _ _ _ _ _ _ _ _ _ H).
  - apply (so_cent _ _ _ _ _ _ _ _ _ _ _ _ _ _ H).
  - intros Hf. unfold labels_view. cbn [pts_to_labels]. destruct (String.eqb labels_name "").
    + destruct Hlab as [Hl0 _]. congruence.
    + apply Hlab.
  - apply (so_work _ _ _ _ _ _ _ _ _ _ _ _ _ _ H).
  - apply (so_sched _ _ _ _ _ _ _ _ _ _ _ _ _ _ H).
  - apply (so_order _ _ _ _ _ _ _ _ _ _ _ _ _ _ H).
Qed.

Lemma session_run : forall w g sortf pd data_name tags labels_name prm cent work sched order path d a, sorts sortf ->
  session_ok w g pd data_name tags labels_name prm cent work sched order path d a ->
  vamana_tool w g sortf pd data_name tags labels_name prm cent work sched order path d = Fuel \/
  exists x d', vamana_tool w g sortf pd data_name tags labels_name prm cent work sched order path d = Ok (x, d') /\
    g_ann x = a /\ gann_ok w x /\ index_ok (graph_view x) /\ ix_labels (graph_view x) = labels_view a /\
    (forall y id labels, medoid_of (ix_medoids (graph_view x)) y = Some id ->
       nth_error (pts_to_labels (ix_labels (graph_view x))) id = Some labels -> matches (Some "0") [y] labels) /\
    forall g', garbage_ok g' -> exists x', load_vamana w g' path (new_gann 0 0 0) d' = Ok (x', true) /\
      a_adim (g_ann x') = a_adim a /\ graph_view x' = graph_view x /\ max_length (ix_graph (graph_view x')) (N.to_nat (g_max x')) /\
      forall qd filters k, same_answers (vamana_searcher sortf qd filters k x) (vamana_searcher sortf qd filters k x').
Proof.
  intros w g sortf pd data_name tags labels_name prm cent work sched order path d a Hs H.
  pose proof (session_input _ _ _ _ _ _ _ _ _ _ _ _ _ _ _ Hs H) as Hin.
  destruct (construct_spec _ _ _ _ _ _ _ (so_width _ _ _ _ _ _ _ _ _ _ _ _ _ _ H) (so_garbage _ _ _ _ _ _ _ _ _ _ _ _ _ _ H)
    (so_data _ _ _ _ _ _ _ _ _ _ _ _ _ _ H) (so_tags _ _ _ _ _ _ _ _ _ _ _ _ _ _ H) (so_made _ _ _ _ _ _ _ _ _ _ _ _ _ _ H) (so_fits _ _ _ _ _ _ _ _ _ _ _ _ _ _ H))
    as (Hl & Hn & Ht & Htb & Hu & Huv & Hnd & Hcl & Hlab).
  unfold vamana_tool. rewrite (so_made _ _ _ _ _ _ _ _ _ _ _ _ _ _ H). cbn [bind].
  destruct (vamana_build_ok _ Hin) as [[ix [md [E [Hix [I1 [I2 [I3 [_ [I5 [I6 I7]]]]]]]]]]|E]; [|left; rewrite E; reflexivity].
  right. rewrite E. cbn [bind fst snd]. 
  cbn [vi_sp vi_tags vi_prm space_view sp_n sp_labels] in I1, I2, I3, I6, I7.
  assert (Ev : graph_view (built a ix md) = ix) by (apply graph_view_built; auto).
  pose proof (vamana_build_medoids _ _ _ E) as Hmed. cbn [vi_sp vi_work space_view sp_filtered sp_labels] in Hmed.
  assert (Hann : ann_ok w a).
  { split; [auto|]. split; [auto|]. split; [auto|]. split; [auto|]. destruct (String.eqb labels_name "").
    - destruct Hlab as [-> [-> _]]. auto.
    - destruct Hlab as [-> [L1 [L2 _]]]. split; [auto|]. split.
      + intros l Hl'. destruct (L2 l Hl') as [_ [S1 S2]]. split; [auto|]. split; [auto|]. apply (so_labels _ _ _ _ _ _ _ _ _ _ _ _ _ _ H). auto.
      + rewrite Huv. split; [discriminate|]. intros c Hc. cbn in Hc. destruct Hc as [<-|[]]. cbn. lia. }
  pose proof Hix as Hix0. destruct Hix as [J1 [[J2 J2'] [J3 [J4 J5]]]]. rewrite I1 in *.
  assert (Hgok : gann_ok w (built a ix md)).
  { split; [auto|]. unfold built. cbn [g_lists g_max g_start g_ann]. split; [rewrite map_length; auto|]. split; [|split].
    - intros l Hl'. apply in_map_iff in Hl'. destruct Hl' as [l0 [<- Hl0]]. apply In_nth_error in Hl0. destruct Hl0 as [i Hi].
      destruct (I7 i l0 Hi) as [K1 K2]. split.
      + rewrite map_length. pose proof (so_R _ _ _ _ _ _ _ _ _ _ _ _ _ _ H). lia.
      + intros y Hy. apply in_map_iff in Hy. destruct Hy as [y0 [<- Hy]]. apply K1 in Hy. lia.
    - unfold u32_range. pose proof (so_R _ _ _ _ _ _ _ _ _ _ _ _ _ _ H). lia.
    - unfold u32_range. lia. }
  assert (Hm : if a_filtered (g_ann (built a ix md)) then medoids_ok (g_medoids (built a ix md)) /\ (g_medoids (built a ix md) = [] -> d (path ++ "_labels_to_medoids.txt") = None)
     else g_medoids (built a ix md) = [] /\ d (path ++ "_labels_to_medoids.txt") = None).
  { cbn [built g_ann g_medoids]. destruct (so_work _ _ _ _ _ _ _ _ _ _ _ _ _ _ H) as [Hw1 Hw2]. destruct (a_filtered a) eqn:Ef.
    - destruct Hmed as [ms [Em Emx]]. rewrite Emx.
      destruct (label_medoids_keys _ _ _ _ Em) as [M1 M2]; [cbn; rewrite app_nil_r; eapply Permutation_NoDup; [apply Permutation_sym; exact Hw1|auto]|].
      assert (Hfst : map fst (map (fun p : label * nat => (fst p, N.of_nat (snd p))) (ms_medoids ms)) = map fst (ms_medoids ms)).
      { rewrite map_map. apply map_ext. auto. }
      split.
      + split; [unfold label in *; cbv beta in *; setoid_rewrite Hfst; auto|]. intros y v Hy. apply in_map_iff in Hy. destruct Hy as [[y0 id] [Eq Hy]]. cbn in Eq.
        assert (y0 = y) by congruence. assert (v = N.of_nat id) by congruence. subst y0 v. split.
        * apply Hcl. destruct (M2 y) as [Hy'|[]]; [apply in_map_iff; exists (y, id); auto|]. eapply Permutation_in; [exact Hw1|auto].
        * rewrite <- Emx in Hy. apply J5 in Hy. lia.
      + intros Enil. exfalso. destruct (String.eqb labels_name ""); [destruct Hlab as [Hl0 _]; congruence|].
        destruct Hlab as [_ [L1 [L2 [_ L4]]]]. pose proof (so_n _ _ _ _ _ _ _ _ _ _ _ _ _ _ H) as Hn10.
        destruct (label_medoids_ok (labels_view a) work (mkMS [] [])) as [ms' [Em' [_ Hx]]].
        { intros y r Hy. apply Hw2 in Hy. destruct r; [discriminate|congruence]. } { intros y id []. }
        assert (ms' = ms) by congruence. subst ms'.
        destruct (a_pts a) as [|l0 pts0] eqn:Epts; [cbn in L1; lia|].
        destruct (L2 l0 ltac:(left; auto)) as [Hne _]. destruct l0 as [|y l0]; [congruence|].
        assert (Hyl : In y (a_labels a)).
        { destruct (so_made _ _ _ _ _ _ _ _ _ _ _ _ _ _ H).
          pose proof (so_made _ _ _ _ _ _ _ _ _ _ _ _ _ _ H) as Hmk. revert Hmk Epts. clear. intros Hmk Epts. unfold construct in Hmk.
          apply bind_ok in Hmk. destruct Hmk as [[[[n dim] adim] rows] [_ Hmk]]. apply bind_ok in Hmk. destruct Hmk as [tg [_ Hmk]].
          destruct (String.eqb labels_name ""); [assert (a = mkA n dim adim rows tg false [] [] true "0") by congruence; subst a; discriminate|].
          unfold parse_label_file in Hmk. apply bind_ok in Hmk. destruct Hmk as [[pts labs] [Ep Hmk]].
          cbn [a_n a_dim a_adim a_data a_tags a_use_univ a_univ a_pts a_labels] in Hmk, Ep. destruct (N.eqb _ _); [|discriminate].
          assert (E : a = mkA n dim adim rows tg true pts labs true "0") by congruence. rewrite E in *. cbn [a_pts a_labels] in *. subst pts.
          destruct (match d labels_name with Some b => getlines LF (text_of b) | None => [] end) as [|line lines]; [cbn in Ep; congruence|].
          cbn [parse_lines] in Ep. destruct (line_tokens line) as [|t toks] eqn:Et; [discriminate|]. rewrite <- Et in Ep.
          destruct (parse_lines_spec _ _ _ _ _ Ep) as [new [E1 _]]. cbn [app] in E1.
          assert (E2 : str_sort (line_tokens line) = y :: l0) by congruence.
          assert (Hy : In y (line_tokens line)).
          { eapply Permutation_in; [apply Permutation_sym, str_sort_perm|]. rewrite E2. left. auto. }
          assert (G : forall lines acc labs0 p labs1, parse_lines lines acc labs0 = Ok (p, labs1) -> forall z, In z labs0 -> In z labs1).
          { clear. induction lines as [|li lines IH]; intros acc labs0 p labs1 Hp z Hz; cbn [parse_lines] in Hp.
            - assert (labs1 = labs0) by congruence. subst. auto.
            - destruct (line_tokens li) as [|t' toks'] eqn:Et'; [discriminate|]. rewrite <- Et' in Hp. eapply IH; [exact Hp|]. apply set_insert_all. auto. }
          eapply G; [exact Ep|]. apply set_insert_all. auto. }
        assert (Hyw : In y (map fst work)) by (eapply Permutation_in; [apply Permutation_sym; exact Hw1|auto]).
        destruct (proj2 (Hx y)) as [id Hid].
        { right. split; [auto|]. exists 0, (y :: l0). split; [unfold labels_view; cbn; rewrite Epts; reflexivity|]. left. left. auto. }
        destruct (ms_medoids ms); [destruct Hid|discriminate].
    - rewrite Hmed. split; [reflexivity|]. apply (so_stale _ _ _ _ _ _ _ _ _ _ _ _ _ _ H). auto. }
  destruct (vamana_reload w g path (built a ix md) d (so_garbage _ _ _ _ _ _ _ _ _ _ _ _ _ _ H) Hgok Hm) as [d' [x0 [S1 _]]].
  rewrite S1. cbn [bind]. exists (built a ix md), d'. split; [auto|]. split; [reflexivity|]. split; [auto|]. rewrite Ev. split; [auto|]. split; [auto|]. split.
  - intros y id labels Hmo Hlb. rewrite I3 in Hlb. cbn [labels_view pts_to_labels] in Hlb. destruct (a_filtered a) eqn:Ef.
    + destruct Hmed as [ms [Em Emx]]. rewrite Emx in Hmo. destruct (so_work _ _ _ _ _ _ _ _ _ _ _ _ _ _ H) as [_ Hw2].
      destruct (label_medoids_final (labels_view a) work) as [ms' [Em' [Hc _]]]; [auto|]. assert (ms' = ms) by congruence. subst ms'.
      destruct (Hc y id Hmo) as [[ls [A B]]|[u [A [ls [B C]]]]].
      * cbn [labels_view pts_to_labels] in A. assert (ls = labels) by (unfold label in *; congruence). subst. right. left. exists y. split; [left; auto|auto].
      * cbn [labels_view pts_to_labels] in B. assert (ls = labels) by (unfold label in *; congruence). subst. right. right. exists u. split; [|auto].
        unfold universal_of, labels_view in A. cbn in A. rewrite Hu, Huv in A. auto.
    + rewrite Hmed in Hmo. discriminate.
  - intros g' Hg'. destruct (vamana_reload w g' path (built a ix md) d Hg' Hgok Hm) as [d2 [x' [S2 [S3 [S4 [Smx [S5 S6]]]]]]].
    assert (d2 = d') by congruence. subst d2. rewrite Ev in S5. exists x'. split; [auto|]. split; [auto|]. split; [auto|]. split.
    { rewrite S5, Smx. cbn [built g_max]. rewrite Nat2N.id. exact I5. } intros qd filters k. apply S6.
Qed.

Lemma matches_perm : forall u filters l l', Permutation l l' -> matches u filters l -> matches u filters l'.
Proof.
  intros u filters l l' P [H|[[x [A B]]|[v [A [B|B]]]]]; [left; auto| | |].
  - right. left. exists x. split; [auto|]. eapply Permutation_in; eauto.
  - right. right. exists v. auto.
  - right. right. exists v. split; [auto|]. right. eapply Permutation_in; eauto.
Qed.

Lemma session_filtered : forall w g sortf pd data_name tags labels_name prm cent work sched order path d a x d', sorts sortf ->
  session_ok w g pd data_name tags labels_name prm cent work sched order path d a ->
  vamana_tool w g sortf pd data_name tags labels_name prm cent work sched order path d = Ok (x, d') ->
  labels_name <> "" ->
  forall g', garbage_ok g' -> exists x', load_vamana w g' path (new_gann 0 0 0) d' = Ok (x', true) /\
  forall qd filters k q L ids ds, (forall p, is_nan (qd q p) = false) -> filters <> [] -> 1 <= L -> k <= L + 1 -> k <= length ids -> k <= length ds ->
  exists ids' ds' found, vamana_searcher sortf qd filters k x' q L ids ds = Ok (ids', ds', length found) /\
    reports (N.to_nat (a_n a)) (ids_view (a_tags a)) (fun id => qd q (nth id (a_data a) [])) ids' ds' found /\
    forall id, In id found -> exists b line, d labels_name = Some b /\ nth_error (file_lines b) id = Some line /\
      matches (Some "0") filters (line_tokens line).
Proof.
  intros w g sortf pd data_name tags labels_name prm cent work sched order path d a x d' Hs H Htool Hne g' Hg'.
  destruct (construct_spec _ _ _ _ _ _ _ (so_width _ _ _ _ _ _ _ _ _ _ _ _ _ _ H) (so_garbage _ _ _ _ _ _ _ _ _ _ _ _ _ _ H)
    (so_data _ _ _ _ _ _ _ _ _ _ _ _ _ _ H) (so_tags _ _ _ _ _ _ _ _ _ _ _ _ _ _ H) (so_made _ _ _ _ _ _ _ _ _ _ _ _ _ _ H) (so_fits _ _ _ _ _ _ _ _ _ _ _ _ _ _ H))
    as (Hl & Hn & Ht & Htb & Hu & Huv & Hnd & Hcl & Hlab).
  destruct (String.eqb labels_name "") eqn:El; [apply String.eqb_eq in El; congruence|]. destruct Hlab as [Hf [Hlen [_ [[lines [El1 [El2 El3]]] _]]]].
  destruct (session_run w g sortf pd data_name tags labels_name prm cent work sched order path d a Hs H) as [E|[x1 [d1 [E [Ha [Hok [Hix [Hlb [Hmd Hld]]]]]]]]]; [congruence|].
  assert (x1 = x) by congruence. assert (d1 = d') by congruence. subst x1 d1.
  destruct (Hld g' Hg') as [x' [L1 [_ [L2 [_ L3]]]]]. exists x'. split; [auto|].
  intros qd filters k q L ids ds Hq Hfi HL Hk Hi Hd.
  assert (Hn0 : ix_n (graph_view x) = N.to_nat (a_n a)) by (unfold graph_view; cbn; rewrite Ha; auto).
  assert (Huo : universal_of (labels_view a) = Some "0") by (unfold universal_of, labels_view; cbn; rewrite Hu, Huv; auto).
  destruct (vamana_search_matching sortf (graph_view x) (query_dist qd (g_ann x) q) L k filters ids ds) as [ids' [ds' [found [R1 [R2 R3]]]]]; auto.
  - intros id. apply Hq.
  - rewrite Hlb, Hn0. unfold labels_view. cbn. auto.
  - intros y id labels Hm Hy. rewrite Hlb, Huo. eapply Hmd; eauto.
  - exists ids', ds', found. split; [rewrite (L3 qd filters k q L ids ds); exact R1|]. split.
    + rewrite Hn0 in R2. assert (Et : ix_tags (graph_view x) = ids_view (a_tags a)) by (unfold graph_view; cbn; rewrite Ha; auto). rewrite Et in R2.
      unfold query_dist in R2. rewrite Ha in R2. exact R2.
    + intros id Hid. assert (Hlt : id < length lines) by (rewrite El2, <- Hn0; apply R2; auto).
      destruct (nth_error lines id) as [line|] eqn:Eline; [|apply nth_error_None in Eline; lia].
      destruct (d labels_name) as [b|] eqn:Eb; [|rewrite El1 in Hlt; cbn in Hlt; lia].
      exists b, line. split; [auto|]. split; [rewrite <- El1; auto|].
      destruct (El3 id line Eline) as [l [Hl1 Hl2]]. specialize (R3 id l Hid). rewrite Hlb, Huo in R3. cbn [labels_view pts_to_labels] in R3.
      eapply matches_perm; [apply Permutation_sym; exact Hl2|]. auto.
Qed.

From Coq Require Import String List Arith Bool Lia Sorting.Sorted Sorting.Permutation.
From Verif Require Import Base ListLemmas Float32 PoolModel SortSpec GraphSpec GreedyModel GreedyProofs SearchSpec SearchModel SearchProofs PruneModel PruneProofs EntrySpec EntryModel EntryProofs RngModel RngProofs
  HnswModel HnswSpec FlatSpec LongerSpec LongerProofs RenameSpec RenameProofs.
Import ListNotations.

(** ** HNSW *)
Lemma inner_same : forall t n p (inn inn' : gindex) (dist dist' : nat -> f32) q,
  moved n q (map t (ix_tags inn)) (ix_tags inn') -> (forall x, In x (ix_tags inn) -> t x = p x) ->
  (forall x, In x (ix_tags inn) -> dist' (p x) = dist x) ->
  forall x, x < n -> inner_dist inn' dist' (q x) = inner_dist inn dist x.
Proof.
  intros t n p inn inn' dist dist' q [H1 [H2 H3]] Et Hd x Hx. unfold inner_dist.
  specialize (H3 x Hx). rewrite nth_error_map in H3. rewrite map_length in H1. destruct (nth_error (ix_tags inn) x) as [y|] eqn:E; [|apply nth_error_None in E; lia].
  cbn in H3. rewrite (nth_error_nth _ _ 0 H3), (nth_error_nth _ _ 0 E). pose proof (nth_error_In _ _ E) as Hy. rewrite (Et y Hy). apply Hd. exact Hy.
Qed.

Lemma hnsw_ren : forall sortf L k, sorts sortf -> by_distances_only sortf -> 1 <= L -> k <= L -> forall levels levels' ps t dist dist' filters filters' ind dst ind' dst',
  levels_ok levels -> levels_renumbered t ps levels levels' ->
  match ps, levels with p :: _, ix :: _ => finite_distances (ix_n ix) dist /\ (forall x, is_nan (dist' x) = false) /\ (forall x, x < ix_n ix -> dist' (p x) = dist x) | _, _ => True end ->
  k <= length ind -> k <= length dst -> k <= length ind' -> k <= length dst' ->
  exists i d i' d' c, hnsw_search sortf levels dist L k filters ind dst = Ok (i, d, c) /\ hnsw_search sortf levels' dist' L k filters' ind' dst' = Ok (i', d', c) /\
    c <= k /\ firstn c i' = map t (firstn c i) /\ firstn c d' = firstn c d /\
    match levels with ix :: _ => forall x, In x (firstn c i) -> In x (ix_tags ix) | [] => True end.
Proof.
  intros sortf L k Hs Hb HL Hk levels. induction levels as [|ix inner IH]; intros levels' ps t dist dist' fs fs' ind dst ind' dst' Hok Hr Hm H1 H2 H3 H4; [destruct Hok|].
  destruct ps as [|p ps]; [destruct Hr|]. destruct levels' as [|ix' inner']; [destruct Hr|].
  destruct Hr as [En [Hp [Ht [Hg [Est Hrest]]]]]. destruct Hm as [Hfin [Hn' Hd]].
  assert (Hix : index_ok ix) by (destruct Hok as [X _]; exact X). destruct Hix as [Hn [Hgo [Htl [Hst Hmed]]]].
  destruct Ht as [T1 [T2 T3]].
  assert (Hgo' : graph_ok (ix_n ix) (ix_graph ix')) by (eapply moved_graph_ok; eassumption).
  assert (Hin : exists ids, (match inner with [] => Ok [ix_start ix] | inn :: _ =>
       do r <- hnsw_search sortf inner (inner_dist inn dist) L k [] (repeat 0 L) (repeat f32_zero L); let '(i, _, cnt) := r in Ok (firstn cnt i) end) = Ok ids /\
     (match inner' with [] => Ok [ix_start ix'] | inn :: _ =>
       do r <- hnsw_search sortf inner' (inner_dist inn dist') L k [] (repeat 0 L) (repeat f32_zero L); let '(i, _, cnt) := r in Ok (firstn cnt i) end) = Ok (map p ids) /\
     forall x, In x ids -> x < ix_n ix).
  { destruct inner as [|inn inner].
    - destruct ps as [|q ps]; [|destruct Hrest]. destruct inner' as [|inn' inner']; [|destruct Hrest].
      exists [ix_start ix]. rewrite Est. split; [reflexivity|]. split; [reflexivity|]. intros x [<-|[]]. exact Hst.
    - destruct ps as [|q ps]; [destruct Hrest|]. destruct inner' as [|inn' inner']; [destruct Hrest|].
      destruct Hok as [_ [Htg Hok]].
      destruct (IH (inn' :: inner') (q :: ps) p (inner_dist inn dist) (inner_dist inn' dist') [] [] (repeat 0 L) (repeat f32_zero L) (repeat 0 L) (repeat f32_zero L))
        as [i [d [i' [d' [c [A1 [A2 [A3 [A4 [A5 A6]]]]]]]]]]; auto; try (rewrite repeat_length; exact Hk).
      { pose proof Hrest as [_ [_ [Ht2 _]]].
        assert (Il : index_ok inn) by (destruct Hok as [X _]; exact X). destruct Il as [_ [_ [Itl _]]].
        split; [|split].
        - split; [intros x; apply Hfin|]. intros x Hx. unfold inner_dist. apply Hfin. apply Htg. apply nth_In. lia.
        - intros x. apply Hn'.
        - apply (inner_same p (ix_n inn) p); auto. }
      exists (firstn c i). rewrite A1. cbn [bind]. split; [reflexivity|]. rewrite A2. cbn [bind]. split; [rewrite A4; reflexivity|].
      intros x Hx. apply Htg. apply A6. exact Hx. }
  destruct Hin as [ids [E1 [E2 Hids]]].
  destruct (search_ren sortf (ix_n ix) p t dist dist' (passes_filter (ix_labels ix) []) (passes_filter (ix_labels ix') []) (fun _ => true) L (ix_graph ix) (ix_graph ix') ids
    (ix_tags ix) (ix_tags ix') k ind dst ind' dst') as [i [d [i' [d' [c [A1 [A2 [A3 [A4 [A5 _]]]]]]]]]]; auto; try lia.
  { intros x Hx. rewrite T3 by exact Hx. rewrite nth_error_map. reflexivity. }
  exists i, d, i', d', c.
  split; [cbn [hnsw_search]; rewrite E1; cbn [bind]; exact A1|].
  split; [cbn [hnsw_search]; rewrite E2; cbn [bind]; rewrite En; exact A2|].
  split; [exact A3|]. split; [exact A4|]. split; [exact A5|].
  destruct (search_core sortf (ix_n ix) dist (passes_filter (ix_labels ix) []) (fun _ => true) L (ix_graph ix) ids (ix_tags ix) k ind dst) as [st [j [e [G1 [G2 [G3 [G4 [G5 [_ G7]]]]]]]]]; auto; try lia; [apply Hfin|].
  rewrite G1 in A1. cbn [bind] in A1. rewrite G2 in A1. cbn [bind] in A1. injection A1 as <- <- <-.
  intros x Hx. apply In_nth_error in Hx. destruct Hx as [m Em].
  destruct (Nat.lt_ge_cases m (min k (p_cur (g_pool st)))) as [Lm|Lm]; [|].
  - rewrite nth_error_firstn_lt in Em by exact Lm. rewrite G3 in Lm. destruct (nth_error (found st) m) as [z|] eqn:Ez; [|apply nth_error_None in Ez; lia].
    destruct (G7 m z ltac:(lia) Ez) as [B1 _]. rewrite B1 in Em. eapply nth_error_In. exact Em.
  - exfalso. assert (X : nth_error (firstn (min k (p_cur (g_pool st))) j) m = None) by (apply nth_error_None; rewrite firstn_length; lia). congruence.
Qed.

Lemma hnsw_renumbered : forall sortf p ps ix inner ix' inner' dist dist' L k filters indices distances indices' distances',
  sorts sortf -> by_distances_only sortf -> levels_ok (ix :: inner) -> levels_renumbered (fun t => t) (p :: ps) (ix :: inner) (ix' :: inner') ->
  finite_distances (ix_n ix) dist -> finite_distances (ix_n ix) dist' -> (forall x, x < ix_n ix -> dist' (p x) = dist x) ->
  1 <= L -> k <= L -> k <= length indices -> k <= length distances -> k <= length indices' -> k <= length distances' ->
  exists i d i' d' c, hnsw_search sortf (ix :: inner) dist L k filters indices distances = Ok (i, d, c) /\
    hnsw_search sortf (ix' :: inner') dist' L k filters indices' distances' = Ok (i', d', c) /\ c <= k /\ firstn c i' = firstn c i /\ firstn c d' = firstn c d.
Proof.
  intros sortf p ps ix inner ix' inner' dist dist' L k fs ind dst ind' dst' Hs Hb Hok Hr Hfin Hfin' Hd HL Hk H1 H2 H3 H4.
  destruct (hnsw_ren sortf L k Hs Hb HL Hk (ix :: inner) (ix' :: inner') (p :: ps) (fun t => t) dist dist' fs fs ind dst ind' dst') as [i [d [i' [d' [c [A1 [A2 [A3 [A4 [A5 _]]]]]]]]]]; auto.
  { split; [exact Hfin|]. split; [apply Hfin'|exact Hd]. }
  rewrite map_id in A4. exists i, d, i', d', c. auto.
Qed.

(** ** The relative neighbourhood graph *)
Definition rn (p : nat -> nat) (x : neighbor) : neighbor := mkN (p (nid x)) (ndist x) (nflag x).

Lemma sorted_unique : forall (A : Type) (R : A -> A -> Prop) (l l' : list A), (forall x y, In x l -> In y l -> R x y -> R y x -> x = y) ->
  StronglySorted R l -> StronglySorted R l' -> Permutation l l' -> l = l'.
Proof.
  intros A R l. induction l as [|x l IH]; intros l' Ha H1 H2 P.
  - apply Permutation_nil in P. auto.
  - destruct l' as [|y l']; [apply Permutation_sym, Permutation_nil in P; discriminate|].
    inversion H1 as [|? ? S1 F1]. inversion H2 as [|? ? S2 F2]. subst. rewrite Forall_forall in F1, F2.
    assert (E : x = y).
    { destruct (Permutation_in x P (or_introl eq_refl)) as [->|Hx]; [reflexivity|].
      destruct (Permutation_in y (Permutation_sym P) (or_introl eq_refl)) as [->|Hy]; [reflexivity|].
      apply Ha; [left; reflexivity|right; exact Hy|apply F1; exact Hy|apply F2; exact Hx]. }
    subst y. f_equal. apply IH; auto.
    + intros a b Ia Ib. apply Ha; right; assumption.
    + eapply Permutation_cons_inv. exact P.
Qed.

Lemma rng_pool_ren : forall p sp sp' x, reordered p sp sp' -> x < sp_n sp -> Permutation (map (rn p) (rng_pool sp x)) (rng_pool sp' (p x)).
Proof.
  intros p sp sp' x Hr Hx. apply NoDup_Permutation.
  - apply (NoDup_map_inv nid). rewrite map_map. cbn [rn nid]. rewrite <- (map_map nid p), rng_pool_ids.
    assert (G : forall l, NoDup l -> (forall y, In y l -> y < sp_n sp) -> NoDup (map p l)).
    { intros l. induction l as [|a l IH]; intros Hnd Hb; cbn; [constructor|]. inversion Hnd. subst. constructor.
      - intros C. apply in_map_iff in C. destruct C as [b [E Hb']]. apply (ro_perm _ _ _ Hr) in E; [subst; auto|apply Hb; right; exact Hb'|apply Hb; left; reflexivity].
      - apply IH; auto. intros y Hy. apply Hb. right. exact Hy. }
    apply G; [apply NoDup_filter, seq_NoDup|]. intros y Hy. apply filter_In in Hy. destruct Hy as [Hy _]. apply in_seq in Hy. lia.
  - apply (NoDup_map_inv nid). rewrite rng_pool_ids. apply NoDup_filter, seq_NoDup.
  - intros z. rewrite in_map_iff, rng_pool_In. split.
    + intros [w [<- Hw]]. apply rng_pool_In in Hw. destruct Hw as [j [Hj [Hne ->]]]. unfold rn. cbn. exists (p j). rewrite (ro_size _ _ _ Hr).
      split; [apply (ro_perm _ _ _ Hr); exact Hj|]. split; [intros C; apply (ro_perm _ _ _ Hr) in C; auto|]. f_equal. symmetry. apply (ro_pd _ _ _ Hr); assumption.
    + intros [j [Hj [Hne ->]]]. rewrite (ro_size _ _ _ Hr) in Hj. destruct (renumbering_onto _ _ j (ro_perm _ _ _ Hr) Hj) as [a [Ha <-]].
      exists (mkN a (sp_pd sp a x) true). split; [unfold rn; cbn; f_equal; symmetry; apply (ro_pd _ _ _ Hr); assumption|].
      apply rng_pool_In. exists a. split; [exact Ha|]. split; [congruence|reflexivity].
Qed.

Lemma sorted_map : forall p l, StronglySorted (fun x y => fle (ndist x) (ndist y) = true) l -> StronglySorted (fun x y => fle (ndist x) (ndist y) = true) (map (rn p) l).
Proof.
  intros p l H. induction H as [|x l H IH F]; cbn; constructor; auto. rewrite Forall_forall in *. intros y Hy. apply in_map_iff in Hy. destruct Hy as [z [<- Hz]]. cbn. apply F. exact Hz.
Qed.

Lemma rng_sorted_ren : forall sortf p sp sp' x, sorts sortf -> reordered p sp sp' -> x < sp_n sp -> no_ties (sp_n sp) (fun j => sp_pd sp j x) ->
  (forall a b, is_nan (sp_pd sp a b) = false) -> (forall a b, is_nan (sp_pd sp' a b) = false) ->
  sortf (rng_pool sp' (p x)) = map (rn p) (sortf (rng_pool sp x)).
Proof.
  intros sortf p sp sp' x Hs Hr Hx T Hn Hn'.
  destruct (Hs (rng_pool sp x)) as [P1 S1]; [intros z Hz; apply rng_pool_In in Hz; destruct Hz as [j [_ [_ ->]]]; apply Hn|].
  destruct (Hs (rng_pool sp' (p x))) as [P2 S2]; [intros z Hz; apply rng_pool_In in Hz; destruct Hz as [j [_ [_ ->]]]; apply Hn'|].
  pose proof (rng_pool_ren p sp sp' x Hr Hx) as P3. symmetry.
  apply (sorted_unique _ (fun a b => fle (ndist a) (ndist b) = true)); auto.
  - intros a b Ha Hb H1 H2. apply in_map_iff in Ha. destruct Ha as [u [<- Hu]]. apply in_map_iff in Hb. destruct Hb as [v [<- Hv]].
    apply (Permutation_in u (Permutation_sym P1)) in Hu. apply (Permutation_in v (Permutation_sym P1)) in Hv.
    apply rng_pool_In in Hu. destruct Hu as [i [Hi [_ ->]]]. apply rng_pool_In in Hv. destruct Hv as [j [Hj [_ ->]]]. cbn in H1, H2.
    assert (i = j) by (apply T; auto; apply fle_both; assumption). subst. reflexivity.
  - apply sorted_map. exact S1.
  - transitivity (map (rn p) (rng_pool sp x)); [apply Permutation_map, Permutation_sym, P1|]. transitivity (rng_pool sp' (p x)); [exact P3|exact P2].
Qed.

Lemma allowed_ren : forall p sp sp' a b, reordered p sp sp' -> a < sp_n sp -> b < sp_n sp -> prune_allowed sp' (p a) (p b) = prune_allowed sp a b.
Proof.
  intros p sp sp' a b Hr Ha Hb. unfold prune_allowed. rewrite (ro_filtered _ _ _ Hr). destruct (sp_filtered sp) eqn:F; [|reflexivity].
  destruct (ro_labels _ _ _ Hr F) as [_ [_ M]]. unfold rd. rewrite !M by assumption. reflexivity.
Qed.

Lemma dd_ren : forall p sp sp' a b, reordered p sp sp' -> a < sp_n sp -> b < sp_n sp -> data_dist sp' (p a) (p b) = data_dist sp a b.
Proof.
  intros p sp sp' a b Hr Ha Hb. unfold data_dist. rewrite (ro_size _ _ _ Hr), (ro_pd _ _ _ Hr) by assumption.
  pose proof (proj1 (ro_perm _ _ _ Hr) a Ha) as A. pose proof (proj1 (ro_perm _ _ _ Hr) b Hb) as B.
  apply Nat.ltb_lt in A, B, Ha, Hb. rewrite A, B, Ha, Hb. reflexivity.
Qed.

Lemma occlude_ren : forall p sp sp' cands alpha z, reordered p sp sp' -> (forall y, In y cands -> nid y < sp_n sp) -> nid z < sp_n sp ->
  forall cnt t occ, occlude_loop sp' (map (rn p) cands) alpha (rn p z) t cnt occ = occlude_loop sp cands alpha z t cnt occ.
Proof.
  intros p sp sp' cands alpha z Hr Hc Hz cnt. induction cnt as [|cnt IH]; intros t occ; cbn [occlude_loop]; [reflexivity|].
  destruct (rd occ t) as [f| | | |]; cbn [bind]; try reflexivity. destruct (fgt f alpha); [apply IH|].
  rewrite rd_map. destruct (rd cands t) as [c| | | |] eqn:Ec; cbn [bind rmap]; try reflexivity. cbn [rn nid ndist].
  assert (Hcn : nid c < sp_n sp) by (apply Hc; apply rd_ok in Ec; eapply nth_error_In; exact Ec).
  rewrite (allowed_ren p sp sp') by assumption. destruct (prune_allowed sp (nid z) (nid c)) as [[]| | | |]; cbn [bind negb]; try reflexivity; [|apply IH].
  rewrite (dd_ren p sp sp' (nid c) (nid z)) by assumption. destruct (data_dist sp (nid c) (nid z)) as [d| | | |]; cbn [bind]; try reflexivity.
  destruct (wr occ t (fmax f (fdiv (ndist c) d))) as [o| | | |]; cbn [bind]; try reflexivity. apply IH.
Qed.

Lemma prune_ren : forall p sp sp' cands R C alpha x, reordered p sp sp' -> (forall y, In y cands -> nid y < sp_n sp) -> x < sp_n sp ->
  forall fuel s occ res, prune_loop fuel sp' (map (rn p) cands) R C alpha (p x) s occ (map (rn p) res) = rmap (map (rn p)) (prune_loop fuel sp cands R C alpha x s occ res).
Proof.
  intros p sp sp' cands R C alpha x Hr Hc Hx fuel. induction fuel as [|fuel IH]; intros s occ res; cbn [prune_loop]; rewrite !map_length.
  - destruct ((length res <? R) && (s <? length cands) && (s <? C)); reflexivity.
  - destruct ((length res <? R) && (s <? length cands) && (s <? C)); [|reflexivity].
    rewrite rd_map. destruct (rd cands s) as [z| | | |] eqn:Ez; cbn [bind rmap]; try reflexivity. cbn [rn nid].
    assert (Hz : nid z < sp_n sp) by (apply Hc; apply rd_ok in Ez; eapply nth_error_In; exact Ez).
    assert (Eq : (p (nid z) =? p x) = (nid z =? x)).
    { destruct (Nat.eqb_spec (nid z) x) as [->|Ne]; [apply Nat.eqb_refl|]. apply Nat.eqb_neq. intros E. apply Ne. apply (ro_perm _ _ _ Hr); assumption. }
    rewrite Eq. destruct (nid z =? x); [apply IH|]. destruct (rd occ s) as [f| | | |]; cbn [bind]; try reflexivity.
    destruct (fgt f alpha); [apply IH|]. destruct (wr occ s FLT_MAX) as [o| | | |]; cbn [bind]; try reflexivity.
    change (mkN (p (nid z)) (ndist z) (nflag z)) with (rn p z).
    rewrite (occlude_ren p sp sp') by assumption. destruct (occlude_loop sp cands alpha z (S s) (min (length cands) C - S s) o) as [o2| | | |]; cbn [bind]; try reflexivity.
    rewrite <- IH, map_app. reflexivity.
Qed.

Lemma rng_list_ren : forall sortf p sp sp' x, sorts sortf -> reordered p sp sp' -> x < sp_n sp -> no_ties (sp_n sp) (fun j => sp_pd sp j x) ->
  (forall a b, is_nan (sp_pd sp a b) = false) -> (forall a b, is_nan (sp_pd sp' a b) = false) ->
  prune_alpha sortf sp' (rng_params sp') (p x) (rng_pool sp' (p x)) [] = rmap (map p) (prune_alpha sortf sp (rng_params sp) x (rng_pool sp x) []).
Proof.
  intros sortf p sp sp' x Hs Hr Hx T Hn Hn'. unfold prune_alpha.
  pose proof (rng_pool_ren p sp sp' x Hr Hx) as P. pose proof (rng_sorted_ren sortf p sp sp' x Hs Hr Hx T Hn Hn') as E.
  destruct (Hs (rng_pool sp x)) as [P1 _]; [intros z Hz; apply rng_pool_In in Hz; destruct Hz as [j [_ [_ ->]]]; apply Hn|].
  assert (Hb : forall y, In y (sortf (rng_pool sp x)) -> nid y < sp_n sp).
  { intros y Hy. apply (Permutation_in y (Permutation_sym P1)) in Hy. apply rng_pool_In in Hy. destruct Hy as [j [Hj [_ ->]]]. exact Hj. }
  destruct (rng_pool sp x) as [|a l] eqn:E1.
  - cbn in P. apply Permutation_nil in P. rewrite P. reflexivity.
  - rewrite <- E1 in *. destruct (rng_pool sp' (p x)) as [|a' l'] eqn:E2; [apply Permutation_sym, Permutation_nil in P; rewrite E1 in P; discriminate|]. rewrite <- E2 in *.
    rewrite E, map_length. cbn [rng_params bp_R bp_C bp_alpha]. rewrite (ro_size _ _ _ Hr).
    change (@nil neighbor) with (map (rn p) []). rewrite (prune_ren p sp sp') by assumption. cbn [map].
    destruct (prune_loop (length (sortf (rng_pool sp x))) sp (sortf (rng_pool sp x)) (sp_n sp) (sp_n sp) f32_one x 0 (repeat f32_zero (length (sortf (rng_pool sp x)))) []) as [r| | | |] eqn:El; cbn [bind rmap]; try reflexivity.
    f_equal. assert (G : forall y, In y r -> nid y < sp_n sp).
    { assert (Gen : forall fuel s occ res r, (forall y, In y res -> nid y < sp_n sp) -> prune_loop fuel sp (sortf (rng_pool sp x)) (sp_n sp) (sp_n sp) f32_one x s occ res = Ok r -> forall y, In y r -> nid y < sp_n sp).
      { clear El r. intros fuel. induction fuel as [|fuel IH]; intros s occ res r Hres; cbn [prune_loop]; destruct ((length res <? sp_n sp) && (s <? length (sortf (rng_pool sp x))) && (s <? sp_n sp)); intros El;
          try discriminate; try (injection El as <-; exact Hres).
        destruct (rd (sortf (rng_pool sp x)) s) as [z| | | |] eqn:Ez; cbn [bind] in El; try discriminate.
        destruct (nid z =? x); [eapply IH; eassumption|]. destruct (rd occ s) as [f| | | |]; cbn [bind] in El; try discriminate.
        destruct (fgt f f32_one); [eapply IH; eassumption|]. destruct (wr occ s FLT_MAX) as [o| | | |]; cbn [bind] in El; try discriminate.
        match type of El with bind ?e _ = _ => destruct e as [o2| | | |]; cbn [bind] in El; try discriminate end.
        eapply IH; [|exact El]. intros y Hy. apply in_app_iff in Hy. destruct Hy as [Hy|[<-|[]]]; [apply Hres; exact Hy|]. apply Hb. apply rd_ok in Ez. eapply nth_error_In. exact Ez. }
      eapply Gen; [|exact El]. intros y []. }
    clear El. induction r as [|z r IHr]; cbn; [reflexivity|].
    assert (Eq : (p (nid z) =? p x) = (nid z =? x)).
    { destruct (Nat.eqb_spec (nid z) x) as [->|Ne]; [apply Nat.eqb_refl|]. apply Nat.eqb_neq. intros C. apply Ne. apply (ro_perm _ _ _ Hr); auto. apply G. left. reflexivity. }
    rewrite Eq. destruct (nid z =? x); cbn; rewrite IHr; auto; intros y Hy; apply G; right; exact Hy.
Qed.

Lemma first_min_ren : forall n p c c' s s', renumbering n p -> moved n p c c' -> values_differ c -> first_min c s -> first_min c' s' -> s' = p s.
Proof.
  intros n p c c' s s' Hp [L1 [L2 M]] V [d [E [Hd _]]] [d' [E' [Hd' _]]].
  assert (Hs' : s' < n) by (rewrite <- L2; apply nth_error_Some; congruence).
  assert (Hs : s < n) by (rewrite <- L1; apply nth_error_Some; congruence).
  destruct (renumbering_onto n p s' Hp Hs') as [a [Ha <-]]. f_equal. rewrite (M a Ha) in E'.
  apply (V a s d' d); auto. apply fle_both; [|eapply Hd; exact E']. apply (Hd' (p s)). rewrite (M s Hs). exact E.
Qed.

Lemma max_length_ren : forall n p g g' m m', renumbering n p -> moved_graph n p g g' -> max_length g m -> max_length g' m' -> m' = m.
Proof.
  intros n p g g' m m' Hp [L1 [L2 M]] [B X] [B' X'].
  assert (H1 : forall l, In l g -> length l <= m').
  { intros l Hl. apply In_nth_error in Hl. destruct Hl as [x Ex]. rewrite <- (map_length p). apply B'. eapply nth_error_In. apply M. exact Ex. }
  assert (H2 : forall l, In l g' -> length l <= m).
  { intros l Hl. apply In_nth_error in Hl. destruct Hl as [y Ey]. assert (Hy : y < n) by (rewrite <- L2; apply nth_error_Some; congruence).
    destruct (renumbering_onto n p y Hp Hy) as [x [Hx <-]]. destruct (nth_error g x) as [k|] eqn:Ek; [|apply nth_error_None in Ek; lia].
    rewrite (M x k Ek) in Ey. injection Ey as <-. rewrite map_length. apply B. eapply nth_error_In. exact Ek. }
  destruct X as [[-> ->]|[l [Hl <-]]]; destruct X' as [[-> ->]|[l' [Hl' <-]]]; auto.
  - specialize (H2 _ Hl'). lia.
  - cbn in L2. subst n. destruct g; [destruct Hl|discriminate].
  - specialize (H1 _ Hl). specialize (H2 _ Hl'). lia.
Qed.

Lemma rng_build_renumbered : forall sortf p sp sp' tags tags' centroid centroid' order order',
  rng_input_ok sortf sp tags centroid order -> rng_input_ok sortf sp' tags' centroid' order' ->
  reordered p sp sp' -> moved (sp_n sp) p tags tags' -> moved (sp_n sp) p centroid centroid' ->
  (forall x, x < sp_n sp -> no_ties (sp_n sp) (fun j => sp_pd sp j x)) -> values_differ centroid ->
  exists ix ix' degree, rng_build sortf sp tags centroid order = Ok (ix, degree) /\ rng_build sortf sp' tags' centroid' order' = Ok (ix', degree) /\
    index_ok ix /\ ix_n ix = sp_n sp /\ ix_tags ix = tags /\ renumbered p ix ix'.
Proof.
  intros sortf p sp sp' tags tags' c c' order order' Hi Hi' Hr Ht Hc T V.
  destruct (rng_build_core _ _ _ _ _ Hi) as [ix [md [E [Hix [En [Et [El [Es [Em _]]]]]]]]].
  destruct (rng_build_core _ _ _ _ _ Hi') as [ix' [md' [E' [Hix' [En' [Et' [El' [Es' [Em' _]]]]]]]]].
  assert (G : forall sp tags c order ix md, rng_input_ok sortf sp tags c order -> rng_build sortf sp tags c order = Ok (ix, md) -> ix_medoids ix = [] /\ length (ix_graph ix) = sp_n sp /\
     forall x, x < sp_n sp -> exists l, prune_alpha sortf sp (rng_params sp) x (rng_pool sp x) [] = Ok l /\ nth_error (ix_graph ix) x = Some l).
  { clear. intros sp tags c order ix md [Hs Hn Hnan Ht Hc Hcn Hl Ho] E. unfold rng_build in E.
    destruct (calculate_medoid (sp_n sp) c) as [s| | | |]; cbn [bind] in E; try discriminate.
    destruct (rng_loop_ok sortf sp Hs Hn Hnan Hl order (repeat [] (sp_n sp))) as [g [Eg [Hg [_ Hin]]]].
    { eapply Permutation_NoDup; [apply Permutation_sym; exact Ho|apply seq_NoDup]. }
    { intros x Hx. apply (Permutation_in _ Ho) in Hx. apply in_seq in Hx. lia. }
    { apply repeat_length. }
    rewrite Eg in E. cbn [bind] in E. destruct (update_degree_stats true (sp_n sp) 0 g) as [u| | | |]; cbn [bind] in E; try discriminate.
    injection E as <- <-. cbn [ix_medoids ix_graph]. split; [reflexivity|]. split; [exact Hg|]. intros x Hx.
    destruct (Hin x []) as [l [L1 L2]]; [apply (Permutation_in _ (Permutation_sym Ho)), in_seq; lia|apply nth_error_repeat; exact Hx|]. exists l. auto. }
  destruct (G _ _ _ _ _ _ Hi E) as [M1 [Lg Hg]]. destruct (G _ _ _ _ _ _ Hi' E') as [M1' [Lg' Hg']]. clear G.
  assert (Hgr : moved_graph (sp_n sp) p (ix_graph ix) (ix_graph ix')).
  { split; [exact Lg|]. split; [rewrite Lg'; apply (ro_size _ _ _ Hr)|]. intros x l Ex.
    assert (Hx : x < sp_n sp) by (rewrite <- Lg; apply nth_error_Some; congruence).
    destruct (Hg x Hx) as [l1 [P1 N1]]. assert (l1 = l) by congruence. subst l1.
    destruct (Hg' (p x)) as [l2 [P2 N2]]; [rewrite (ro_size _ _ _ Hr); apply (ro_perm _ _ _ Hr); exact Hx|].
    rewrite (rng_list_ren sortf p sp sp' x (ro_sort _ _ _ _ _ Hi) Hr Hx (T x Hx) (ro_nan _ _ _ _ _ Hi) (ro_nan _ _ _ _ _ Hi')) in P2. rewrite P1 in P2. cbn [rmap] in P2. congruence. }
  assert (md' = md) by (eapply max_length_ren; [apply (ro_perm _ _ _ Hr)|exact Hgr|exact Em|exact Em']). subst md'.
  exists ix, ix', md. split; [exact E|]. split; [exact E'|]. split; [exact Hix|]. split; [exact En|]. split; [exact Et|].
  constructor; rewrite ?En, ?En', ?El, ?El', ?Et, ?Et', ?M1, ?M1'.
  - exact (ro_size _ _ _ Hr).
  - exact (ro_perm _ _ _ Hr).
  - exact Ht.
  - exact Hgr.
  - eapply first_min_ren; [exact (ro_perm _ _ _ Hr)|exact Hc|exact V|exact Es|exact Es'].
  - reflexivity.
  - exact (ro_universal _ _ _ Hr).
Qed.

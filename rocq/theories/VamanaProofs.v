(** * Reciprocal edges by one thread; the whole build. *)
From Coq Require Import String List Arith Lia Bool Sorting.Permutation.
From Verif Require Import Base Float32 PoolModel TopKSpec SortSpec GraphSpec GreedyModel SearchModel PruneModel PruneSpec
  BuildModel BuildSpec ListLemmas FilterProofs PoolProofs PoolProofs2 GreedyProofs SearchProofs PruneProofs BuildProofs BuildProofs2 EntryModel EntrySpec EntryProofs VamanaModel.
Import ListNotations.

Lemma build_run_app : forall env s1 s2 st, build_run env st (s1 ++ s2) =
  (do st' <- build_run env st s1; build_run env st' s2).
Proof.
  intros env s1. induction s1 as [|i s1 IH]; intros s2 st; cbn; [reflexivity|].
  destruct (build_step env st i); cbn; auto.
Qed.

Lemma build_step_eq : forall env st loc t g' t' ts', nth_error (bs_tasks st) loc = Some t ->
  task_step env loc (bs_graph st) t = Ok (g', t') -> wr (bs_tasks st) loc t' = Ok ts' ->
  build_step env st loc = Ok (mkBS g' ts').
Proof.
  intros env st loc t g' t' ts' Ht Hs Hw. unfold build_step. rewrite (proj2 (rd_ok _ _ _ _) Ht). cbn [bind].
  rewrite Hs. cbn [bind]. rewrite Hw. reflexivity.
Qed.

Lemma recip_solo : forall env loc, sorts (be_sort env) -> build_input_ok env ->
  forall todo st, binv env st -> nth_error (bs_tasks st) loc = Some (TRecip todo) ->
  exists k st', build_run env st (repeat loc k) = Ok st' /\ nth_error (bs_tasks st') loc = Some (TRecip []) /\
    (forall des old, In des todo -> nth_error (bs_graph st) des = Some old ->
       exists new, nth_error (bs_graph st') des = Some new /\ recip_outcome env loc des old new) /\
    (forall x, ~ In x todo -> nth_error (bs_graph st') x = nth_error (bs_graph st) x).
Proof.
  intros env loc Hs Hin todo. induction todo as [|des todo IH]; intros st HI Ht.
  - exists 0, st. cbn. split; [auto|]. split; [auto|]. split; [intros d o []|auto].
  - assert (Hloc : loc < sp_n (be_sp env)).
    { rewrite <- (bv_tl _ _ HI). apply nth_error_Some. congruence. }
    pose proof (bv_task _ _ HI _ _ Ht) as Hok. cbn [task_ok] in Hok. pose proof Hok as Hok'.
    apply plist_tail in Hok. destruct Hok as [Hok [Hd [Hne Hlen]]].
    assert (Hnd : ~ In des todo) by (destruct Hok' as [_ [_ N]]; inversion N; auto).
    destruct (rd_lt _ (bs_graph st) des) as [pool Ep]; [rewrite (bv_gl _ _ HI); auto|].
    pose proof Ep as Ep'. apply rd_ok in Ep'.
    (* after des is done, with list [new], go on *)
    assert (Hgo : forall k1 g1 ts1 new,
      build_run env st (repeat loc k1) = Ok (mkBS g1 ts1) ->
      nth_error ts1 loc = Some (TRecip todo) ->
      (forall x, nth_error g1 x = if Nat.eq_dec x des then Some new else nth_error (bs_graph st) x) ->
      recip_outcome env loc des pool new ->
      exists k st', build_run env st (repeat loc k) = Ok st' /\ nth_error (bs_tasks st') loc = Some (TRecip []) /\
        (forall d old, In d (des :: todo) -> nth_error (bs_graph st) d = Some old ->
           exists nw, nth_error (bs_graph st') d = Some nw /\ recip_outcome env loc d old nw) /\
        (forall x, ~ In x (des :: todo) -> nth_error (bs_graph st') x = nth_error (bs_graph st) x)).
    { intros k1 g1 ts1 new R1 T1 G1 O1.
      destruct (build_run_ok env Hs Hin (repeat loc k1) st HI) as [st1 [E1 [HI1 _]]].
      { intros i Hi. apply repeat_spec in Hi. subst. auto. }
      assert (st1 = mkBS g1 ts1) by congruence. subst st1.
      destruct (IH (mkBS g1 ts1) HI1 T1) as [k2 [st2 [R2 [T2 [O2 U2]]]]].
      exists (k1 + k2), st2. split; [rewrite repeat_app, build_run_app, R1; cbn [bind]; auto|].
      split; [auto|]. cbn [bs_graph] in O2, U2. split.
      - intros d old [<-|Hin'] Hold.
        + rewrite U2, G1 by auto. destruct (Nat.eq_dec des des); [|congruence].
          exists new. split; auto. assert (old = pool) by congruence. subst. auto.
        + apply O2; auto. rewrite G1. destruct (Nat.eq_dec d des) as [->|]; [contradiction|auto].
      - intros x Hx. cbn [In] in Hx. rewrite U2, G1 by tauto. destruct (Nat.eq_dec x des) as [->|]; [tauto|auto]. }
    destruct (set_mem loc pool) eqn:Em.
    + (* already listed *)
      destruct (wr_nth _ (bs_tasks st) loc (TRecip todo)) as [ts' [W [_ N]]]; [rewrite (bv_tl _ _ HI); auto|].
      apply (Hgo 1 (bs_graph st) ts' pool).
      * cbn [repeat build_run].
        rewrite (build_step_eq env st loc _ (bs_graph st) (TRecip todo) ts' Ht); auto.
        unfold task_step. rewrite Ep. cbn [bind]. rewrite Em. reflexivity.
      * rewrite N. destruct (Nat.eq_dec loc loc); congruence.
      * intros x. destruct (Nat.eq_dec x des) as [->|]; auto.
      * apply ro_there; auto. apply set_mem_In. auto.
    + destruct (10 * length pool <? 13 * bp_R (be_prm env)) eqn:El.
      * apply Nat.ltb_lt in El as El'.
        destruct (wr_nth _ (bs_tasks st) loc (TRecip todo)) as [ts' [W [_ N]]]; [rewrite (bv_tl _ _ HI); auto|].
        destruct (wr_nth _ (bs_graph st) des (pool ++ [loc])) as [g' [W' [_ N']]]; [rewrite (bv_gl _ _ HI); auto|].
        apply (Hgo 1 g' ts' (pool ++ [loc])).
        -- cbn [repeat build_run]. rewrite (build_step_eq env st loc _ g' (TRecip todo) ts' Ht); auto.
           unfold task_step. rewrite Ep. cbn [bind]. rewrite Em, El, W'. reflexivity.
        -- rewrite N. destruct (Nat.eq_dec loc loc); congruence.
        -- auto.
        -- apply ro_append; auto.
      * apply Nat.ltb_ge in El as El'.
        destruct (reprune_ok env des (pool ++ [loc]) Hs Hin Hd) as [p [new [_ [_ [_ [_ [E1 _]]]]]]].
        { intros y Hy. apply in_app_or in Hy. destruct Hy as [Hy|[<-|[]]]; auto.
          apply (binv_graph_ok _ _ HI) with des pool; auto. }
        destruct (wr_nth _ (bs_tasks st) loc (TOver des new todo)) as [ts1 [W1 [L1 N1]]]; [rewrite (bv_tl _ _ HI); auto|].
        destruct (wr_nth _ ts1 loc (TRecip todo)) as [ts' [W [_ N]]]; [rewrite L1, (bv_tl _ _ HI); auto|].
        destruct (wr_nth _ (bs_graph st) des new) as [g' [W' [_ N']]]; [rewrite (bv_gl _ _ HI); auto|].
        apply (Hgo 2 g' ts' new).
        -- cbn [repeat build_run].
           rewrite (build_step_eq env st loc _ (bs_graph st) (TOver des new todo) ts1 Ht); auto.
           2:{ unfold task_step. rewrite Ep. cbn [bind]. rewrite Em, El, E1. reflexivity. }
           cbn [bind].
           rewrite (build_step_eq env (mkBS (bs_graph st) ts1) loc (TOver des new todo) g' (TRecip todo) ts'); auto.
           ++ cbn [bs_tasks]. rewrite N1. destruct (Nat.eq_dec loc loc); congruence.
           ++ unfold task_step. cbn [bs_graph]. rewrite W'. reflexivity.
        -- rewrite N. destruct (Nat.eq_dec loc loc); congruence.
        -- auto.
        -- apply ro_reprune; auto.
Qed.

Lemma recip_reachable : forall env sched st loc todo, sorts (be_sort env) -> build_input_ok env ->
  (forall i, In i sched -> i < sp_n (be_sp env)) ->
  build_run env (build_init env) sched = Ok st -> nth_error (bs_tasks st) loc = Some (TRecip todo) ->
  exists k st', build_run env st (repeat loc k) = Ok st' /\ nth_error (bs_tasks st') loc = Some (TRecip []) /\
    (forall des old, In des todo -> nth_error (bs_graph st) des = Some old ->
       exists new, nth_error (bs_graph st') des = Some new /\ recip_outcome env loc des old new) /\
    (forall x, ~ In x todo -> nth_error (bs_graph st') x = nth_error (bs_graph st) x).
Proof.
  intros env sched st loc todo Hs Hin Hsc Hrun Ht.
  destruct (build_run_ok env Hs Hin sched (build_init env) (build_init_inv env) Hsc) as [st' [E [HI _]]].
  assert (st' = st) by congruence. subst. apply recip_solo; auto.
Qed.

Lemma reprune_candidates : forall env des old loc new, sorts (be_sort env) -> build_input_ok env ->
  des < sp_n (be_sp env) -> loc < sp_n (be_sp env) -> loc <> des -> (forall y, In y old -> y < sp_n (be_sp env)) ->
  reprune env des (old ++ [loc]) = Ok new ->
  exists p, dummy_pool (be_sp env) des [] (old ++ [loc]) = Ok p /\ In loc (map nid p) /\ NoDup (map nid p) /\
    (forall y, In y (map nid p) <-> (In y old \/ y = loc) /\ y <> des) /\
    (forall z, In z p -> ndist z = sp_pd (be_sp env) des (nid z)) /\
    (if bp_rule (be_prm env) =? 0 then prune_alpha (be_sort env) (be_sp env) (be_prm env) des p []
     else prune_topk (be_sort env) (be_prm env) des p []) = Ok new.
Proof.
  intros env des old loc new Hs Hin Hd Hl Hne Hold Hrep.
  destruct (reprune_ok env des (old ++ [loc]) Hs Hin Hd) as [p [new' [E [N [I [D [E1 _]]]]]]].
  { intros y Hy. apply in_app_or in Hy. destruct Hy as [Hy|[<-|[]]]; auto. }
  exists p. split; [auto|]. split; [apply I; split; auto; apply in_or_app; right; left; auto|]. split; [auto|].
  split; [|split; [auto|]].
  - intros y. rewrite I, in_app_iff. cbn [In]. split.
    + intros [[H|[H|[]]] H2]; auto.
    + intros [[H|H] H2]; auto.
  - unfold reprune in Hrep. rewrite E in Hrep. cbn [bind] in Hrep. exact Hrep.
Qed.

(** ** The whole build *)
Lemma vamana_env_ok : forall v, vinput_ok v -> exists env, vamana_env v = Ok env /\ build_input_ok env /\
  be_sort env = vi_sort v /\ be_sp env = vi_sp v /\ be_prm env = vi_prm v /\ first_min (vi_centroid v) (be_start env).
Proof.
  intros v H. unfold vamana_env.
  assert (Hm : exists ms, (if sp_filtered (vi_sp v) then label_medoids (sp_labels (vi_sp v)) (vi_work v) (mkMS [] [])
            else Ok (mkMS [] [])) = Ok ms /\ forall x id, In (x, id) (ms_medoids ms) -> id < sp_n (vi_sp v)).
  { destruct (sp_filtered (vi_sp v)) eqn:Ef.
    - destruct (label_medoids_ok (sp_labels (vi_sp v)) (vi_work v) (mkMS [] [])) as [ms [E [Hg _]]].
      + intros x r Hx. apply (vo_rand _ H) in Hx. destruct r; [discriminate|congruence].
      + intros x id [].
      + exists ms. split; [auto|]. intros x id Hx. destruct (Hg x id Hx) as [ls [A _]].
        rewrite <- (vo_lab _ H Ef). apply nth_error_Some. congruence.
    - eexists. split; [reflexivity|]. intros x id []. }
  destruct Hm as [ms [-> Hms]]. cbn [bind].
  destruct (calculate_medoid_ok (sp_n (vi_sp v)) (vi_centroid v)) as [s [-> [Hs Hfm]]].
  { pose proof (vo_n _ H). lia. } { apply (vo_cent _ H). } { apply (vo_cnan _ H). }
  cbn [bind]. eexists. split; [reflexivity|]. split; [|cbn; auto].
  constructor; cbn [be_sp be_prm be_start be_medoids].
  - apply (vo_n _ H).
  - apply (vo_L _ H).
  - apply (vo_nan _ H).
  - auto.
  - auto.
  - apply (vo_lab _ H).
Qed.

Lemma vamana_build_ok : forall v, vinput_ok v ->
  (exists ix md, vamana_build v = Ok (ix, md) /\ index_ok ix /\
     ix_n ix = sp_n (vi_sp v) /\ ix_tags ix = vi_tags v /\ ix_labels ix = sp_labels (vi_sp v) /\
     first_min (vi_centroid v) (ix_start ix) /\ max_length (ix_graph ix) md /\ md <= bp_R (vi_prm v) /\
     forall x l, nth_error (ix_graph ix) x = Some l ->
       (forall y, In y l -> y < sp_n (vi_sp v) /\ y <> x) /\ length l <= bp_R (vi_prm v)) \/
  vamana_build v = Fuel.
Proof.
  intros v H. destruct (vamana_env_ok v H) as [env [Ee [Hin [Es [Esp [Eprm Hfm]]]]]].
  unfold vamana_build. rewrite Ee. cbn [bind].
  pose proof (vo_sort _ H) as Hs. rewrite <- Es in Hs.
  assert (Hsc : forall i, In i (vi_sched v) -> i < sp_n (be_sp env)) by (rewrite Esp; apply (vo_sched _ H)).
  destruct (build_run_ok env Hs Hin (vi_sched v) (build_init env) (build_init_inv env) Hsc) as [st [E [HI _]]].
  rewrite E. cbn [bind]. destruct (all_done st) eqn:Ed; [|right; auto]. left.
  destruct (build_final env (vi_sched v) st (vi_order v) Hs Hin Hsc E) as [g [Eg [Lg Hg]]].
  { rewrite Esp. apply (vo_order _ H). }
  rewrite Eg. cbn [bind]. rewrite Esp in *. rewrite Eprm in *.
  destruct (degree_stats_ok g 0) as [m [ind [Em [Hm _]]]].
  { split; [auto|]. intros x l y Hx Hy. rewrite Lg. apply (Hg x l Hx). auto. }
  rewrite Lg in Em. rewrite Em. cbn [bind fst]. eexists. exists m. split; [reflexivity|].
  split.
  { split; [cbn; pose proof (vo_n _ H); lia|]. split; [|split; [|split]]; cbn [ix_n ix_tags ix_graph ix_start ix_medoids].
    - split; [auto|]. intros x l y Hx Hy. apply (Hg x l Hx). auto.
    - apply (vo_tags _ H).
    - rewrite <- Esp. apply (bi_start _ Hin).
    - rewrite <- Esp. apply (bi_med _ Hin). }
  cbn [ix_n ix_tags ix_labels ix_start ix_graph]. repeat (split; [solve [auto]|]). split; [|auto].
  destruct Hm as [_ [[_ ->]|[l [Hl <-]]]]; [lia|]. apply In_nth_error in Hl. destruct Hl as [x Hx]. apply (Hg x l Hx).
Qed.

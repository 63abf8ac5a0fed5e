(** * Filtered Vamana builds that cut no list: every label's points are reachable through points with that label. *)
From Coq Require Import ZArith String List Arith Lia Bool Sorting.Sorted Sorting.Permutation.
From Verif Require Import Base Float32 Float32Facts DivFacts PoolModel TopKSpec SortSpec GraphSpec FilterSpec GreedyModel SearchSpec SearchModel
  PruneModel PruneSpec BuildModel BuildSpec ListLemmas FilterProofs PoolProofs PoolProofs2 GreedyProofs SearchProofs AcceptProofs PruneProofs
  BuildProofs BuildProofs2 EntryModel EntrySpec EntryProofs VamanaModel VamanaProofs RngSpec RngProofs WideSpec WideProofs WideProofs2 WideProofs3.
Import ListNotations.

(** [w] stands in for the start point [m] in the list of [loc]. *)
Definition covers (env : benv) (loc m w : nat) : Prop :=
  w = m \/ (w < sp_n (be_sp env) /\ (sp_filtered (be_sp env) = true -> forall x, In x (labels_of (be_sp env) m) -> In x (labels_of (be_sp env) w)) /\
            flt (sp_pd (be_sp env) m w) (sp_pd (be_sp env) loc m) = true).

Definition has_edge (g : graph) (x y : nat) : Prop := exists l, nth_error g x = Some l /\ In y l.

Lemma has_edge_grows : forall g g' x y, grows g g' -> has_edge g x y -> has_edge g' x y.
Proof. intros g g' x y Hg [l [E I]]. destruct (Hg x l E) as [l' [E' I']]. exists l'. auto. Qed.

Definition ltask (env : benv) (g : graph) (loc : nat) (t : task) : Prop :=
  match t with
  | TStart => True
  | TSearch st => forall m, own_starts env loc m -> In m (p_ins (g_pool st))
  | TLink pruned => forall m, own_starts env loc m -> m <> loc -> exists w, covers env loc m w /\ In w pruned
  | TRecip todo => forall m, own_starts env loc m -> m <> loc -> exists w, covers env loc m w /\ (In w todo \/ has_edge g w loc)
  | TOver _ _ _ => False
  end.

Lemma ltask_grows : forall env g g' loc t, grows g g' -> ltask env g loc t -> ltask env g' loc t.
Proof.
  intros env g g' loc t Hg H. destruct t; cbn in *; auto. intros m Hm Hne. destruct (H m Hm Hne) as [w [C [I|I]]]; exists w; split; auto.
  right. eapply has_edge_grows; eauto.
Qed.

(** Nothing is cut off in searches and pruning. *)
Record ample (env : benv) : Prop := {
  am_L : sp_n (be_sp env) <= bp_L (be_prm env);
  am_C : sp_n (be_sp env) <= bp_C (be_prm env);
  am_alpha : fle f32_one (bp_alpha (be_prm env)) = true;
  am_pd : dissimilarity (sp_pd (be_sp env))
}.

Lemma NoDup_lt_length : forall n (l : list nat), NoDup l -> (forall x, In x l -> x < n) -> length l <= n.
Proof.
  intros n l N H. rewrite <- (seq_length n 0). apply NoDup_incl_length; [exact N|]. intros x Hx. apply in_seq. specialize (H x Hx). lia.
Qed.

Lemma NoDup_lt_all : forall n (l : list nat), NoDup l -> (forall x, In x l -> x < n) -> n <= length l -> forall x, x < n -> In x l.
Proof.
  intros n l N H Hl x Hx. apply (NoDup_length_incl (l' := seq 0 n) N); [rewrite seq_length; exact Hl| |].
  - intros y Hy. apply in_seq. specialize (H y Hy). lia.
  - apply in_seq. lia.
Qed.

(** The search of a location ends with its start points among the candidates. *)
Lemma exp_all : forall n dist L c0 st, ginv n dist L c0 st -> n <= L -> greedy_running st = false ->
  forall m, In m (p_ins (g_pool st)) -> In m (map nid (g_exp st)).
Proof.
  intros n dist L c0 st HI HL Hr m Hm. destruct (ginv_discovered _ _ _ _ _ m HI Hm) as [D|[D _]].
  - apply in_map_iff in D. destruct D as [z [<- Hz]]. exact (proj2 (found_all_expanded _ _ _ _ _ HI Hr z Hz)).
  - assert (A : forall x, x < n -> In x (exp_ids st)).
    { apply NoDup_lt_all; [apply (gi_nd _ _ _ _ _ HI)| |].
      - intros x Hx. unfold exp_ids in Hx. apply in_map_iff in Hx. destruct Hx as [z [<- Hz]]. eapply gi_lt; [exact HI|].
        apply (gi_exp _ _ _ _ _ HI z Hz).
      - assert (NF : NoDup (map nid (found st))).
        { destruct (gi_top _ _ _ _ _ HI) as [N [_ T]]. apply top_k_NoDup in T.
          - rewrite map_map in T. exact T.
          - unfold score. rewrite map_map. cbn [fst]. rewrite map_id. exact N. }
        assert (I : incl (map nid (found st)) (exp_ids st)).
        { intros x Hx. apply in_map_iff in Hx. destruct Hx as [z [<- Hz]]. apply (found_all_expanded _ _ _ _ _ HI Hr z Hz). }
        pose proof (NoDup_incl_length NF I) as Hle. rewrite map_length in Hle. lia. }
    apply A. eapply gi_lt; eauto.
Qed.

Lemma alpha_zero : forall a, fle f32_one a = true -> fgt f32_zero a = false.
Proof.
  intros a H. destruct (fgt f32_zero a) eqn:E; [exfalso|reflexivity]. unfold fgt in E.
  pose proof (flt_fle_trans _ _ _ (eq_refl : flt f32_zero f32_one = true) H) as E2.
  pose proof (flt_fle_trans _ _ _ E2 (flt_fle _ _ E)) as E3. rewrite flt_irrefl in E3. discriminate.
Qed.

Lemma search_covers : forall env loc g st pruned c0, sorts (be_sort env) -> build_input_ok env -> roomy env -> ample env ->
  loc < sp_n (be_sp env) -> ginv (sp_n (be_sp env)) (sp_pd (be_sp env) loc) (bp_L (be_prm env)) c0 st ->
  greedy_running st = false -> ltask env g loc (TSearch st) ->
  prune_alpha (be_sort env) (be_sp env) (be_prm env) loc (rev (g_exp st)) [] = Ok pruned ->
  ltask env g loc (TLink pruned).
Proof.
  intros env loc g st pruned c0 Hs Hin Hrm Ham Hloc HI Hr Hst E m Hm Hne.
  assert (Hin' : prune_input_ok (be_sp env) (rev (g_exp st))).
  { split; [|apply (bi_lab env Hin)]. intros z Hz. apply in_rev in Hz.
    destruct (gi_exp _ _ _ _ _ HI z Hz) as [H1 [H2 _]]. split; [eapply gi_lt; eauto|]. rewrite H2. apply (bi_nan env Hin). }
  pose proof (exp_all _ _ _ _ _ HI (am_L _ Ham) Hr m (Hst m Hm)) as Hx. apply in_map_iff in Hx. destruct Hx as [c [Ec Hc]].
  assert (Hc' : In c (firstn (bp_C (be_prm env)) (be_sort env (rev (g_exp st))))).
  { destruct (Hs (rev (g_exp st))) as [P _]; [intros z Hz; apply Hin'; exact Hz|].
    rewrite firstn_all2; [apply (Permutation_in _ P); apply in_rev; rewrite rev_involutive; exact Hc|].
    rewrite <- (Permutation_length P), rev_length.
    assert (Hlen : length (exp_ids st) <= sp_n (be_sp env)).
    { apply NoDup_lt_length; [apply (gi_nd _ _ _ _ _ HI)|]. intros x Hx. unfold exp_ids in Hx. apply in_map_iff in Hx.
      destruct Hx as [z [<- Hz]]. eapply gi_lt; [exact HI|]. apply (gi_exp _ _ _ _ _ HI z Hz). }
    unfold exp_ids in Hlen. rewrite map_length in Hlen. pose proof (am_C _ Ham). lia. }
  destruct (prune_alpha_missing (be_sort env) (be_sp env) (be_prm env) loc (rev (g_exp st)) c) as [out [E1 D]]; auto.
  { apply alpha_zero. apply (am_alpha _ Ham). } { congruence. }
  assert (out = pruned) by congruence. subst out.
  destruct (prune_alpha_plist (be_sort env) (be_sp env) (be_prm env) loc (rev (g_exp st))) as [out [E2 [Pl Sub]]]; auto.
  { rewrite map_rev. apply NoDup_rev. apply (gi_nd _ _ _ _ _ HI). }
  assert (out = pruned) by congruence. subst out.
  assert (Hlt : forall x, In x pruned -> x < sp_n (be_sp env)).
  { intros x Hx. apply Sub in Hx. apply in_map_iff in Hx. destruct Hx as [z [<- Hz]]. apply (proj1 Hin' z Hz). }
  destruct D as [D|[D|[k [Hk [Ho [Mo Oc]]]]]].
  - exists m. split; [left; reflexivity|]. rewrite <- Ec. exact D.
  - exfalso. assert (length pruned <= sp_n (be_sp env)) by (apply NoDup_lt_length; [apply Pl|exact Hlt]).
    pose proof (rm_R _ Hrm). pose proof (bi_n env Hin). lia.
  - exists (nid k). split; [|exact Ho]. right. split; [apply Hlt; exact Ho|]. rewrite Ec in Oc. split.
    + intros Hf x Hx. destruct Mo as [Mo|Mo]; [congruence|]. rewrite Ec in Mo. apply Mo. exact Hx.
    + destruct (gi_exp _ _ _ _ _ HI c Hc) as [_ [H2 _]]. rewrite H2, Ec in Oc.
      pose proof (am_pd _ Ham) as Hd. apply div_gt_one; try apply Hd.
      eapply fle_flt_trans; [apply (am_alpha _ Ham)|exact Oc].
Qed.

Lemma lstep : forall env st loc t st', sorts (be_sort env) -> build_input_ok env -> roomy env -> ample env -> winv env st ->
  (forall i ti, nth_error (bs_tasks st) i = Some ti -> ltask env (bs_graph st) i ti) ->
  nth_error (bs_tasks st) loc = Some t -> task_done t = false -> build_step env st loc = Ok st' ->
  forall i ti, nth_error (bs_tasks st') i = Some ti -> ltask env (bs_graph st') i ti.
Proof.
  intros env st loc t st' Hs Hin Hrm Ham HW HLt Ht Hnd Est. pose proof (wv_b _ _ HW) as HI.
  destruct (build_step_ok env st loc t Hs Hin HI Ht Hnd) as [g' [t' [ts' [E1 [W [E2 [HI' [_ He]]]]]]]].
  assert (st' = mkBS g' ts') by congruence. subst st'. cbn [bs_graph bs_tasks].
  assert (Hloc : loc < sp_n (be_sp env)) by (rewrite <- (bv_tl _ _ HI); apply nth_error_Some; congruence).
  assert (HT : forall i, nth_error ts' i = if Nat.eq_dec i loc then Some t' else nth_error (bs_tasks st) i)
    by (intros i; apply (wr_nth_Some _ _ _ _ _ W)).
  pose proof (HLt loc t Ht) as Hw. pose proof (wv_task _ _ HW loc t Ht) as Hww.
  assert (Fin : grows (bs_graph st) g' -> ltask env g' loc t' -> forall i ti, nth_error ts' i = Some ti -> ltask env g' i ti).
  { intros Hg Hl i ti Hi. rewrite HT in Hi. destruct (Nat.eq_dec i loc) as [->|]; [injection Hi as <-; exact Hl|].
    eapply ltask_grows; [exact Hg|]. apply HLt. exact Hi. }
  destruct t as [|s|pruned|todo|des new todo]; [| | | |destruct Hw].
  - (* TStart *)
    unfold task_step in E1. destruct (sp_n (be_sp env) / 10 =? 0); [discriminate|].
    destruct (task_filters_ok env loc Hin Hloc) as [fs [Ef _]].
    assert (Eo : own_filters env loc = fs) by (unfold own_filters; rewrite Ef; reflexivity).
    rewrite Ef in E1. cbn [bind] in E1.
    destruct (greedy_init_ok (be_sort env) (sp_n (be_sp env)) (sp_pd (be_sp env) loc) (bp_L (be_prm env)) (task_init_ids env fs))
      as [st0 [E0 [GI [_ [_ [H1 [H2 [H3 _]]]]]]]]; auto.
    { apply (bi_L env Hin). } { intros id. apply (bi_nan env Hin). } { apply task_init_ids_ok. auto. }
    rewrite E0 in E1. cbn [bind] in E1. injection E1 as <- <-. apply Fin; [apply grows_refl|].
    intros m Hm. unfold own_starts in Hm. rewrite Eo in Hm. destruct H2 as [H2|H2]; [|apply H2; exact Hm].
    destruct (gi_top _ _ _ _ _ GI) as [N _]. apply (NoDup_lt_all (sp_n (be_sp env)) _ N).
    + intros x Hx. eapply gi_lt; eauto.
    + pose proof (am_L _ Ham). lia.
    + eapply task_init_ids_ok; eauto.
  - (* TSearch *)
    pose proof (bv_task _ _ HI loc _ Ht) as [c0 GI].
    unfold task_step in E1. destruct (task_filters_ok env loc Hin Hloc) as [fs [Ef Hfs]].
    rewrite Ef in E1. cbn [bind] in E1.
    destruct (greedy_running s) eqn:Er.
    + destruct (greedy_step_ok (sp_n (be_sp env)) (sp_pd (be_sp env) loc) (passes_filter (sp_labels (be_sp env)) fs)
        (acc_of (sp_labels (be_sp env)) fs) (bp_L (be_prm env)) c0 (bs_graph st) s) as [s' [Es [_ Hk]]]; auto.
      { intros id. apply (bi_nan env Hin). } { intros id Hid. eapply acc_of_ok; eauto. } { apply binv_graph_ok. exact HI. }
      rewrite Es in E1. cbn [bind] in E1. injection E1 as <- <-. apply Fin; [apply grows_refl|].
      intros m Hm. specialize (Hw m Hm). destruct Hk as [K1 K2 K3|x nbrs K1 K2 K3 K4]; [rewrite K1; exact Hw|].
      apply K4. left. exact Hw.
    + destruct (prune_alpha (be_sort env) (be_sp env) (be_prm env) loc (rev (g_exp s)) []) as [pr| | | |] eqn:Ep; try discriminate.
      cbn [bind] in E1. injection E1 as <- <-. apply Fin; [apply grows_refl|].
      exact (search_covers env loc _ s pr c0 Hs Hin Hrm Ham Hloc GI Er Hw Ep).
  - (* TLink *)
    unfold task_step in E1. destruct (rd (bs_graph st) loc) as [o| | | |] eqn:Eo; try discriminate. cbn [bind] in E1.
    destruct (wr (bs_graph st) loc (o ++ pruned)) as [g1| | | |] eqn:Wg; try discriminate. cbn [bind] in E1. injection E1 as <- <-.
    apply rd_ok in Eo. apply Fin; [eapply grows_wr; [exact Eo|apply incl_appl, incl_refl|exact Wg]|].
    intros m Hm Hne. destruct (Hw m Hm Hne) as [w [C I]]. exists w. auto.
  - (* TRecip *)
    destruct todo as [|des todo]; [discriminate|].
    pose proof (bv_task _ _ HI loc _ Ht) as Hok. cbn [task_ok] in Hok. apply plist_tail in Hok. destruct Hok as [_ [Hd [Hdl _]]].
    unfold task_step in E1. destruct (rd_lt _ (bs_graph st) des) as [pool Ep]; [rewrite (bv_gl _ _ HI); auto|].
    rewrite Ep in E1. cbn [bind] in E1. apply rd_ok in Ep.
    assert (Go : grows (bs_graph st) g' -> has_edge g' des loc -> ltask env g' loc (TRecip todo)).
    { intros Hg Hed m Hm Hne. destruct (Hw m Hm Hne) as [w [C I]]. exists w. split; [exact C|].
      destruct I as [[<-|I]|I]; [right; exact Hed|left; exact I|right; eapply has_edge_grows; eauto]. }
    destruct (set_mem loc pool) eqn:Em.
    + injection E1 as <- <-. apply set_mem_In in Em. apply Fin; [apply grows_refl|]. apply Go; [apply grows_refl|]. exists pool. auto.
    + destruct (wstep env st loc (TRecip (des :: todo)) Hs Hin Hrm HW Ht Hnd) as [st1 [Es1 HW1]].
      assert (st1 = mkBS g' ts') by congruence. subst st1.
      assert (Hn : wtask env g' loc t').
      { apply (wv_task _ _ HW1 loc t'). cbn [bs_tasks]. rewrite HT. destruct (Nat.eq_dec loc loc); congruence. }
      destruct (10 * length pool <? 13 * bp_R (be_prm env)).
      * destruct (wr (bs_graph st) des (pool ++ [loc])) as [g1| | | |] eqn:Wg; try discriminate. cbn [bind] in E1. injection E1 as <- <-.
        assert (Hgr : grows (bs_graph st) g1) by (eapply grows_wr; [exact Ep|apply incl_appl, incl_refl|exact Wg]).
        apply Fin; [exact Hgr|]. apply Go; [exact Hgr|]. exists (pool ++ [loc]). split; [|apply in_or_app; right; left; reflexivity].
        rewrite (wr_nth_Some _ _ _ _ _ Wg). destruct (Nat.eq_dec des des); congruence.
      * exfalso.
        match type of E1 with bind ?e _ = _ => destruct e as [nw| | | |]; try discriminate end. cbn [bind] in E1. injection E1 as _ <-. exact Hn.
Qed.

Lemma lrun : forall env, sorts (be_sort env) -> build_input_ok env -> roomy env -> ample env ->
  forall sched st st', winv env st -> (forall i ti, nth_error (bs_tasks st) i = Some ti -> ltask env (bs_graph st) i ti) ->
  (forall i, In i sched -> i < sp_n (be_sp env)) -> build_run env st sched = Ok st' ->
  forall i ti, nth_error (bs_tasks st') i = Some ti -> ltask env (bs_graph st') i ti.
Proof.
  intros env Hs Hin Hrm Ham sched. induction sched as [|i sched IH]; intros st st' HW HL Hsc E; cbn [build_run] in E.
  - injection E as <-. exact HL.
  - assert (Hi : i < length (bs_tasks st)) by (rewrite (bv_tl _ _ (wv_b _ _ HW)); apply Hsc; left; auto).
    destruct (nth_error (bs_tasks st) i) as [t|] eqn:Et; [|apply nth_error_None in Et; lia].
    assert (Hr : forall j, In j sched -> j < sp_n (be_sp env)) by (intros j Hj; apply Hsc; right; exact Hj).
    destruct (task_done t) eqn:Ed.
    + rewrite (build_step_done env st i t Et Ed) in E. cbn [bind] in E. eapply IH; eauto.
    + destruct (wstep env st i t Hs Hin Hrm HW Et Ed) as [st1 [E1 HW1]]. rewrite E1 in E. cbn [bind] in E.
      exact (IH st1 st' HW1 (lstep _ _ _ _ _ Hs Hin Hrm Ham HW HL Et Ed E1) Hr E).
Qed.

(** In the end every point has an edge from a stand-in of each of its start points. *)
Lemma built_covered : forall env sched st order g, sorts (be_sort env) -> build_input_ok env -> roomy env -> ample env ->
  (forall i, In i sched -> i < sp_n (be_sp env)) -> build_run env (build_init env) sched = Ok st -> all_done st = true ->
  Permutation order (seq 0 (sp_n (be_sp env))) -> cleanup env (bs_graph st) order = Ok g ->
  forall loc m, loc < sp_n (be_sp env) -> own_starts env loc m -> m <> loc -> exists w, covers env loc m w /\ has_edge g w loc.
Proof.
  intros env sched st order g Hs Hin Hrm Ham Hsc Hrun Hd Ho Hcl loc m Hloc Hm Hne.
  pose proof (wrun env Hs Hin Hrm sched _ _ (winit env) Hsc Hrun) as HW. pose proof (wv_b _ _ HW) as HI.
  assert (HL : forall x l, nth_error (bs_graph st) x = Some l -> length l <= bp_R (be_prm env)).
  { intros x l Hx. assert (Hlt : x < length (bs_tasks st)).
    { rewrite (bv_tl _ _ HI), <- (bv_gl _ _ HI). apply nth_error_Some. congruence. }
    destruct (nth_error (bs_tasks st) x) as [t|] eqn:Et; [|apply nth_error_None in Et; lia].
    destruct (bv_list _ _ HI x t l Et Hx) as [Hnb _]. destruct (wv_list _ _ HW x t l Et Hx) as [Hts _].
    rewrite (bv_tl _ _ HI) in Hlt. pose proof (two_sets_length _ x l Hnb Hts Hlt). pose proof (rm_R _ Hrm). lia. }
  destruct (cleanup_ok env Hs Hin order (bs_graph st)) as [g' [E2 [_ [_ [K _]]]]].
  { split; [apply (bv_gl _ _ HI)|]. intros x l Hx. apply (binv_lists env st); auto. }
  { intros x Hx. apply (Permutation_in _ Ho) in Hx. apply in_seq in Hx. lia. }
  assert (g' = g) by congruence. subst g'.
  assert (Hlt : loc < length (bs_tasks st)) by (rewrite (bv_tl _ _ HI); exact Hloc).
  destruct (nth_error (bs_tasks st) loc) as [t|] eqn:Et; [|apply nth_error_None in Et; lia].
  unfold all_done in Hd. rewrite forallb_forall in Hd. specialize (Hd t (nth_error_In _ _ Et)).
  assert (Hl : ltask env (bs_graph st) loc t).
  { apply (lrun env Hs Hin Hrm Ham sched (build_init env) st (winit env)); auto.
    intros i ti Hi. cbn [build_init bs_tasks] in Hi. apply nth_error_In, repeat_spec in Hi. subst. exact I. }
  destruct t as [|s|p|[|d td]|d nw td]; try discriminate.
  destruct (Hl m Hm Hne) as [w [C [[]|[l [E I]]]]]. exists w. split; [exact C|]. exists l. split; [|exact I]. apply K; eauto.
Qed.

(** ** Whole builds *)
Lemma labels_of_carries : forall sp id x, In x (labels_of sp id) <-> carries (pts_to_labels (sp_labels sp)) id x.
Proof.
  intros sp id x. unfold labels_of, carries. split.
  - intros H. destruct (nth_error (pts_to_labels (sp_labels sp)) id) as [ls|] eqn:E.
    + rewrite (nth_error_nth _ _ _ E) in H. exists ls. auto.
    + apply nth_error_None in E. rewrite nth_overflow in H by exact E. destruct H.
  - intros [ls [E H]]. rewrite (nth_error_nth _ _ _ E). exact H.
Qed.

Lemma vamana_label_reach : forall v ix md fs x id, vinput_ok v -> unhurried v -> dissimilarity (sp_pd (vi_sp v)) -> sp_filtered (vi_sp v) = true ->
  no_universal (sp_labels (vi_sp v)) -> (forall ls, In ls (pts_to_labels (sp_labels (vi_sp v))) -> sorted_labels ls) ->
  vamana_build v = Ok (ix, md) -> sorted_labels fs -> In x fs -> In x (map fst (vi_work v)) -> carries (pts_to_labels (sp_labels (vi_sp v))) id x ->
  reach (acc_of (ix_labels ix) fs) (ix_graph ix) (fun y => In y (vamana_init_ids ix fs)) id.
Proof.
  intros v ix md fs x id H [HL [HC [HR Ha]]] Hpd Hf Hnu Hsl Hb Hsf Hxf Hw Hid.
  pose proof (vo_lab _ H Hf) as Hlen.
  destruct (vamana_env_ok v H) as [env [Ee [Hin [Es [Esp [Eprm Hfm]]]]]].
  destruct (label_medoids_final (sp_labels (vi_sp v)) (vi_work v) (vo_rand _ H)) as [ms [Em [Hc1 Hc2]]].
  assert (Eme : be_medoids env = ms_medoids ms).
  { unfold vamana_env in Ee. rewrite Hf, Em in Ee. cbn [bind] in Ee.
    destruct (calculate_medoid (sp_n (vi_sp v)) (vi_centroid v)) as [s| | | |]; try discriminate. cbn [bind] in Ee. injection Ee as <-. reflexivity. }
  unfold vamana_build in Hb. rewrite Ee in Hb. cbn [bind] in Hb.
  pose proof (vo_sort _ H) as Hs. rewrite <- Es in Hs.
  destruct (build_run env (build_init env) (vi_sched v)) as [st| | | |] eqn:Er; try discriminate. cbn [bind] in Hb.
  destruct (all_done st) eqn:Ed; [|discriminate].
  destruct (cleanup env (bs_graph st) (vi_order v)) as [g| | | |] eqn:Eg; try discriminate. cbn [bind] in Hb.
  destruct (update_degree_stats true (sp_n (vi_sp v)) 0 g) as [mx| | | |]; try discriminate. cbn [bind] in Hb.
  injection Hb as <- _. cbn [ix_labels ix_graph].
  pose proof (vo_n _ H) as Hn.
  assert (Hrm : roomy env) by (constructor; rewrite ?Esp, ?Eprm; auto; [lia|apply alpha_zero; exact Ha]).
  assert (Ham : ample env) by (constructor; rewrite ?Esp, ?Eprm; auto).
  pose proof (built_covered env (vi_sched v) st (vi_order v) g Hs Hin Hrm Ham) as J. rewrite Esp in J.
  specialize (J (vo_sched _ H) Er Ed (vo_order _ H) Eg).
  destruct (Hc2 x Hw (ex_intro _ id Hid)) as [m Hm].
  assert (Hmx : carries (pts_to_labels (sp_labels (vi_sp v))) m x).
  { destruct (Hc1 x m Hm) as [Hx|[u [Eu Hx]]]; [exact Hx|]. exfalso. exact (Hnu u m Eu Hx). }
  assert (Hstart : In m (vamana_init_ids (mkI (sp_n (vi_sp v)) (vi_tags v) (sp_labels (vi_sp v)) (be_medoids env) (be_start env) g) fs)).
  { unfold vamana_init_ids. destruct fs as [|f fs]; [destruct Hxf|]. cbn [ix_medoids]. rewrite Eme. apply filter_starts_In. exists x. auto. }
  assert (Hacc : forall y, carries (pts_to_labels (sp_labels (vi_sp v))) y x -> acc_of (sp_labels (vi_sp v)) fs y = true).
  { intros y [ls [El Hy]]. destruct (acc_filter_test (sp_labels (vi_sp v)) fs) as [_ F]. apply (F y ls El); auto.
    - apply Hsl. eapply nth_error_In; eauto.
    - right. left. exists x. auto. }
  remember (length (nearer (sp_n (vi_sp v)) (fun z => sp_pd (vi_sp v) z m) id)) as k eqn:Ek. revert id Hid Ek.
  induction k as [k IH] using lt_wf_ind. intros id Hid Ek.
  assert (Hidn : id < sp_n (vi_sp v)) by (destruct Hid as [ls [El _]]; rewrite <- Hlen; apply nth_error_Some; intros Cn; pose proof (eq_trans (eq_sym El) Cn); discriminate).
  destruct (Nat.eq_dec m id) as [<-|Hne]; [constructor; exact Hstart|].
  assert (Hown : own_starts env id m).
  { unfold own_starts, own_filters, task_filters. rewrite Esp, Hf. destruct Hid as [ls [El Hx]]. unfold rd, label in *. rewrite El.
    unfold task_init_ids. assert (I : In m (filter_starts (be_medoids env) ls)) by (rewrite Eme; apply filter_starts_In; exists x; auto).
    destruct (filter_starts (be_medoids env) ls); [destruct I|exact I]. }
  destruct (J id m Hidn Hown Hne) as [w [C [l [El I]]]].
  assert (Hwx : carries (pts_to_labels (sp_labels (vi_sp v))) w x /\ (w = m \/ (w < sp_n (vi_sp v) /\ flt (sp_pd (vi_sp v) m w) (sp_pd (vi_sp v) id m) = true))).
  { unfold covers in C. rewrite Esp in C. destruct C as [->|[C1 [C2 C3]]]; [auto|]. split; [|auto].
    apply labels_of_carries. apply C2; auto. apply labels_of_carries. exact Hmx. }
  destruct Hwx as [Hwx Hcl]. apply (reach_edge _ _ _ w); [|exists l; split; [exact El|split; [exact I|apply Hacc; exact Hid]]].
  destruct Hcl as [->|[Hwn Hlt]]; [constructor; exact Hstart|].
  rewrite (ds_sym _ Hpd m w) in Hlt.
  apply (IH (length (nearer (sp_n (vi_sp v)) (fun z => sp_pd (vi_sp v) z m) w))); auto.
  subst k. apply (nearer_lt (sp_n (vi_sp v)) (fun z => sp_pd (vi_sp v) z m)); auto.
Qed.

(** Filtered search is exact. *)
Lemma vamana_filtered_exact : forall v ix md fs dist L k ind dst,
  vinput_ok v -> unhurried v -> dissimilarity (sp_pd (vi_sp v)) -> sp_filtered (vi_sp v) = true ->
  no_universal (sp_labels (vi_sp v)) -> (forall ls, In ls (pts_to_labels (sp_labels (vi_sp v))) -> sorted_labels ls) ->
  vamana_build v = Ok (ix, md) ->
  sorted_labels fs -> fs <> [] -> (forall x, In x fs -> In x (map fst (vi_work v)) /\ universal_of (sp_labels (vi_sp v)) <> Some x) ->
  (forall id, is_nan (dist id) = false) ->
  sp_n (vi_sp v) <= L -> length fs <= L -> k <= L + 1 -> k <= length ind -> k <= length dst ->
  exists ids ind' dst', vamana_search (vi_sort v) ix dist L k fs ind dst = Ok (ind', dst', length ids) /\
    reports (sp_n (vi_sp v)) (vi_tags v) dist ind' dst' ids /\
    nearest_among k (fun id => exists x, In x fs /\ carries (pts_to_labels (sp_labels (vi_sp v))) id x) dist ids.
Proof.
  intros v ix md fs dist L k ind dst H Hu Hpd Hf Hnu Hsl Hb Hsf Hne Hw Hnan HL HfL Hk Hi Hd.
  destruct (vamana_built v ix md H Hb) as [Hix [En [Et El]]].
  pose proof (vo_lab _ H Hf) as Hlen.
  destruct (vamana_wide_acc (vi_sort v) ix dist L k fs ind dst) as [ids [ind' [dst' [V [R [all [N [A T]]]]]]]]; auto.
  { apply (vo_sort _ H). } { rewrite En. exact HL. } { right. rewrite El, En. exact Hlen. }
  exists ids, ind', dst'. split; [exact V|]. split; [rewrite <- En, <- Et; exact R|].
  exists all. split; [exact N|]. split; [|exact T]. intros id. rewrite A. split.
  - intros Rx. apply reach_of in Rx. destruct Rx as [Sx|Ax].
    + unfold vamana_init_ids in Sx. destruct fs as [|f fs]; [congruence|].
      apply filter_starts_In in Sx. destruct Sx as [z [Hz Hm]]. exists z. split; [exact Hz|].
      unfold vamana_build in Hb. destruct (vamana_env v) as [env| | | |] eqn:Ee; try discriminate. cbn [bind] in Hb.
      destruct (build_run env (build_init env) (vi_sched v)) as [st| | | |]; try discriminate. cbn [bind] in Hb.
      destruct (all_done st); [|discriminate].
      destruct (cleanup env (bs_graph st) (vi_order v)) as [g| | | |]; try discriminate. cbn [bind] in Hb.
      destruct (update_degree_stats true (sp_n (vi_sp v)) 0 g) as [m| | | |]; try discriminate. cbn [bind] in Hb.
      injection Hb as <- _. cbn [ix_medoids] in Hm.
      destruct (label_medoids_final (sp_labels (vi_sp v)) (vi_work v) (vo_rand _ H)) as [ms [Em [Hc _]]].
      unfold vamana_env in Ee. rewrite Hf, Em in Ee. cbn [bind] in Ee.
      destruct (calculate_medoid (sp_n (vi_sp v)) (vi_centroid v)) as [s| | | |]; try discriminate. cbn [bind] in Ee. injection Ee as <-.
      cbn [be_medoids] in Hm. destruct (Hc z id Hm) as [Hx|[u [Eu Hx]]]; [exact Hx|]. exfalso. exact (Hnu u id Eu Hx).
    + destruct (nth_error (pts_to_labels (sp_labels (vi_sp v))) id) as [ls|] eqn:Els.
      * destruct (acc_filter_test (ix_labels ix) fs) as [_ F]. rewrite El in F, Ax.
        destruct (F id ls Els) as [F1 _]. destruct (F1 Ax) as [C|[[z [Hz I]]|[u [Eu [C|C]]]]].
        -- congruence.
        -- exists z. split; [exact Hz|]. exists ls. auto.
        -- exfalso. destruct (Hw u C) as [_ C2]. exact (C2 Eu).
        -- exfalso. apply (Hnu u id Eu). exists ls. auto.
      * exfalso. assert (En' : @nth_error (list label) (pts_to_labels (sp_labels (vi_sp v))) id = None) by exact Els.
        unfold acc_of, passes_filter in Ax. rewrite El in Ax. destruct fs as [|f fs]; [congruence|]. unfold rd in Ax. rewrite En' in Ax. discriminate.
  - intros [x [Hx Hc]]. eapply vamana_label_reach; eauto. apply Hw. exact Hx.
Qed.

(** * Lemmas about the concurrent build. *)
From Coq Require Import String List Arith Lia Bool Sorting.Sorted Sorting.Permutation.
From Verif Require Import Base Float32 PoolModel TopKSpec SortSpec GraphSpec GreedyModel SearchModel PruneModel PruneSpec
  BuildModel BuildSpec ListLemmas FilterProofs PoolProofs PoolProofs2 GreedyProofs SearchProofs PruneProofs.
Import ListNotations.

Lemma slack_lt : forall R s, 10 * s < 13 * R -> s + 1 <= slack R.
Proof. intros R s H. unfold slack. apply Nat.div_le_lower_bound; lia. Qed.

Lemma slack_ge : forall R, R <= slack R.
Proof. intros R. unfold slack. apply Nat.div_le_lower_bound; lia. Qed.

(** A list of valid neighbours of [x]: ids of points other than x. *)
Definition nbrs_ok (n x : nat) (l : list nat) : Prop := forall y, In y l -> y < n /\ y <> x.

(** ** Candidate pools from adjacency lists *)
Lemma dummy_pool_ok : forall sp des nbrs visited,
  des < sp_n sp -> (forall y, In y nbrs -> y < sp_n sp) ->
  exists p, dummy_pool sp des visited nbrs = Ok p /\
    NoDup (map nid p) /\
    (forall y, In y (map nid p) <-> In y nbrs /\ ~ In y visited /\ y <> des) /\
    (forall z, In z p -> ndist z = sp_pd sp des (nid z)).
Proof.
  intros sp des nbrs. induction nbrs as [|c nbrs IH]; intros visited Hd Hn; cbn [dummy_pool].
  - exists []. split; [auto|]. split; [constructor|]. split; [cbn; tauto|intros z []].
  - destruct (set_mem c visited) eqn:Ev; cbn [negb andb].
    + destruct (IH visited) as [p [E [N [I D]]]]; auto. { intros y Hy. apply Hn. right. auto. }
      apply set_mem_In in Ev. exists p. split; [auto|]. split; [auto|]. split; [|auto].
      intros y. rewrite I. cbn. split; [tauto|]. intros [[->|H] [H1 H2]]; tauto.
    + apply set_mem_not_In in Ev. destruct (c =? des) eqn:Ed; cbn [negb].
      * apply Nat.eqb_eq in Ed.
        destruct (IH visited) as [p [E [N [I D]]]]; auto. { intros y Hy. apply Hn. right. auto. }
        exists p. split; [auto|]. split; [auto|]. split; [|auto].
        intros y. rewrite I. cbn. split; [tauto|]. intros [[->|H] [H1 H2]]; tauto.
      * apply Nat.eqb_neq in Ed. unfold data_dist.
        rewrite (proj2 (Nat.ltb_lt _ _) Hd), (proj2 (Nat.ltb_lt c _) (Hn c (or_introl eq_refl))). cbn [andb bind].
        destruct (IH (c :: visited)) as [p [E [N [I D]]]]; auto. { intros y Hy. apply Hn. right. auto. }
        rewrite E. cbn [bind]. exists (mkN c (sp_pd sp des c) true :: p). split; [auto|]. split; [|split].
        -- cbn. constructor; auto. intros H. apply I in H. cbn in H. tauto.
        -- intros y. cbn. rewrite I. cbn. split.
           ++ intros [<-|[H1 [H2 H3]]]; tauto.
           ++ intros [[->|H1] [H2 H3]]; [tauto|]. destruct (Nat.eq_dec c y); tauto.
        -- intros z [<-|Hz]; auto.
Qed.

(** A pruned list: valid neighbours, at most R, no repetition. *)
Definition plist_ok (n R x : nat) (l : list nat) : Prop :=
  nbrs_ok n x l /\ length l <= R /\ NoDup l.

Lemma prune_alpha_plist : forall sortf sp prm point cands,
  sorts sortf -> prune_input_ok sp cands -> NoDup (map nid cands) ->
  exists out, prune_alpha sortf sp prm point cands [] = Ok out /\ plist_ok (sp_n sp) (bp_R prm) point out /\
    (forall y, In y out -> In y (map nid cands)).
Proof.
  intros sortf sp prm point cands Hs Hin Hnd.
  destruct (prune_alpha_shape sortf sp prm point cands Hs Hin) as [ks [rest [E [P [HR [_ [_ Hp]]]]]]].
  assert (Hsub : forall z, In z ks -> In z cands).
  { intros z Hz. apply (Permutation_in _ (Permutation_sym P)). apply in_or_app. auto. }
  exists (map nid ks). split; [auto|]. split; [split; [|split]|].
  - intros y Hy. apply in_map_iff in Hy. destruct Hy as [z [<- Hz]]. split; [apply Hin; auto|auto].
  - rewrite map_length. auto.
  - apply (Permutation_map nid) in P. rewrite map_app in P. apply (Permutation_NoDup P) in Hnd.
    eapply NoDup_app_l; eauto.
  - intros y Hy. apply in_map_iff in Hy. destruct Hy as [z [<- Hz]]. apply in_map. auto.
Qed.

Lemma prune_topk_plist : forall sortf n prm point cands,
  sorts sortf -> (forall z, In z cands -> nid z < n /\ is_nan (ndist z) = false) -> NoDup (map nid cands) ->
  exists out, prune_topk sortf prm point cands [] = Ok out /\ plist_ok n (bp_R prm) point out /\
    (forall y, In y out -> In y (map nid cands)).
Proof.
  intros sortf n prm point cands Hs Hin Hnd.
  destruct (prune_topk_spec sortf prm point cands Hs) as [out [E [rest [P [HL _]]]]]; [intros z Hz; apply Hin; auto|].
  assert (Hmem : forall y, In y (map fst out) -> In y (map nid cands) /\ y <> point).
  { intros y Hy. apply in_map_iff in Hy. destruct Hy as [q [<- Hq]].
    assert (Hq' : In q (map (fun z => (nid z, ndist z)) (filter (fun z => negb (nid z =? point)) cands))).
    { apply (Permutation_in _ (Permutation_sym P)). apply in_or_app. auto. }
    apply in_map_iff in Hq'. destruct Hq' as [z [<- Hz]]. apply filter_In in Hz. destruct Hz as [Hz1 Hz2].
    apply negb_true_iff in Hz2. apply Nat.eqb_neq in Hz2. cbn. split; auto. apply in_map. auto. }
  exists (map fst out). split; [auto|]. split; [split; [|split]|].
  - intros y Hy. apply Hmem in Hy. destruct Hy as [Hy Hp]. split; auto.
    apply in_map_iff in Hy. destruct Hy as [z [<- Hz]]. apply Hin. auto.
  - rewrite map_length. eapply Nat.le_trans; [apply Nat.eq_le_incl; exact HL|apply Nat.le_min_l].
  - apply (Permutation_map fst) in P. rewrite map_app, map_map in P. cbn in P.
    assert (Hnd' : NoDup (map nid (filter (fun z => negb (nid z =? point)) cands))).
    { clear - Hnd. induction cands as [|c cands IH]; cbn in *; [constructor|]. inversion Hnd as [|? ? H1 H2]. subst.
      destruct (negb (nid c =? point)); cbn; auto. constructor; auto. intros C. apply H1.
      apply in_map_iff in C. destruct C as [z [<- Hz]]. apply filter_In in Hz. apply in_map. tauto. }
    apply (Permutation_NoDup P) in Hnd'. eapply NoDup_app_l; eauto.
  - intros y Hy. apply Hmem. auto.
Qed.

Lemma reprune_ok : forall env des nbrs, sorts (be_sort env) -> build_input_ok env ->
  des < sp_n (be_sp env) -> (forall y, In y nbrs -> y < sp_n (be_sp env)) ->
  exists p new, dummy_pool (be_sp env) des [] nbrs = Ok p /\
    NoDup (map nid p) /\ (forall y, In y (map nid p) <-> In y nbrs /\ y <> des) /\
    (forall z, In z p -> ndist z = sp_pd (be_sp env) des (nid z)) /\
    reprune env des nbrs = Ok new /\ plist_ok (sp_n (be_sp env)) (bp_R (be_prm env)) des new /\
    (forall y, In y new -> In y nbrs).
Proof.
  intros env des nbrs Hs Hin Hd Hn.
  destruct (dummy_pool_ok (be_sp env) des nbrs []) as [p [E [N [I D]]]]; auto.
  assert (Hp : forall z, In z p -> nid z < sp_n (be_sp env) /\ is_nan (ndist z) = false).
  { intros z Hz. split; [apply Hn; apply (I (nid z)); apply in_map; auto|]. rewrite D by auto. apply (bi_nan env Hin). }
  assert (I' : forall y, In y (map nid p) <-> In y nbrs /\ y <> des).
  { intros y. rewrite I. cbn. tauto. }
  unfold reprune. rewrite E. cbn [bind].
  destruct (bp_rule (be_prm env) =? 0).
  - destruct (prune_alpha_plist (be_sort env) (be_sp env) (be_prm env) des p) as [out [E2 [PL Sub]]]; auto.
    { split; auto. apply (bi_lab env Hin). }
    exists p, out. repeat (split; [auto|]). intros y Hy. apply I'. auto.
  - destruct (prune_topk_plist (be_sort env) (sp_n (be_sp env)) (be_prm env) des p) as [out [E2 [PL Sub]]]; auto.
    exists p, out. repeat (split; [auto|]). intros y Hy. apply I'. auto.
Qed.

(** ** The invariant *)
Definition task_linked (t : task) : bool := match t with TRecip _ | TOver _ _ _ => true | _ => false end.

Definition task_ok (env : benv) (loc : nat) (t : task) : Prop :=
  let n := sp_n (be_sp env) in
  let R := bp_R (be_prm env) in
  match t with
  | TStart => True
  | TSearch st => exists c0, ginv n (sp_pd (be_sp env) loc) (bp_L (be_prm env)) c0 st
  | TLink pruned => plist_ok n R loc pruned
  | TRecip todo => plist_ok n R loc todo
  | TOver des new todo => des < n /\ plist_ok n R des new /\ plist_ok n R loc todo /\ length todo + 1 <= R
  end.

Definition list_ok (env : benv) (x : nat) (t : task) (l : list nat) : Prop :=
  let n := sp_n (be_sp env) in
  let R := bp_R (be_prm env) in
  nbrs_ok n x l /\ length l <= slack R + (if task_linked t then R else 0).

Record binv (env : benv) (st : bstate) : Prop := {
  bv_tl : length (bs_tasks st) = sp_n (be_sp env);
  bv_gl : length (bs_graph st) = sp_n (be_sp env);
  bv_task : forall i t, nth_error (bs_tasks st) i = Some t -> task_ok env i t;
  bv_list : forall i t l, nth_error (bs_tasks st) i = Some t -> nth_error (bs_graph st) i = Some l -> list_ok env i t l
}.

Lemma binv_graph_ok : forall env st, binv env st -> graph_ok (sp_n (be_sp env)) (bs_graph st).
Proof.
  intros env st H. split; [apply (bv_gl _ _ H)|]. intros x l y Hx Hy.
  assert (Hlt : x < length (bs_tasks st)).
  { rewrite (bv_tl _ _ H), <- (bv_gl _ _ H). apply nth_error_Some. congruence. }
  destruct (nth_error (bs_tasks st) x) as [t|] eqn:Et; [|apply nth_error_None in Et; lia].
  apply (bv_list _ _ H x t l Et Hx). auto.
Qed.

(** ** Measure of a task *)
Definition task_measure (env : benv) (t : task) : nat :=
  let n := sp_n (be_sp env) in
  let L := bp_L (be_prm env) in
  let R := bp_R (be_prm env) in
  match t with
  | TStart => (n + 1) * (L + 1) + 2 * R + 3
  | TSearch st => gmeasure n L st + 2 * R + 2
  | TLink pruned => 2 * length pruned + 1
  | TRecip todo => 2 * length todo
  | TOver _ _ todo => 2 * length todo + 1
  end.

Lemma task_init_ids_ok : forall env fs, build_input_ok env ->
  forall id, In id (task_init_ids env fs) -> id < sp_n (be_sp env).
Proof.
  intros env fs Hin id H. unfold task_init_ids in H.
  destruct (filter_starts (be_medoids env) fs) as [|a l] eqn:E.
  - destruct H as [<-|[]]. apply (bi_start env Hin).
  - rewrite <- E in H. apply filter_starts_In in H. destruct H as [x [_ H]].
    apply medoid_of_In in H. eapply bi_med; eauto.
Qed.

Lemma task_filters_ok : forall env loc, build_input_ok env -> loc < sp_n (be_sp env) ->
  exists fs, task_filters env loc = Ok fs /\
    (fs = [] \/ length (pts_to_labels (sp_labels (be_sp env))) = sp_n (be_sp env)).
Proof.
  intros env loc Hin Hl. unfold task_filters. destruct (sp_filtered (be_sp env)) eqn:E.
  - pose proof (bi_lab env Hin E) as HL. destruct (rd_lt _ (pts_to_labels (sp_labels (be_sp env))) loc) as [fs ->]; [lia|].
    exists fs. auto.
  - exists []. auto.
Qed.

(** The effect of one task step on the graph: at most one list changes. *)
Inductive task_effect (env : benv) (loc : nat) (g : graph) (t : task) (g' : graph) (t' : task) : Prop :=
| te_local : g' = g -> task_linked t' = task_linked t -> task_effect env loc g t g' t'
| te_link : forall old pruned, t = TLink pruned -> t' = TRecip pruned -> nth_error g loc = Some old ->
    wr g loc (old ++ pruned) = Ok g' -> task_effect env loc g t g' t'
| te_append : forall des todo pool, t = TRecip (des :: todo) -> t' = TRecip todo -> des < sp_n (be_sp env) -> des <> loc ->
    nth_error g des = Some pool -> ~ In loc pool -> 10 * length pool < 13 * bp_R (be_prm env) ->
    wr g des (pool ++ [loc]) = Ok g' -> task_effect env loc g t g' t'
| te_over : forall des new todo, t = TOver des new todo -> t' = TRecip todo -> des < sp_n (be_sp env) ->
    plist_ok (sp_n (be_sp env)) (bp_R (be_prm env)) des new ->
    wr g des new = Ok g' -> task_effect env loc g t g' t'.

Lemma plist_tail : forall n R x a l, plist_ok n R x (a :: l) -> plist_ok n R x l /\ a < n /\ a <> x /\ length l + 1 <= R.
Proof.
  intros n R x a l [H1 [H2 H3]]. cbn in H2. inversion H3. subst.
  split; [split; [|split]|].
  - intros y Hy. apply H1. right. auto.
  - lia.
  - auto.
  - destruct (H1 a (or_introl eq_refl)). repeat split; auto. lia.
Qed.

Lemma task_step_ok : forall env loc g t, sorts (be_sort env) -> build_input_ok env ->
  loc < sp_n (be_sp env) -> graph_ok (sp_n (be_sp env)) g -> task_ok env loc t -> task_done t = false ->
  exists g' t', task_step env loc g t = Ok (g', t') /\ task_ok env loc t' /\
    task_measure env t' < task_measure env t /\ task_effect env loc g t g' t'.
Proof.
  intros env loc g t Hs Hin Hloc Hg Ht Hnd. destruct t as [|st|pruned|todo|des new todo].
  - (* TStart *)
    unfold task_step. assert (E : sp_n (be_sp env) / 10 =? 0 = false).
    { apply Nat.eqb_neq. pose proof (bi_n env Hin) as H. intros C. apply Nat.div_small_iff in C; lia. }
    rewrite E. destruct (task_filters_ok env loc Hin Hloc) as [fs [Ef _]]. rewrite Ef. cbn [bind].
    destruct (greedy_init_ok (be_sort env) (sp_n (be_sp env)) (sp_pd (be_sp env) loc) (bp_L (be_prm env)) (task_init_ids env fs))
      as [st0 [E0 [HI [Hexp [Hk _]]]]]; auto.
    { apply (bi_L env Hin). } { intros id. apply (bi_nan env Hin). } { apply task_init_ids_ok. auto. }
    rewrite E0. cbn [bind]. exists g, (TSearch st0). split; [auto|]. split; [eexists; eauto|]. split.
    + cbn [task_measure]. unfold gmeasure. rewrite Hexp, Hk. cbn [length]. rewrite !Nat.sub_0_r. nia.
    + apply te_local; auto.
  - (* TSearch *)
    destruct Ht as [c0 HI]. unfold task_step.
    destruct (task_filters_ok env loc Hin Hloc) as [fs [Ef Hfs]]. rewrite Ef. cbn [bind].
    destruct (greedy_running st) eqn:Er.
    + destruct (greedy_step_ok (sp_n (be_sp env)) (sp_pd (be_sp env) loc) (passes_filter (sp_labels (be_sp env)) fs)
        (acc_of (sp_labels (be_sp env)) fs) (bp_L (be_prm env)) c0 g st) as [st' [E1 [HI' Hk]]]; auto.
      { intros id. apply (bi_nan env Hin). } { intros id Hid. eapply acc_of_ok; eauto. }
      rewrite E1. cbn [bind]. exists g, (TSearch st'). split; [auto|]. split; [eexists; eauto|]. split.
      * cbn [task_measure]. pose proof (step_measure _ _ _ _ _ _ _ _ HI HI' Er Hk). lia.
      * apply te_local; auto.
    + destruct (prune_alpha_plist (be_sort env) (be_sp env) (be_prm env) loc (rev (g_exp st))) as [out [E1 [PL _]]]; auto.
      { split; [|apply (bi_lab env Hin)]. intros z Hz. apply in_rev in Hz.
        destruct (gi_exp _ _ _ _ _ HI z Hz) as [H1 [H2 _]]. split; [eapply gi_lt; eauto|].
        rewrite H2. apply (bi_nan env Hin). }
      { rewrite map_rev. apply NoDup_rev. apply (gi_nd _ _ _ _ _ HI). }
      rewrite E1. cbn [bind]. exists g, (TLink out). split; [auto|]. split; [exact PL|]. split.
      * cbn [task_measure]. destruct PL as [_ [PL _]]. lia.
      * apply te_local; auto.
  - (* TLink *)
    unfold task_step. destruct Hg as [Hgl Hg].
    destruct (rd_lt _ g loc) as [old Eo]; [lia|]. rewrite Eo. cbn [bind].
    destruct (wr_nth _ g loc (old ++ pruned)) as [g' [W _]]; [lia|]. rewrite W. cbn [bind].
    exists g', (TRecip pruned). split; [auto|]. split; [exact Ht|]. split; [cbn; lia|].
    eapply te_link; eauto. apply rd_ok. auto.
  - (* TRecip *)
    destruct todo as [|des todo]; [discriminate|]. unfold task_step. destruct Hg as [Hgl Hg].
    cbn [task_ok] in Ht. apply plist_tail in Ht. destruct Ht as [Ht [Hd [Hne Hlen]]].
    destruct (rd_lt _ g des) as [pool Ep]; [lia|]. rewrite Ep. cbn [bind]. apply rd_ok in Ep.
    destruct (set_mem loc pool) eqn:Em.
    + exists g, (TRecip todo). split; [auto|]. split; [exact Ht|]. split; [cbn; lia|]. apply te_local; auto.
    + apply set_mem_not_In in Em. destruct (10 * length pool <? 13 * bp_R (be_prm env)) eqn:El.
      * apply Nat.ltb_lt in El. destruct (wr_nth _ g des (pool ++ [loc])) as [g' [W _]]; [lia|]. rewrite W. cbn [bind].
        exists g', (TRecip todo). split; [auto|]. split; [exact Ht|]. split; [cbn; lia|].
        eapply te_append; eauto.
      * destruct (reprune_ok env des (pool ++ [loc]) Hs Hin Hd) as [p [new [_ [_ [_ [_ [E1 [PL _]]]]]]]].
        { intros y Hy. apply in_app_or in Hy. destruct Hy as [Hy|[<-|[]]]; auto. eapply Hg; eauto. }
        rewrite E1. cbn [bind]. exists g, (TOver des new todo). split; [auto|].
        split; [cbn; auto|]. split; [cbn; lia|]. apply te_local; auto.
  - (* TOver *)
    unfold task_step. cbn [task_ok] in Ht. destruct Ht as [Hd [PL [Ht Hlen]]]. destruct Hg as [Hgl Hg].
    destruct (wr_nth _ g des new) as [g' [W _]]; [lia|]. rewrite W. cbn [bind].
    exists g', (TRecip todo). split; [auto|]. split; [exact Ht|]. split; [cbn; lia|]. eapply te_over; eauto.
Qed.

Lemma task_step_done : forall env loc g t, task_done t = true -> task_step env loc g t = Ok (g, t).
Proof. intros env loc g t H. destruct t as [| | |[|d td]|]; try discriminate. reflexivity. Qed.

Lemma wr_self : forall (A : Type) (l : list A) i x, nth_error l i = Some x -> wr l i x = Ok l.
Proof.
  intros A l i x H. rewrite wr_ok by (apply nth_error_Some; congruence). f_equal.
  revert i H. induction l as [|y l IH]; intros i H; destruct i; try discriminate.
  - cbn in H. inversion H. reflexivity.
  - cbn [firstn app]. rewrite skipn_cons. f_equal. auto.
Qed.

Lemma build_step_done : forall env st loc t, nth_error (bs_tasks st) loc = Some t -> task_done t = true ->
  build_step env st loc = Ok st.
Proof.
  intros env st loc t Ht Hd. unfold build_step. rewrite (proj2 (rd_ok _ _ _ _) Ht). cbn [bind].
  rewrite task_step_done by auto. cbn [bind]. rewrite (wr_self _ _ _ _ Ht). cbn [bind]. destruct st. reflexivity.
Qed.

(** ** One step of the build *)
Definition tmeasure (env : benv) (ts : list task) : nat := fold_right (fun t a => task_measure env t + a) 0 ts.

Lemma tmeasure_wr : forall env ts i t t' ts', nth_error ts i = Some t -> wr ts i t' = Ok ts' ->
  tmeasure env ts' + task_measure env t = tmeasure env ts + task_measure env t'.
Proof.
  intros env ts. induction ts as [|x ts IH]; intros i t t' ts' H W; [destruct i; discriminate|].
  destruct i as [|i].
  - cbn in H. inversion H; subst x. rewrite wr_ok in W by (cbn; lia). inversion W. cbn. lia.
  - cbn in H. assert (Hlt : i < length ts) by (apply nth_error_Some; congruence).
    rewrite wr_ok in W by (cbn; lia). rewrite skipn_cons in W. cbn [firstn app] in W.
    specialize (IH i t t' _ H (wr_ok _ ts i t' Hlt)).
    assert (E : ts' = x :: (firstn i ts ++ t' :: skipn (S i) ts)) by congruence. rewrite E.
    change (tmeasure env (x :: (firstn i ts ++ t' :: skipn (S i) ts))) with
      (task_measure env x + tmeasure env (firstn i ts ++ t' :: skipn (S i) ts)).
    change (tmeasure env (x :: ts)) with (task_measure env x + tmeasure env ts). lia.
Qed.

Lemma wr_nth_Some : forall (A : Type) (a b : list A) i x, wr a i x = Ok b ->
  forall j, nth_error b j = if Nat.eq_dec j i then Some x else nth_error a j.
Proof.
  intros A a b i x H j. unfold wr in H. destruct (i <? length a) eqn:E; [|discriminate]. apply Nat.ltb_lt in E.
  destruct (wr_nth _ a i x E) as [b' [W [_ N]]]. rewrite wr_ok in W by auto.
  assert (b' = b) by congruence. subst. auto.
Qed.

Lemma build_step_ok : forall env st loc t, sorts (be_sort env) -> build_input_ok env -> binv env st ->
  nth_error (bs_tasks st) loc = Some t -> task_done t = false ->
  exists g' t' ts', task_step env loc (bs_graph st) t = Ok (g', t') /\ wr (bs_tasks st) loc t' = Ok ts' /\
    build_step env st loc = Ok (mkBS g' ts') /\ binv env (mkBS g' ts') /\
    tmeasure env ts' < tmeasure env (bs_tasks st) /\ task_effect env loc (bs_graph st) t g' t'.
Proof.
  intros env st loc t Hs Hin HI Ht Hnd.
  assert (Hloc : loc < sp_n (be_sp env)).
  { rewrite <- (bv_tl _ _ HI). apply nth_error_Some. congruence. }
  destruct (task_step_ok env loc (bs_graph st) t Hs Hin Hloc (binv_graph_ok _ _ HI) (bv_task _ _ HI _ _ Ht) Hnd)
    as [g' [t' [E1 [Hok [Hm He]]]]].
  destruct (wr_nth _ (bs_tasks st) loc t') as [ts' [W [L1 N1]]]; [rewrite (bv_tl _ _ HI); auto|].
  exists g', t', ts'. split; [auto|]. split; [auto|]. split.
  { unfold build_step. rewrite (proj2 (rd_ok _ _ _ _) Ht). cbn [bind]. rewrite E1. cbn [bind]. rewrite W. reflexivity. }
  split; [|split; [|auto]].
  2:{ pose proof (tmeasure_wr env _ _ _ _ _ Ht W). lia. }
  assert (Hgl : length g' = sp_n (be_sp env)).
  { rewrite <- (bv_gl _ _ HI). destruct He as [-> _|old pr _ _ _ Wg|des todo pool _ _ _ _ _ _ _ Wg|des new todo _ _ _ _ Wg]; auto;
    apply wr_length in Wg; auto. }
  constructor; cbn [bs_tasks bs_graph].
  - rewrite L1. apply (bv_tl _ _ HI).
  - auto.
  - intros i ti Hi. rewrite N1 in Hi. destruct (Nat.eq_dec i loc) as [->|Hne]; [inversion Hi; subst; auto|].
    eapply bv_task; eauto.
  - intros i ti li Hi Hl. rewrite N1 in Hi.
    pose proof (bv_list _ _ HI) as HL. pose proof (slack_ge (bp_R (be_prm env))) as Hsl.
    destruct He as [Eg Elk|old pr Et Et' Eold Wg|des todo pool Et Et' Hd Hdl Ep Hnin Hlt Wg|des new todo Et Et' Hd PL Wg].
    + subst g'. destruct (Nat.eq_dec i loc) as [->|Hne]; [|eapply HL; eauto].
      inversion Hi; subst ti. destruct (HL loc t li Ht Hl) as [A B]. split; auto. rewrite Elk. auto.
    + rewrite (wr_nth_Some _ _ _ _ _ Wg) in Hl. destruct (Nat.eq_dec i loc) as [->|Hne]; [|eapply HL; eauto].
      inversion Hi; subst ti. inversion Hl; subst li. subst t t'. destruct (HL loc _ old Ht Eold) as [A B].
      assert (PL := bv_task _ _ HI _ _ Ht). cbn [task_ok] in PL. destruct PL as [P1 [P2 P3]].
      split.
      * intros y Hy. apply in_app_or in Hy. destruct Hy; auto.
      * cbn [task_linked] in *. rewrite app_length. lia.
    + rewrite (wr_nth_Some _ _ _ _ _ Wg) in Hl. destruct (Nat.eq_dec i des) as [->|Hne].
      * inversion Hl; subst li. destruct (Nat.eq_dec des loc); [congruence|].
        destruct (HL des ti pool Hi Ep) as [A B]. split.
        -- intros y Hy. apply in_app_or in Hy. destruct Hy as [Hy|[<-|[]]]; auto.
        -- rewrite app_length. cbn [length]. apply slack_lt in Hlt. lia.
      * destruct (Nat.eq_dec i loc) as [->|Hne']; [|eapply HL; eauto].
        inversion Hi; subst ti. subst t t'. exact (HL loc _ li Ht Hl).
    + rewrite (wr_nth_Some _ _ _ _ _ Wg) in Hl. destruct (Nat.eq_dec i des) as [->|Hne].
      * inversion Hl; subst li. destruct PL as [P1 [P2 P3]]. split; auto. lia.
      * destruct (Nat.eq_dec i loc) as [->|Hne']; [|eapply HL; eauto].
        inversion Hi; subst ti. subst t t'. exact (HL loc _ li Ht Hl).
Qed.

Lemma build_init_inv : forall env, binv env (build_init env).
Proof.
  intros env. constructor; cbn [build_init bs_tasks bs_graph].
  - apply repeat_length.
  - apply repeat_length.
  - intros i t H. apply nth_error_In in H. apply repeat_spec in H. subst. exact I.
  - intros i t l H1 H2. apply nth_error_In in H2. apply repeat_spec in H2. subst. split; [intros y []|cbn; lia].
Qed.

(** Every schedule keeps the invariant. *)
Lemma build_run_ok : forall env, sorts (be_sort env) -> build_input_ok env ->
  forall sched st, binv env st -> (forall i, In i sched -> i < sp_n (be_sp env)) ->
  exists st', build_run env st sched = Ok st' /\ binv env st' /\
    tmeasure env (bs_tasks st') <= tmeasure env (bs_tasks st).
Proof.
  intros env Hs Hin sched. induction sched as [|i sched IH]; intros st HI Hsc; cbn [build_run].
  - exists st. auto.
  - assert (Hi : i < length (bs_tasks st)) by (rewrite (bv_tl _ _ HI); apply Hsc; left; auto).
    destruct (nth_error (bs_tasks st) i) as [t|] eqn:Et; [|apply nth_error_None in Et; lia].
    destruct (task_done t) eqn:Ed.
    + rewrite (build_step_done env st i t) by auto. cbn [bind]. apply IH; auto. intros j Hj. apply Hsc. right. auto.
    + destruct (build_step_ok env st i t Hs Hin HI Et Ed) as [g' [t' [ts' [_ [_ [E [HI' [Hm _]]]]]]]].
      rewrite E. cbn [bind]. destruct (IH (mkBS g' ts') HI') as [st' [E' [HI'' Hm']]].
      { intros j Hj. apply Hsc. right. auto. }
      exists st'. split; [auto|]. split; [auto|]. cbn [bs_tasks] in Hm'. lia.
Qed.

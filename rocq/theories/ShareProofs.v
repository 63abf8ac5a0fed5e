(** * Labels that all points share change nothing. *)
From Coq Require Import NArith String List Arith Lia Bool.
From Verif Require Import Base Float32 PoolModel FilterSpec FilterProofs GraphSpec GreedyModel SearchModel PruneModel EntryModel BuildModel VamanaModel ClosestModel FlatModel IvfModel LshModel ShareSpec.
Import ListNotations.

(** ** Results that agree *)
Definition gives {A} (a b : res A) : Prop := forall v, a = Ok v -> b = Ok v.
Lemma gives_refl : forall {A} (a : res A), gives a a.
Proof. intros A a v H. exact H. Qed.
Lemma gives_bind : forall {A B} (a a' : res A) (f f' : A -> res B), gives a a' -> (forall v, a = Ok v -> gives (f v) (f' v)) -> gives (bind a f) (bind a' f').
Proof. intros A B a a' f f' H K v E. destruct a as [x| | | |]; try discriminate. rewrite (H x eq_refl). cbn [bind] in *. exact (K x eq_refl v E). Qed.

Definition yes : nat -> res bool := fun _ => Ok true.
Definition only_true (accept : nat -> res bool) : Prop := forall id b, accept id = Ok b -> b = true.

Lemma one_gives : forall n dist accept M st id, only_true accept -> gives (process_one n dist accept M st id) (process_one n dist yes M st id).
Proof. intros n dist accept M st id H v E. unfold process_one, yes in *. destruct (accept id) as [b| | | |] eqn:Q; try discriminate. rewrite (H id b Q) in E. exact E. Qed.
Lemma loop_gives : forall n dist accept M l st, only_true accept -> gives (process_loop n dist accept M st l) (process_loop n dist yes M st l).
Proof.
  intros n dist accept M l. induction l as [|id l IH]; intros st H; [apply gives_refl|]. cbn [process_loop]. apply gives_bind; [now apply one_gives|]. intros v _. now apply IH.
Qed.

(** The other way round: only points are ever inserted. *)
Definition real_ids (n : nat) (st : pool_state) : Prop := forall x, In x (p_ins st) -> x < n.
Lemma set_mem_In : forall x s, set_mem x s = true -> In x s.
Proof. intros x s H. unfold set_mem in H. apply existsb_exists in H. destruct H as [y [Hy E]]. apply Nat.eqb_eq in E. now subst. Qed.

Lemma one_back : forall n dist accept M st id v, (forall x, x < n -> accept x = Ok true) -> real_ids n st -> process_one n dist yes M st id = Ok v ->
  process_one n dist accept M st id = Ok v /\ real_ids n v.
Proof.
  intros n dist accept M st id v H R E. unfold process_one in *. unfold yes in E. cbn [bind negb] in E. destruct (set_mem id (p_ins st)) eqn:S.
  - pose proof (R id (set_mem_In _ _ S)) as L. rewrite (H id L). cbn [bind negb]. split; [exact E|]. injection E as <-. exact R.
  - destruct (Nat.ltb_spec id n) as [L|L]; [|discriminate]. rewrite (H id L). cbn [bind negb]. split; [exact E|]. cbn [bind] in E.
    assert (Q : p_ins v = id :: p_ins st).
    { destruct (if 0 <? p_cur st then _ else _) as [[|]| | | |]; try discriminate; cbn [bind] in E.
      - injection E as <-. reflexivity.
      - destruct (insert_into_pool _ _ _) as [[a r]| | | |]; try discriminate. cbn [bind] in E. injection E as <-. reflexivity. }
    intros x Hx. rewrite Q in Hx. destruct Hx as [<-|Hx]; [exact L|exact (R x Hx)].
Qed.
Lemma loop_back : forall n dist accept M l st v, (forall x, x < n -> accept x = Ok true) -> real_ids n st -> process_loop n dist yes M st l = Ok v -> process_loop n dist accept M st l = Ok v.
Proof.
  intros n dist accept M l. induction l as [|id l IH]; intros st v H R E; [exact E|]. cbn [process_loop] in *.
  destruct (process_one n dist yes M st id) as [s| | | |] eqn:Q; try discriminate. cbn [bind] in E. destruct (one_back n dist accept M st id s H R Q) as [-> R']. cbn [bind]. now apply IH.
Qed.

(** ** Filters that all points match *)
Lemma all_match_true : forall n lc filters id, all_match n lc filters -> id < n -> passes_filter lc filters id = Ok true.
Proof.
  intros n lc filters id [L [Sf H]] Hid. destruct (nth_error (pts_to_labels lc) id) as [curr|] eqn:E; [|apply nth_error_None in E; lia].
  destruct (H curr (nth_error_In _ _ E)) as [Sc M]. destruct (passes_filter_exact lc filters id curr E Sf Sc) as [b [P B]]. unfold universal_of in M. rewrite P, (proj2 B M). reflexivity.
Qed.
Lemma all_match_only : forall n lc filters, all_match n lc filters -> only_true (passes_filter lc filters).
Proof.
  intros n lc filters A id b E. destruct (Nat.lt_ge_cases id n) as [H|H]; [rewrite (all_match_true n lc filters id A H) in E; now injection E as <-|].
  unfold passes_filter in E. destruct filters; [now injection E as <-|]. destruct A as [L _]. unfold rd in E. rewrite (proj2 (nth_error_None _ _)) in E by lia. discriminate.
Qed.

Lemma flat_share : forall n dist lc filters k cands ind dst r, all_match n lc filters ->
  (flat_search n dist (passes_filter lc filters) k cands ind dst = Ok r <-> flat_search n dist (passes_filter lc []) k cands ind dst = Ok r).
Proof.
  intros n dist lc filters k cands ind dst r A. unfold flat_search, process_candidates. change (passes_filter lc []) with yes. split; intros E.
  - destruct (process_loop n dist (passes_filter lc filters) k _ cands) as [st| | | |] eqn:Q; try discriminate. now rewrite (loop_gives n dist _ k cands _ (all_match_only n lc filters A) st Q).
  - destruct (process_loop n dist yes k _ cands) as [st| | | |] eqn:Q; try discriminate.
    rewrite (loop_back n dist (passes_filter lc filters) k cands _ st (fun x Hx => all_match_true n lc filters x A Hx)); [exact E| |exact Q]. intros x [].
Qed.

Lemma ivf_share : forall popf mbs ix cdist dist p k filters ind dst r, all_match (ivf_n ix) (ivf_labels ix) filters ->
  (ivf_search popf mbs ix cdist dist p k filters ind dst = Ok r <-> ivf_search popf mbs ix cdist dist p k [] ind dst = Ok r).
Proof.
  intros popf mbs ix cdist dist p k filters ind dst r A. unfold ivf_search. destruct (ivf_candidates popf mbs ix cdist p) as [c| | | |]; cbn [bind]; [|split; discriminate..]. now apply flat_share.
Qed.
Lemma lsh_share : forall dotf ix q dist k filters ind dst r, all_match (l_n ix) (l_labels ix) filters ->
  (lsh_search dotf ix q dist k filters ind dst = Ok r <-> lsh_search dotf ix q dist k [] ind dst = Ok r).
Proof.
  intros dotf ix q dist k filters ind dst r A. unfold lsh_search. destruct (lookup_all dotf q (l_tables ix)) as [cands ts]. pose proof (fun r' => flat_share (l_n ix) dist (l_labels ix) filters k cands ind dst r' A) as H.
  split; intros E.
  - destruct (flat_search _ _ (passes_filter (l_labels ix) filters) _ _ _ _) as [r'| | | |]; try discriminate. rewrite (proj1 (H r') eq_refl). exact E.
  - destruct (flat_search _ _ (passes_filter (l_labels ix) []) _ _ _ _) as [r'| | | |]; try discriminate. rewrite (proj2 (H r') eq_refl). exact E.
Qed.

(** ** Graph search *)
Lemma step_gives : forall n dist accept L g st, only_true accept -> gives (greedy_step n dist accept L g st) (greedy_step n dist yes L g st).
Proof.
  intros n dist accept L g st H. unfold greedy_step. apply gives_bind; [apply gives_refl|]. intros x _. destruct (nflag x); [|apply gives_refl].
  apply gives_bind; [apply gives_refl|]. intros a _. apply gives_bind; [apply gives_refl|]. intros des _. apply gives_bind; [now apply loop_gives|]. intros p' _. apply gives_refl.
Qed.
Lemma while_gives : forall fuel n dist accept L gs i st, only_true accept -> gives (greedy_loop fuel n dist accept L gs i st) (greedy_loop fuel n dist yes L gs i st).
Proof.
  induction fuel as [|fuel IH]; intros n dist accept L gs i st H; cbn [greedy_loop]; destruct (greedy_running st); try apply gives_refl.
  apply gives_bind; [now apply step_gives|]. intros st' _. now apply IH.
Qed.
Lemma greedy_gives : forall sortf n dist accept L g ids, only_true accept -> gives (greedy_search sortf n dist accept L g ids) (greedy_search sortf n dist yes L g ids).
Proof. intros sortf n dist accept L g ids H. unfold greedy_search, greedy_search_dyn. apply gives_bind; [apply gives_refl|]. intros st _. now apply while_gives. Qed.

(** A search with a label of all points is the search without filter that starts at the
    entry point of the label. *)
Lemma vamana_share : forall sortf ix dist L k x m ind dst r, all_match (ix_n ix) (ix_labels ix) [x] -> medoid_of (ix_medoids ix) x = Some m ->
  vamana_search sortf ix dist L k [x] ind dst = Ok r ->
  vamana_search sortf (mkI (ix_n ix) (ix_tags ix) (ix_labels ix) (ix_medoids ix) m (ix_graph ix)) dist L k [] ind dst = Ok r.
Proof.
  intros sortf ix dist L k x m ind dst r A M E. unfold vamana_search, vamana_init_ids in *. cbn [ix_n ix_tags ix_labels ix_medoids ix_start ix_graph filter_starts] in *. rewrite M in E.
  change (passes_filter (ix_labels ix) []) with yes. revert r E. apply gives_bind; [|intros; apply gives_refl]. apply greedy_gives. exact (all_match_only _ _ _ A).
Qed.

(** ** Build *)
Lemma all_have_match : forall n lc x, all_have n lc x -> all_match n lc [x].
Proof.
  intros n lc x H. unfold all_have in H. split; [rewrite H; apply repeat_length|]. split; [repeat constructor|]. intros l Hl. rewrite H in Hl. apply repeat_spec in Hl. subst l.
  split; [repeat constructor|]. right. left. exists x. split; now left.
Qed.
Lemma rd_repeat : forall {A} (a : A) n i v, rd (repeat a n) i = Ok v -> v = a.
Proof. intros A a n i v H. unfold rd in H. destruct (nth_error (repeat a n) i) as [y|] eqn:E; [|discriminate]. injection H as <-. apply nth_error_In, repeat_spec in E. exact E. Qed.

Lemma allowed_gives : forall sp lc x a b, all_have (sp_n sp) (sp_labels sp) x -> gives (prune_allowed sp a b) (prune_allowed (unlabelled sp lc) a b).
Proof.
  intros sp lc x a b H v E. unfold prune_allowed, unlabelled in *. cbn [sp_filtered]. destruct (sp_filtered sp); [|exact E]. rewrite H in E.
  destruct (rd _ b) as [lb| | | |] eqn:B; try discriminate. apply rd_repeat in B. subst lb. cbn [bind] in E. destruct (rd _ a) as [la| | | |] eqn:Q; try discriminate. rewrite H in Q. apply rd_repeat in Q. subst la. cbn [bind] in E.
  injection E as <-. cbn. now rewrite String.eqb_refl.
Qed.
Lemma occlude_gives : forall sp lc x cands alpha p cnt t occ, all_have (sp_n sp) (sp_labels sp) x -> gives (occlude_loop sp cands alpha p t cnt occ) (occlude_loop (unlabelled sp lc) cands alpha p t cnt occ).
Proof.
  intros sp lc x cands alpha p cnt. induction cnt as [|cnt IH]; intros t occ H; [apply gives_refl|]. cbn [occlude_loop]. apply gives_bind; [apply gives_refl|]. intros f _.
  destruct (fgt f alpha); [now apply IH|]. apply gives_bind; [apply gives_refl|]. intros c _. apply gives_bind; [now apply allowed_gives with (x := x)|]. intros ok _.
  destruct (negb ok); [now apply IH|]. apply gives_bind; [apply gives_refl|]. intros d _. apply gives_bind; [apply gives_refl|]. intros o _. now apply IH.
Qed.
Lemma prune_loop_gives : forall sp lc x cands R C alpha point fuel start occ result, all_have (sp_n sp) (sp_labels sp) x ->
  gives (prune_loop fuel sp cands R C alpha point start occ result) (prune_loop fuel (unlabelled sp lc) cands R C alpha point start occ result).
Proof.
  intros sp lc x cands R C alpha point fuel. induction fuel as [|fuel IH]; intros start occ result H; cbn [prune_loop]; destruct (_ && _ && _); try apply gives_refl.
  apply gives_bind; [apply gives_refl|]. intros p _. destruct (nid p =? point); [now apply IH|]. apply gives_bind; [apply gives_refl|]. intros f _.
  destruct (fgt f alpha); [now apply IH|]. apply gives_bind; [apply gives_refl|]. intros o1 _. apply gives_bind; [now apply occlude_gives with (x := x)|]. intros o2 _. now apply IH.
Qed.
Lemma prune_gives : forall sortf sp lc x prm point cands p0, all_have (sp_n sp) (sp_labels sp) x -> gives (prune_alpha sortf sp prm point cands p0) (prune_alpha sortf (unlabelled sp lc) prm point cands p0).
Proof.
  intros sortf sp lc x prm point cands p0 H. unfold prune_alpha. destruct cands; [apply gives_refl|]. apply gives_bind; [now apply prune_loop_gives with (x := x)|]. intros r _. apply gives_refl.
Qed.
Lemma dummy_same : forall sp lc des nbrs vis, dummy_pool (unlabelled sp lc) des vis nbrs = dummy_pool sp des vis nbrs.
Proof. intros sp lc des nbrs. induction nbrs as [|c nbrs IH]; intros vis; [reflexivity|]. cbn [dummy_pool]. rewrite !IH. reflexivity. Qed.

Definition plain_env (env : benv) (lc : label_ctx) (m : nat) : benv := mkEnv (be_sort env) (unlabelled (be_sp env) lc) (be_prm env) m [].

Lemma reprune_gives : forall env lc x m des nbrs, all_have (sp_n (be_sp env)) (sp_labels (be_sp env)) x -> gives (reprune env des nbrs) (reprune (plain_env env lc m) des nbrs).
Proof.
  intros env lc x m des nbrs H. unfold reprune. cbn [plain_env be_sp be_prm be_sort]. rewrite dummy_same. apply gives_bind; [apply gives_refl|]. intros p _.
  destruct (bp_rule (be_prm env) =? 0); [now apply prune_gives with (x := x)|apply gives_refl].
Qed.

Lemma filters_have : forall env x loc fs, sp_filtered (be_sp env) = true -> all_have (sp_n (be_sp env)) (sp_labels (be_sp env)) x -> task_filters env loc = Ok fs -> fs = [x].
Proof. intros env x loc fs F H E. unfold task_filters in E. rewrite F, H in E. now apply rd_repeat in E. Qed.

Lemma task_gives : forall env lc x m loc g t, sp_filtered (be_sp env) = true -> all_have (sp_n (be_sp env)) (sp_labels (be_sp env)) x -> medoid_of (be_medoids env) x = Some m ->
  gives (task_step env loc g t) (task_step (plain_env env lc m) loc g t).
Proof.
  intros env lc x m loc g t F H M. unfold task_step. cbn [plain_env be_sp be_prm be_sort unlabelled sp_n sp_pd sp_labels]. destruct t as [|st|pr|todo|des new todo].
  - destruct (sp_n (be_sp env) / 10 =? 0); [apply gives_refl|]. apply gives_bind with (a' := Ok [x]) (f' := fun _ => _).
    + intros fs E. now rewrite (filters_have env x loc fs F H E).
    + intros fs E. rewrite (filters_have env x loc fs F H E). unfold task_init_ids. cbn [filter_starts plain_env be_medoids be_start]. rewrite M. apply gives_refl.
  - apply gives_bind with (a' := Ok [x]) (f' := fun _ => _).
    + intros fs E. now rewrite (filters_have env x loc fs F H E).
    + intros fs E. rewrite (filters_have env x loc fs F H E). destruct (greedy_running st).
      * apply gives_bind; [|intros; apply gives_refl]. apply (step_gives _ _ _ _ _ _ (all_match_only _ _ _ (all_have_match _ _ _ H))).
      * apply gives_bind; [|intros; apply gives_refl]. exact (prune_gives (be_sort env) (be_sp env) lc x (be_prm env) loc (rev (g_exp st)) [] H).
  - apply gives_refl.
  - destruct todo as [|des todo]; [apply gives_refl|]. apply gives_bind; [apply gives_refl|]. intros pool _. destruct (set_mem loc pool); [apply gives_refl|].
    destruct (10 * length pool <? 13 * bp_R (be_prm env)); [apply gives_refl|]. apply gives_bind; [exact (reprune_gives env lc x m des (pool ++ [loc]) H)|intros; apply gives_refl].
  - apply gives_refl.
Qed.
Lemma run_gives : forall env lc x m sched st, sp_filtered (be_sp env) = true -> all_have (sp_n (be_sp env)) (sp_labels (be_sp env)) x -> medoid_of (be_medoids env) x = Some m ->
  gives (build_run env st sched) (build_run (plain_env env lc m) st sched).
Proof.
  intros env lc x m sched. induction sched as [|loc sched IH]; intros st F H M; [apply gives_refl|]. cbn [build_run]. apply gives_bind; [|intros; now apply IH].
  unfold build_step. apply gives_bind; [apply gives_refl|]. intros t _. apply gives_bind; [now apply task_gives with (x := x)|]. intros gt _. apply gives_refl.
Qed.
Lemma cleanup_gives : forall env lc x m nodes g, all_have (sp_n (be_sp env)) (sp_labels (be_sp env)) x -> gives (cleanup env g nodes) (cleanup (plain_env env lc m) g nodes).
Proof.
  intros env lc x m nodes. induction nodes as [|node nodes IH]; intros g H; [apply gives_refl|]. cbn [cleanup]. apply gives_bind; [|intros; now apply IH].
  unfold cleanup_node. cbn [plain_env be_sp be_prm be_sort]. apply gives_bind; [apply gives_refl|]. intros nbrs _. destruct (bp_R (be_prm env) <? length nbrs); [|apply gives_refl].
  rewrite dummy_same. apply gives_bind; [apply gives_refl|]. intros p _. apply gives_bind; [now apply prune_gives with (x := x)|]. intros; apply gives_refl.
Qed.

(** A build in which every point has the label [x] and no other makes the graph of the build
    without labels that starts at the entry point of [x]; searches with [x] give the answers
    of that index. *)
Lemma build_share : forall v lc centroid work x ix md m, sp_filtered (vi_sp v) = true -> all_have (sp_n (vi_sp v)) (sp_labels (vi_sp v)) x ->
  vamana_build v = Ok (ix, md) -> medoid_of (ix_medoids ix) x = Some m -> calculate_medoid (sp_n (vi_sp v)) centroid = Ok m ->
  exists ix', vamana_build (mkV (vi_sort v) (unlabelled (vi_sp v) lc) (vi_prm v) (vi_tags v) centroid work (vi_sched v) (vi_order v)) = Ok (ix', md) /\
    ix_graph ix' = ix_graph ix /\ ix_start ix' = m /\
    forall dist L k ind dst r, vamana_search (vi_sort v) ix dist L k [x] ind dst = Ok r -> vamana_search (vi_sort v) ix' dist L k [] ind dst = Ok r.
Proof.
  intros v lc centroid work x ix md m F H B M C. unfold vamana_build, vamana_env in *. cbn [vi_sort vi_sp vi_prm vi_tags vi_centroid vi_work vi_sched vi_order unlabelled sp_n sp_filtered sp_labels]. rewrite F in B.
  destruct (label_medoids _ _ _) as [ms| | | |]; try discriminate. cbn [bind] in *. destruct (calculate_medoid _ (vi_centroid v)) as [s| | | |]; try discriminate. cbn [bind] in *. rewrite C. cbn [bind].
  set (env := mkEnv (vi_sort v) (vi_sp v) (vi_prm v) s (ms_medoids ms)) in *.
  destruct (build_run env (build_init env) (vi_sched v)) as [st| | | |] eqn:R; try discriminate. cbn [bind] in B. destruct (all_done st) eqn:D; [|discriminate].
  destruct (cleanup env (bs_graph st) (vi_order v)) as [g| | | |] eqn:K; try discriminate. cbn [bind] in B. destruct (update_degree_stats _ _ _ _) as [md'| | | |] eqn:U; try discriminate. cbn [bind] in B.
  injection B as <- <-. cbn [ix_medoids] in M.
  pose proof (run_gives env lc x m (vi_sched v) (build_init env) F H M st R) as R'. pose proof (cleanup_gives env lc x m (vi_order v) (bs_graph st) H g K) as K'.
  exists (mkI (sp_n (vi_sp v)) (vi_tags v) lc [] m g). split; [|split; [reflexivity|split; [reflexivity|]]].
  - match goal with |- bind (build_run ?e ?s ?l) _ = _ => replace (build_run e s l) with (Ok st) by (symmetry; exact R') end. cbn [bind]. rewrite D.
    match goal with |- bind (cleanup ?e ?s ?l) _ = _ => replace (cleanup e s l) with (Ok g) by (symmetry; exact K') end. cbn [bind]. rewrite U. reflexivity.
  - intros dist L k ind dst r E. exact (vamana_share (vi_sort v) (mkI (sp_n (vi_sp v)) (vi_tags v) (sp_labels (vi_sp v)) (ms_medoids ms) s g) dist L k x m ind dst r (all_have_match _ _ _ H) M E).
Qed.

(** * Lemmas about whole HNSW builds. *)
From Coq Require Import String List Arith Lia Bool Sorting.Sorted Sorting.Permutation.
From Verif Require Import Base Float32 PoolModel TopKSpec SortSpec GraphSpec GreedyModel SearchSpec SearchModel PruneModel PruneSpec
  BuildModel BuildSpec EntryModel EntrySpec HnswModel HnswSpec ListLemmas FilterProofs PoolProofs PoolProofs2 GreedyProofs SearchProofs PruneProofs
  BuildProofs BuildProofs2 EntryProofs HnswProofs HnswProofs2.
Import ListNotations.

Lemma h_final : forall env sched st order, henv_ok env -> hinv env st ->
  h_run env (build_init (he_b env)) sched = Ok st -> Permutation order (seq 0 (sp_n (be_sp (he_b env)))) ->
  exists g, h_cleanup env (bs_graph st) order = Ok g /\ length g = sp_n (be_sp (he_b env)) /\
    forall x l, nth_error g x = Some l ->
      (forall y, In y l -> y < sp_n (be_sp (he_b env)) /\ y <> x) /\ length l <= bp_R (be_prm (he_b env)).
Proof.
  intros env sched st order H HI Hrun Hp.
  destruct (h_cleanup_ok env H order (bs_graph st)) as [g [E2 [[Hgl Hg] [D _]]]].
  - split; [apply (hi_gl _ _ HI)|]. intros x l Hx.
    assert (Hlt : x < length (bs_tasks st)).
    { rewrite (hi_tl _ _ HI), <- (hi_gl _ _ HI). apply nth_error_Some. congruence. }
    destruct (nth_error (bs_tasks st) x) as [t|] eqn:Et; [|apply nth_error_None in Et; lia].
    apply (hi_list _ _ HI x t l Et Hx).
  - intros x Hx. apply (Permutation_in _ Hp) in Hx. apply in_seq in Hx. lia.
  - exists g. split; [auto|]. split; [auto|]. intros x l Hx. split; [apply (Hg x l Hx)|].
    apply (D x l); auto. apply (Permutation_in _ (Permutation_sym Hp)). apply in_seq.
    assert (x < length g) by (apply nth_error_Some; congruence). lia.
Qed.

(** One level, given its inner levels. *)
Lemma level_ok : forall sortf prm sp (tags : list nat) c inner,
  sorts sortf -> 1 <= bp_L prm -> (forall a b, is_nan (sp_pd sp a b) = false) -> sp_filtered sp = false -> length tags = sp_n sp ->
  10 <= sp_n sp -> length (hc_centroid c) = sp_n sp -> (forall d, In d (hc_centroid c) -> is_nan d = false) ->
  (match inner with [] => True | inn :: _ => levels_ok inner /\ forall t, In t (ix_tags inn) -> t < sp_n sp end) ->
  exists s, calculate_medoid (sp_n sp) (hc_centroid c) = Ok s /\ s < sp_n sp /\ first_min (hc_centroid c) s /\
    henv_ok (mkH (mkEnv sortf sp prm s []) inner).
Proof.
  intros sortf prm sp tags c inner Hs HL Hnan Hf Ht Hn Hc1 Hc2 Hin.
  destruct (calculate_medoid_ok (sp_n sp) (hc_centroid c)) as [s [E [Hs1 Hfm]]]; auto; [lia|].
  exists s. split; [auto|]. split; [auto|]. split; [auto|].
  constructor; cbn [he_b he_inner be_sort be_sp be_prm]; auto.
  constructor; cbn [be_sp be_prm be_start be_medoids]; auto. intros x id []. intros C. congruence.
Qed.

Lemma hnsw_build_ok : forall sortf prm cs sp tags, hinput_ok sortf prm sp tags cs ->
  (exists levels, hnsw_build sortf prm sp tags cs = Ok levels /\ levels_ok levels /\
     levels_degree (bp_R prm) levels /\ built_from (sp_n sp) tags cs levels) \/
  hnsw_build sortf prm sp tags cs = Fuel.
Proof.
  intros sortf prm cs. induction cs as [|c rest IH]; intros sp tags [Hs HL Hnan Hf Ht Hcs]; [destruct Hcs|].
  cbn [choices_ok] in Hcs. destruct Hcs as [Hn [Hc1 [Hc2 [Hc3 [Hc4 Hrest]]]]]. cbn [hnsw_build].
  assert (Hinner : (exists inner, match rest with
                  | [] => Ok []
                  | _ :: _ => hnsw_build sortf prm (sub_space sp (hc_sample c)) (hc_sample c) rest
                  end = Ok inner /\
      match inner with [] => rest = [] | inn :: _ => levels_ok inner /\ (forall t, In t (ix_tags inn) -> t < sp_n sp) end /\
      levels_degree (bp_R prm) inner /\ match rest with [] => inner = [] | _ :: _ => built_from (length (hc_sample c)) (hc_sample c) rest inner end) \/
      match rest with
                  | [] => Ok []
                  | _ :: _ => hnsw_build sortf prm (sub_space sp (hc_sample c)) (hc_sample c) rest
                  end = Fuel).
  { destruct rest as [|c' rest'] eqn:Er.
    - left. exists []. split; [auto|]. split; [auto|]. split; [intros ix x l []|auto].
    - destruct Hrest as [Hr1 [Hr2 Hr3]]. rewrite <- Er in *.
      destruct (IH (sub_space sp (hc_sample c)) (hc_sample c)) as [[inner [E [Hl [Hd Hb]]]]|E].
      + constructor; auto. intros a b. apply Hnan.
      + left. exists inner. split; [auto|]. split; [|auto]. destruct inner as [|inn inner']; [destruct Hl|].
        split; [auto|]. subst rest. cbn [built_from] in Hb. destruct Hb as [_ [-> _]]. auto.
      + right. auto. }
  destruct Hinner as [[inner [-> [Hlv [Hdeg Hbf]]]]| ->]; [|right; auto]. cbn [bind].
  destruct (level_ok sortf prm sp tags c inner) as [s [-> [Hs1 [Hfm Henv]]]]; auto.
  { destruct inner; auto. }
  cbn [bind]. cbn [he_b].
  set (env := mkH (mkEnv sortf sp prm s []) inner) in *.
  destruct (h_run_ok env Henv (hc_sched c) (build_init (he_b env)) (h_init_inv env) Hc3) as [st [E HI]].
  cbn [he_b env] in E. cbn [he_b]. change (he_b env) with (mkEnv sortf sp prm s []) in E. rewrite E. cbn [bind].
  destruct (all_done st); [|right; auto]. left.
  destruct (h_final env (hc_sched c) st (hc_order c) Henv HI E Hc4) as [g [Eg [Lg Hg]]].
  rewrite Eg. cbn [bind]. eexists. split; [reflexivity|].
  cbn [env he_b be_sp be_prm] in Hg, Lg.
  split; [|split].
  - cbn [levels_ok]. split.
    + split; [cbn; lia|]. split; [|split; [|split]]; cbn [ix_n ix_graph ix_tags ix_start ix_medoids].
      * split; [auto|]. intros x l y Hx Hy. apply (Hg x l Hx). auto.
      * auto.
      * auto.
      * intros x id [].
    + destruct inner as [|inn inner']; auto. destruct Hlv as [H1 H2]. split; auto.
  - intros ix x l [<-|Hix] Hx; [|eapply Hdeg; eauto]. cbn [ix_graph] in Hx. destruct (Hg x l Hx) as [A B].
    split; auto. intros C. apply A in C. lia.
  - cbn [built_from ix_n ix_tags ix_start]. repeat (split; [solve [auto]|]). exact Hbf.
Qed.

(** ** Completion *)
Lemma choices_other : forall n cs cs', choices_ok n cs -> Forall2 other_schedule cs cs' ->
  (forall c', In c' cs' -> hc_sched c' = []) -> choices_ok n cs'.
Proof.
  intros n cs cs' H F. revert n H. induction F as [|c c' cs cs' [O1 [O2 O3]] F IH]; intros n H Hsc; [exact H|].
  cbn [choices_ok] in *. destruct H as [H1 [H2 [H3 [H4 [H5 H6]]]]].
  rewrite O2, O3. repeat (split; [solve [auto]|]). split.
  { rewrite (Hsc c' (or_introl eq_refl)). intros i []. }
  split; [auto|]. destruct F; [auto|]. destruct H6 as [A [B D]]. rewrite O1. repeat (split; [solve [auto]|]).
  apply IH; auto. intros c0 H0. apply Hsc. right. auto.
Qed.

Lemma hnsw_build_completes : forall sortf prm cs sp tags, hinput_ok sortf prm sp tags cs ->
  exists cs' levels, Forall2 other_schedule cs cs' /\ hinput_ok sortf prm sp tags cs' /\
    hnsw_build sortf prm sp tags cs' = Ok levels.
Proof.
  intros sortf prm cs. induction cs as [|c rest IH]; intros sp tags H; [destruct (ho_cs _ _ _ _ _ H)|].
  pose proof H as H0. destruct H as [Hs HL Hnan Hf Ht Hcs].
  cbn [choices_ok] in Hcs. destruct Hcs as [Hn [Hc1 [Hc2 [Hc3 [Hc4 Hrest]]]]].
  assert (Hin : exists rest' inner, Forall2 other_schedule rest rest' /\
     match rest with
     | [] => True
     | _ :: _ => choices_ok (length (hc_sample c)) rest'
     end /\
     match rest' with
      | [] => Ok []
      | _ :: _ => hnsw_build sortf prm (sub_space sp (hc_sample c)) (hc_sample c) rest'
     end = Ok inner /\
     match inner with [] => True | inn :: _ => levels_ok inner /\ (forall t, In t (ix_tags inn) -> t < sp_n sp) end).
  { destruct rest as [|c1 rest1] eqn:Er.
    - exists [], []. repeat (split; [solve [auto]|]). auto.
    - destruct Hrest as [Hr1 [Hr2 Hr3]]. rewrite <- Er in *.
      destruct (IH (sub_space sp (hc_sample c)) (hc_sample c)) as [rest' [inner [F [Hok E]]]].
      { constructor; auto. intros a b. apply Hnan. }
      exists rest', inner. split; [auto|]. split; [subst rest; apply (ho_cs _ _ _ _ _ Hok)|].
      destruct rest' as [|c' rest1']; [subst; inversion F|]. split; [auto|].
      destruct (hnsw_build_ok _ _ _ _ _ Hok) as [[lv [E' [Hlv [_ Hb]]]]|E']; [|congruence].
      assert (lv = inner) by congruence. subst lv. destruct inner as [|inn inner']; [destruct Hlv|]. split; auto.
      cbn [built_from] in Hb. destruct Hb as [_ [-> _]]. auto. }
  destruct Hin as [rest' [inner [F [Hcr [Ei Hi]]]]].
  destruct (level_ok sortf prm sp tags c inner) as [s [Em [Hs1 [Hfm Henv]]]]; auto.
  set (env := mkH (mkEnv sortf sp prm s []) inner) in *.
  destruct (h_completes env Henv _ (build_init (he_b env)) (h_init_inv env) (le_n _)) as [sched [st [Hsc [Hrun Hd]]]].
  destruct (h_run_ok env Henv sched (build_init (he_b env)) (h_init_inv env) Hsc) as [st' [E HI]].
  assert (st' = st) by congruence. subst st'.
  destruct (h_final env sched st (hc_order c) Henv HI E Hc4) as [g [Eg [Lg Hg]]].
  exists (mkHC (hc_sample c) (hc_centroid c) sched (hc_order c) :: rest'). eexists.
  split; [constructor; [repeat split|auto]|]. split.
  - constructor; auto. cbn [choices_ok hc_sample hc_centroid hc_sched hc_order].
    repeat (split; [solve [auto]|]). inversion F; subst; [exact I|].
    destruct Hrest as [Hr1 [Hr2 Hr3]]. auto.
  - cbn [hnsw_build hc_sample hc_centroid hc_sched hc_order]. rewrite Ei. cbn [bind]. rewrite Em. cbn [bind he_b].
    subst env. cbn [he_b] in *. rewrite Hrun. cbn [bind]. rewrite Hd, Eg. reflexivity.
Qed.

Lemma h_busy_bound : forall env, henv_ok env -> forall sched st, hinv env st -> h_busy env st sched ->
  length sched <= tmeasure (he_b env) (bs_tasks st).
Proof.
  intros env H sched. induction sched as [|i sched IH]; intros st HI Hb; [cbn; lia|].
  cbn [h_busy] in Hb. destruct Hb as [[t [Et Ed]] Hb].
  destruct (h_step_ok env st i t H HI Et Ed) as [st' [E [HI' Hm]]].
  specialize (IH _ HI' (Hb _ E)). cbn [length]. lia.
Qed.

Lemma h_terminates : forall env sched, henv_ok env -> h_busy env (build_init (he_b env)) sched ->
  length sched <= sp_n (be_sp (he_b env)) *
    ((sp_n (be_sp (he_b env)) + 1) * (bp_L (be_prm (he_b env)) + 1) + 2 * bp_R (be_prm (he_b env)) + 3).
Proof.
  intros env sched H Hb. pose proof (h_busy_bound env H sched _ (h_init_inv env) Hb) as B.
  cbn [build_init bs_tasks] in B. rewrite tmeasure_repeat in B. exact B.
Qed.

(** ** Small levels *)
Lemma hnsw_small : forall sortf prm cs sp tags m c loc sched, innermost (sp_n sp) cs = Some (m, c) ->
  m < 10 -> length (hc_centroid c) = m -> (forall d, In d (hc_centroid c) -> is_nan d = false) ->
  hc_sched c = loc :: sched -> (1 <= m -> loc < m) ->
  hnsw_build sortf prm sp tags cs = UB.
Proof.
  intros sortf prm cs. induction cs as [|c0 rest IH]; intros sp tags m c loc sched Hi Hm Hc Hnan Hsc Hl; [discriminate|].
  cbn [innermost] in Hi. cbn [hnsw_build]. destruct rest as [|c1 rest].
  - inversion Hi. subst m c0. cbn [bind]. destruct (sp_n sp) as [|n'] eqn:En.
    + destruct (hc_centroid c) as [|d ds]; [reflexivity|discriminate].
    + destruct (calculate_medoid_ok (S n') (hc_centroid c)) as [s [-> _]]; [lia|auto|auto|]. cbn [bind he_b].
      rewrite Hsc. cbn [h_run]. unfold h_step, build_init. cbn [he_b be_sp bs_tasks bs_graph].
      unfold rd at 1. rewrite nth_error_repeat by (rewrite En; lia). cbn [bind]. unfold h_task_step. cbn [he_b be_sp be_prm].
      rewrite En. rewrite Nat.div_small by lia. reflexivity.
  - rewrite (IH (sub_space sp (hc_sample c0)) (hc_sample c0) m c loc sched); auto.
Qed.

(** ** Phantom candidates *)
Lemma nth_error_ext' : forall (A : Type) (a b : list A), (forall i, nth_error a i = nth_error b i) -> a = b.
Proof.
  induction a as [|x a IH]; intros [|y b] H; auto; try (specialize (H 0); discriminate).
  f_equal; [specialize (H 0); cbn in H; congruence|]. apply IH. intros i. apply (H (S i)).
Qed.

Lemma skipn_default : forall L cur arr, length arr = L + 1 -> cur <= L -> tail_default L cur arr ->
  skipn cur arr = repeat default_neighbor (L + 1 - cur).
Proof.
  intros L cur arr Hl Hc H. apply nth_error_ext'. intros j.
  destruct (Nat.lt_ge_cases j (L + 1 - cur)) as [Hj|Hj].
  - rewrite nth_error_repeat by auto. rewrite <- (H (cur + j)) by lia.
    rewrite <- (firstn_skipn cur arr) at 2. rewrite nth_error_app2; rewrite firstn_length_le by lia; [|lia]. f_equal. lia.
  - rewrite (proj2 (nth_error_None _ _)) by (rewrite skipn_length; lia).
    symmetry. apply nth_error_None. rewrite repeat_length. auto.
Qed.

(** When fewer than L candidates were found, the list handed to the pruning ends
    with copies of (0, FLT_MAX). *)
Lemma h_phantoms : forall env sched st loc gs, henv_ok env ->
  (forall i, In i sched -> i < sp_n (be_sp (he_b env))) ->
  h_run env (build_init (he_b env)) sched = Ok st ->
  nth_error (bs_tasks st) loc = Some (TSearch gs) -> length (found gs) < bp_L (be_prm (he_b env)) ->
  p_arr (g_pool gs) = found gs ++ repeat default_neighbor (bp_L (be_prm (he_b env)) + 1 - length (found gs)).
Proof.
  intros env sched st loc gs H Hsc Hrun Ht Hlt.
  destruct (h_run_ok env H sched _ (h_init_inv env) Hsc) as [st' [E HI]]. assert (st' = st) by congruence. subst st'.
  pose proof (hi_task _ _ HI _ _ Ht) as [[c0 G] [S1 S2]].
  pose proof (pool_entries_length _ _ _ (gi_wf _ _ _ _ _ G)) as Hlen. unfold found in *. rewrite Hlen in *.
  destruct (gi_wf _ _ _ _ _ G) as [_ [W1 [W2 _]]].
  unfold pool_entries. rewrite <- (skipn_default _ _ (p_arr (g_pool gs))); auto. symmetry. apply firstn_skipn.
Qed.

Lemma filter_repeat : forall (A : Type) (f : A -> bool) x k, f x = true -> filter f (repeat x k) = repeat x k.
Proof. intros A f x k H. induction k as [|k IH]; [auto|]. cbn. rewrite H, IH. auto. Qed.

(** With the top-K rule they fill the list up with links to point 0. *)
Lemma h_phantom_links : forall env sched st loc gs, henv_ok env ->
  (forall i, In i sched -> i < sp_n (be_sp (he_b env))) ->
  h_run env (build_init (he_b env)) sched = Ok st ->
  nth_error (bs_tasks st) loc = Some (TSearch gs) -> greedy_running gs = false ->
  length (found gs) < bp_L (be_prm (he_b env)) -> bp_rule (be_prm (he_b env)) <> 0 -> loc <> 0 ->
  exists links st', h_step env st loc = Ok st' /\ nth_error (bs_tasks st') loc = Some (TLink links) /\
    (forall y, In y links -> y = 0 \/ In y (map nid (found gs))) /\
    length links = min (bp_R (be_prm (he_b env)))
      (length (filter (fun z => negb (nid z =? loc)) (found gs)) + (bp_L (be_prm (he_b env)) + 1 - length (found gs))).
Proof.
  intros env sched st loc gs H Hsc Hrun Ht Hr Hlt Hrule Hloc.
  pose proof (h_phantoms env sched st loc gs H Hsc Hrun Ht Hlt) as Hp.
  destruct (h_run_ok env H sched _ (h_init_inv env) Hsc) as [st' [E HI]]. assert (st' = st) by congruence. subst st'.
  pose proof (hi_task _ _ HI _ _ Ht) as [[c0 G] [S1 S2]].
  assert (Hno : forall z, In z (p_arr (g_pool gs)) -> is_nan (ndist z) = false).
  { intros z Hz. eapply slot_not_nan; [|apply S1; auto]. intros id. apply (bi_nan _ (hv_in _ H)). }
  destruct (prune_topk_spec (be_sort (he_b env)) (be_prm (he_b env)) loc (p_arr (g_pool gs)) (hv_sort _ H) Hno)
    as [out [E1 [rest [P [HL _]]]]].
  exists (map fst out).
  destruct (wr_nth _ (bs_tasks st) loc (TLink (map fst out))) as [ts' [W [_ N]]]; [apply nth_error_Some; congruence|].
  exists (mkBS (bs_graph st) ts'). split.
  { unfold h_step. rewrite (proj2 (rd_ok _ _ _ _) Ht). cbn [bind]. unfold h_task_step. rewrite Hr. unfold h_prune.
    apply Nat.eqb_neq in Hrule. rewrite Hrule, E1. cbn [bind]. rewrite W. reflexivity. }
  split; [cbn [bs_tasks]; rewrite N; destruct (Nat.eq_dec loc loc); congruence|]. split.
  - intros y Hy. apply in_map_iff in Hy. destruct Hy as [q [<- Hq]].
    assert (Hq' : In q (map (fun z => (nid z, ndist z)) (filter (fun z => negb (nid z =? loc)) (p_arr (g_pool gs))))).
    { apply (Permutation_in _ (Permutation_sym P)). apply in_or_app. auto. }
    apply in_map_iff in Hq'. destruct Hq' as [z [<- Hz]]. apply filter_In in Hz. destruct Hz as [Hz1 _].
    rewrite Hp in Hz1. apply in_app_or in Hz1. destruct Hz1 as [Hz1|Hz1]; [right; cbn [fst]; apply in_map; auto|].
    apply repeat_spec in Hz1. subst. left. reflexivity.
  - rewrite map_length. eapply eq_trans; [exact HL|]. f_equal. rewrite map_length, Hp, filter_app, app_length. f_equal.
    rewrite filter_repeat; [apply repeat_length|]. cbn. destruct loc; [congruence|reflexivity].
Qed.

Lemma built_levels_ok : forall sortf prm cs sp tags levels, hinput_ok sortf prm sp tags cs ->
  hnsw_build sortf prm sp tags cs = Ok levels -> levels_ok levels.
Proof.
  intros sortf prm cs sp tags levels H E. destruct (hnsw_build_ok _ _ _ _ _ H) as [[l [E' [Hl _]]]|E']; congruence.
Qed.

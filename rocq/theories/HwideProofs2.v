(** * HNSW builds that cut no list: every point is reached from every point. *)
From Coq Require Import ZArith String List Arith Lia Bool Sorting.Sorted Sorting.Permutation.
From Verif Require Import Base Float32 Float32Facts DivFacts PoolModel TopKSpec SortSpec GraphSpec FilterSpec GreedyModel SearchSpec SearchModel
  PruneModel PruneSpec BuildModel BuildSpec ListLemmas FilterProofs PoolProofs PoolProofs2 GreedyProofs SearchProofs AcceptProofs PruneProofs
  BuildProofs BuildProofs2 EntryModel EntrySpec EntryProofs HnswModel HnswSpec HnswProofs HnswProofs2 HnswProofs3
  RngSpec RngProofs WideSpec WideProofs WideProofs2 WideProofs4 HwideSpec HwideProofs.
Import ListNotations.

(** A list of neighbours: a short list, and a list without repetitions. *)
Definition set_plus (k : nat) (l : list nat) : Prop := exists a b, Permutation l (a ++ b) /\ NoDup a /\ length b <= k.

Lemma set_plus_length : forall n k x l, nbrs_ok n x l -> set_plus k l -> x < n -> length l + 1 <= n + k.
Proof.
  intros n k x l Hn [a [b [P [Na Lb]]]] Hx.
  assert (Ha : S (length a) <= n).
  { change (length (x :: a) <= n). rewrite <- (seq_length n 0). apply NoDup_incl_length.
    - constructor; [|exact Na]. intros I. assert (In x l) by (apply (Permutation_in _ (Permutation_sym P)); apply in_or_app; auto).
      apply Hn in H. lia.
    - intros y [<-|Hy]; apply in_seq; [lia|]. assert (In y l) by (apply (Permutation_in _ (Permutation_sym P)); apply in_or_app; auto).
      apply Hn in H. lia. }
  rewrite (Permutation_length P), app_length. lia.
Qed.

Lemma set_plus_add : forall k l y, ~ In y l -> set_plus k l -> set_plus k (l ++ [y]).
Proof.
  intros k l y Hy [a [b [P [Na Lb]]]]. exists (y :: a), b. split; [|split; [|exact Lb]].
  - rewrite <- Permutation_cons_append. cbn. constructor. exact P.
  - constructor; [|exact Na]. intros I. apply Hy. apply (Permutation_in _ (Permutation_sym P)). apply in_or_app. auto.
Qed.

Lemma has_edge_wr : forall g x l g', wr g x l = Ok g' -> forall y, In y l -> has_edge g' x y.
Proof.
  intros g x l g' W y Hy. exists l. split; [|exact Hy]. rewrite (wr_nth_Some _ _ _ _ _ W). destruct (Nat.eq_dec x x); congruence.
Qed.

(** Sizes and distances of the level. *)
Record calm (env : henv) : Prop := {
  ca_p : patient (sp_n (be_sp (he_b env))) (be_prm (he_b env));
  ca_pd : dissimilarity (sp_pd (be_sp (he_b env)))
}.

(** [w] stands in for [m] in the list of [loc]. *)
Definition stands (env : henv) (loc m w : nat) : Prop :=
  w = m \/ (w < sp_n (be_sp (he_b env)) /\ flt (sp_pd (be_sp (he_b env)) m w) (sp_pd (be_sp (he_b env)) loc m) = true).

(** [E]: the points every search of the level starts with. *)
Definition htask (env : henv) (E : list nat) (g : graph) (loc : nat) (t : task) : Prop :=
  match t with
  | TStart => True
  | TSearch st => forall m, In m E -> In m (p_ins (g_pool st))
  | TLink pruned => length pruned <= bp_L (be_prm (he_b env)) + 1 /\
      forall m, In m E -> m <> loc -> exists w, stands env loc m w /\ In w pruned
  | TRecip todo => forall m, In m E -> m <> loc -> exists w, stands env loc m w /\ has_edge g loc w /\ (In w todo \/ has_edge g w loc)
  | TOver _ _ _ => False
  end.

Lemma htask_grows : forall env E g g' loc t, grows g g' -> htask env E g loc t -> htask env E g' loc t.
Proof.
  intros env E g g' loc t Hg H. destruct t; cbn in *; auto. intros m Hm Hne.
  destruct (H m Hm Hne) as [w [C [D [I|I]]]]; exists w; (split; [exact C|]); (split; [eapply has_edge_grows; eauto|]); auto.
  right. eapply has_edge_grows; eauto.
Qed.

Record hwinv (env : henv) (E : list nat) (st : bstate) : Prop := {
  hw_h : hinv env st;
  hw_list : forall i t l, nth_error (bs_tasks st) i = Some t -> nth_error (bs_graph st) i = Some l ->
    set_plus (bp_L (be_prm (he_b env)) + 1) l /\ (task_linked t = false -> NoDup l);
  hw_task : forall i t, nth_error (bs_tasks st) i = Some t -> htask env E (bs_graph st) i t
}.

(** The search of a point ends with its start points in the pool. *)
Lemma found_all : forall n dist L c0 st, ginv n dist L c0 st -> n <= L -> forall m, In m (p_ins (g_pool st)) -> In m (map nid (found st)).
Proof.
  intros n dist L c0 st HI HL m Hm. destruct (ginv_discovered _ _ _ _ _ m HI Hm) as [D|[D _]]; [exact D|].
  assert (NF : NoDup (map nid (found st))).
  { destruct (gi_top _ _ _ _ _ HI) as [N [_ T]]. apply top_k_NoDup in T.
    - rewrite map_map in T. exact T.
    - unfold score. rewrite map_map. cbn [fst]. rewrite map_id. exact N. }
  apply (NoDup_lt_all n); [exact NF| | |eapply gi_lt; eauto].
  - intros x Hx. apply in_map_iff in Hx. destruct Hx as [z [<- Hz]].
    destruct (gi_wf _ _ _ _ _ HI) as [_ [_ [_ [_ He]]]]. destruct (He z Hz) as [_ [_ B]]. exact (gi_lt _ _ _ _ _ HI _ B).
  - rewrite map_length. lia.
Qed.

Lemma stands_pruned : forall env E loc g st pruned c0, henv_ok env -> calm env -> loc < sp_n (be_sp (he_b env)) ->
  ginv (sp_n (be_sp (he_b env))) (sp_pd (be_sp (he_b env)) loc) (bp_L (be_prm (he_b env))) c0 st ->
  slots_ok (sp_n (be_sp (he_b env))) (sp_pd (be_sp (he_b env)) loc) (bp_L (be_prm (he_b env))) (g_pool st) ->
  htask env E g loc (TSearch st) -> h_prune env loc st = Ok pruned -> htask env E g loc (TLink pruned).
Proof.
  intros env E loc g st pruned c0 H [[HL [HR Hal]] Hpd] Hloc HI Hsl Hst Ep.
  pose proof (hv_sort _ H) as Hs. pose proof (hv_in _ H) as Hin. pose proof (bi_n _ Hin) as Hn.
  unfold h_prune in Ep.
  assert (Hin' : prune_input_ok (be_sp (he_b env)) (p_arr (g_pool st))).
  { split; [|apply (bi_lab _ Hin)]. intros z Hz. apply (proj1 Hsl) in Hz. split; [eapply slot_lt; [lia|exact Hz]|].
    eapply slot_not_nan; [|exact Hz]. intros id. apply (bi_nan _ Hin). }
  assert (Hlen : length (p_arr (g_pool st)) = bp_L (be_prm (he_b env)) + 1) by (destruct (gi_wf _ _ _ _ _ HI) as [_ [W1 _]]; exact W1).
  assert (Hf : forall m, In m E -> exists c, nid c = m /\ In c (p_arr (g_pool st)) /\ ndist c = sp_pd (be_sp (he_b env)) loc m).
  { intros m Hm. pose proof (found_all _ _ _ _ _ HI HL m (Hst m Hm)) as Hf. apply in_map_iff in Hf. destruct Hf as [c [Ec Hc]].
    exists c. split; [exact Ec|]. split; [unfold found, pool_entries in Hc; eapply In_firstn; exact Hc|].
    destruct (gi_wf _ _ _ _ _ HI) as [_ [_ [_ [_ He]]]]. destruct (He c Hc) as [_ [A _]]. rewrite <- Ec. exact A. }
  destruct (bp_rule (be_prm (he_b env)) =? 0) eqn:Erule.
  - apply Nat.eqb_eq in Erule. destruct (Hal Erule) as [HC Ha].
    destruct (prune_alpha_shape (be_sort (he_b env)) (be_sp (he_b env)) (be_prm (he_b env)) loc _ Hs Hin') as [ks [rest [E1 [P [B1 [B2 _]]]]]].
    assert (pruned = map nid ks) by congruence. subst pruned.
    assert (Lp : length (map nid ks) <= bp_L (be_prm (he_b env)) + 1).
    { rewrite map_length, <- Hlen, (Permutation_length P), app_length. lia. }
    split; [exact Lp|]. intros m Hm Hne. destruct (Hf m Hm) as [c [Ec [Hca Hd]]].
    assert (Hc' : In c (firstn (bp_C (be_prm (he_b env))) (be_sort (he_b env) (p_arr (g_pool st))))).
    { destruct (Hs (p_arr (g_pool st))) as [Q _]; [intros z Hz; apply Hin'; exact Hz|].
      rewrite firstn_all2; [apply (Permutation_in _ Q); exact Hca|]. rewrite <- (Permutation_length Q), Hlen. lia. }
    destruct (prune_alpha_missing (be_sort (he_b env)) (be_sp (he_b env)) (be_prm (he_b env)) loc (p_arr (g_pool st)) c) as [out [E2 D]]; auto.
    { apply alpha_zero. exact Ha. } { congruence. }
    assert (out = map nid ks) by congruence. subst out.
    destruct D as [D|[D|[k [Hk [Ho [Mo Oc]]]]]].
    + exists m. split; [left; reflexivity|]. rewrite <- Ec. exact D.
    + exfalso. lia.
    + exists (nid k). split; [|exact Ho]. right. split; [apply Hin'; exact Hk|]. rewrite Ec, Hd in Oc.
      apply div_gt_one; try apply Hpd. eapply fle_flt_trans; [exact Ha|exact Oc].
  - destruct (prune_topk_spec (be_sort (he_b env)) (be_prm (he_b env)) loc (p_arr (g_pool st)) Hs) as [out [E1 [rest [P [Lo _]]]]].
    { intros z Hz. apply Hin'. exact Hz. }
    assert (pruned = map fst out) by congruence. subst pruned.
    assert (Lf : length (filter (fun z => negb (nid z =? loc)) (p_arr (g_pool st))) <= bp_L (be_prm (he_b env)) + 1).
    { rewrite <- Hlen. pose proof (filter_le_len _ (fun z => negb (nid z =? loc)) (fun _ => true) (p_arr (g_pool st)) (fun _ _ _ => eq_refl)) as X.
      rewrite (filter_all _ (fun _ => true) (p_arr (g_pool st)) (fun _ _ => eq_refl)) in X. exact X. }
    assert (Rn : rest = []).
    { pose proof (eq_trans (Permutation_length P) (app_length out rest)) as Q. pose proof (map_length (fun z => (nid z, ndist z)) (filter (fun z => negb (nid z =? loc)) (p_arr (g_pool st)))) as Q2.
      assert (Lo' : length out = Nat.min (bp_R (be_prm (he_b env))) (length (filter (fun z => negb (nid z =? loc)) (p_arr (g_pool st)))))
        by (rewrite <- Q2; exact Lo).
      assert (Q' : length (filter (fun z => negb (nid z =? loc)) (p_arr (g_pool st))) = length out + length rest) by (rewrite <- Q2; exact Q).
      destruct rest as [|r rest]; [reflexivity|exfalso]. cbn [length] in Q'. clear - Lo' Q' Lf HR Hn. lia. }
    subst rest. rewrite app_nil_r in P. split.
    + pose proof (map_length fst out) as M1. pose proof (Permutation_length P) as M2. rewrite map_length in M2. rewrite M1. rewrite M2 in Lf. exact Lf.
    + intros m Hm Hne. destruct (Hf m Hm) as [c [Ec [Hca Hd]]]. exists m. split; [left; reflexivity|].
      apply in_map_iff. exists (nid c, ndist c). split; [exact Ec|]. apply (Permutation_in _ P).
      apply (in_map (fun z => (nid z, ndist z))). apply filter_In. split; [exact Hca|]. apply negb_true_iff, Nat.eqb_neq. congruence.
Qed.

(** ** One step *)
Lemma hwstep : forall env E st loc t, henv_ok env -> calm env ->
  (forall loc ids, loc < sp_n (be_sp (he_b env)) -> h_init_ids env loc = Ok ids -> incl E ids) -> hwinv env E st ->
  nth_error (bs_tasks st) loc = Some t -> task_done t = false ->
  exists st', h_step env st loc = Ok st' /\ hwinv env E st'.
Proof.
  intros env E st loc t H Hca HE HW Ht Hnd. pose proof (hw_h _ _ _ HW) as HI.
  pose proof (hv_sort _ H) as Hs. pose proof (hv_in _ H) as Hin. pose proof (bi_n _ Hin) as Hn.
  destruct (ca_p _ Hca) as [HL [HR Hal]].
  destruct (h_step_ok env st loc t H HI Ht Hnd) as [st' [Est [HI' _]]]. exists st'. split; [exact Est|].
  assert (Hloc : loc < sp_n (be_sp (he_b env))) by (rewrite <- (hi_tl _ _ HI); apply nth_error_Some; congruence).
  unfold h_step in Est. rewrite (proj2 (rd_ok _ _ _ _) Ht) in Est. cbn [bind] in Est.
  destruct (h_task_step env loc (bs_graph st) t) as [[g' t']| | | |] eqn:E1; try discriminate. cbn [bind] in Est.
  destruct (wr (bs_tasks st) loc t') as [ts'| | | |] eqn:W; try discriminate. cbn [bind] in Est. injection Est as <-.
  assert (HT : forall i, nth_error ts' i = if Nat.eq_dec i loc then Some t' else nth_error (bs_tasks st) i)
    by (intros i; apply (wr_nth_Some _ _ _ _ _ W)).
  pose proof (hw_task _ _ _ HW loc t Ht) as Hw.
  assert (Keep : g' = bs_graph st -> task_linked t' = task_linked t -> htask env E (bs_graph st) loc t' -> hwinv env E (mkBS g' ts')).
  { intros -> Hlk Hwt. constructor; cbn [bs_graph bs_tasks]; [exact HI'| |].
    - intros i ti l Hi Hl. rewrite HT in Hi. destruct (Nat.eq_dec i loc) as [->|]; [|eapply hw_list; eauto].
      injection Hi as <-. rewrite Hlk. exact (hw_list _ _ _ HW loc _ l Ht Hl).
    - intros i ti Hi. rewrite HT in Hi. destruct (Nat.eq_dec i loc) as [->|]; [|eapply hw_task; eauto].
      injection Hi as <-. exact Hwt. }
  destruct t as [|s|pruned|todo|des new todo].
  - (* TStart *)
    unfold h_task_step in E1. destruct (sp_n (be_sp (he_b env)) / 10 =? 0); [discriminate|].
    destruct (h_init_ids_ok env loc H) as [ids [Ei [Hids [Hne Hlen]]]]. rewrite Ei in E1. cbn [bind] in E1.
    destruct (greedy_init_ok (be_sort (he_b env)) (sp_n (be_sp (he_b env))) (sp_pd (be_sp (he_b env)) loc) (bp_L (be_prm (he_b env))) ids)
      as [st0 [E0 [GI [_ [_ [H1 [H2 [H3 _]]]]]]]]; auto.
    { apply (bi_L _ Hin). } { intros id. apply (bi_nan _ Hin). }
    rewrite E0 in E1. cbn [bind] in E1. injection E1 as <- <-. apply Keep; auto.
    intros m Hm. apply (HE loc ids Hloc Ei) in Hm. destruct H2 as [H2|H2]; [|apply H2; exact Hm].
    destruct (gi_top _ _ _ _ _ GI) as [Hnp _].
    assert (HL2 : length ids <= length (p_ins (g_pool st0))) by lia.
    exact (NoDup_length_incl Hnp HL2 H1 m Hm).
  - (* TSearch *)
    pose proof (hi_task _ _ HI loc _ Ht) as [[c0 GI] Hsl]. unfold h_task_step in E1.
    destruct (greedy_running s) eqn:Er.
    + destruct (greedy_step_ok (sp_n (be_sp (he_b env))) (sp_pd (be_sp (he_b env)) loc) (passes_filter (sp_labels (be_sp (he_b env))) [])
        (fun _ => true) (bp_L (be_prm (he_b env))) c0 (bs_graph st) s) as [s' [Es [_ Hk]]]; auto.
      { intros id. apply (bi_nan _ Hin). } { apply hinv_graph_ok. exact HI. }
      rewrite Es in E1. cbn [bind] in E1. injection E1 as <- <-. apply Keep; auto.
      intros m Hm. destruct Hk as [K1 K2 K3|x nbrs K1 K2 K3 K4].
      * rewrite K1. apply Hw. exact Hm.
      * apply K4. left. apply Hw. exact Hm.
    + destruct (h_prune env loc s) as [pr| | | |] eqn:Ep; try discriminate. cbn [bind] in E1. injection E1 as <- <-.
      apply Keep; auto. eapply stands_pruned; eauto.
  - (* TLink *)
    destruct Hw as [Lp Hw]. unfold h_task_step, task_step in E1.
    destruct (rd (bs_graph st) loc) as [old| | | |] eqn:Eo; try discriminate. cbn [bind] in E1. apply rd_ok in Eo.
    destruct (wr (bs_graph st) loc (old ++ pruned)) as [g1| | | |] eqn:Wg; try discriminate. cbn [bind] in E1. injection E1 as <- <-.
    assert (Hgr : grows (bs_graph st) g1) by (eapply grows_wr; [exact Eo|apply incl_appl, incl_refl|exact Wg]).
    constructor; cbn [bs_graph bs_tasks]; [exact HI'| |].
    + intros i ti l Hi Hl. rewrite HT in Hi. rewrite (wr_nth_Some _ _ _ _ _ Wg) in Hl.
      destruct (Nat.eq_dec i loc) as [->|]; [|eapply hw_list; eauto].
      injection Hi as <-. injection Hl as <-. split; [|discriminate].
      destruct (hw_list _ _ _ HW loc _ old Ht Eo) as [_ N]. exists old, pruned. split; [apply Permutation_refl|].
      split; [apply N; reflexivity|exact Lp].
    + intros i ti Hi. rewrite HT in Hi. destruct (Nat.eq_dec i loc) as [->|].
      * injection Hi as <-. intros m Hm Hne. destruct (Hw m Hm Hne) as [w [C I]]. exists w. split; [exact C|]. split; [|left; exact I].
        eapply has_edge_wr; [exact Wg|]. apply in_or_app. right. exact I.
      * eapply htask_grows; [exact Hgr|]. eapply hw_task; eauto.
  - (* TRecip *)
    destruct todo as [|des todo]; [discriminate|].
    pose proof (hi_task _ _ HI loc _ Ht) as Hok. cbn [h_task_ok] in Hok. apply wlist_tail in Hok. destruct Hok as [_ [Hd [Hdl _]]].
    unfold h_task_step, task_step in E1. destruct (rd_lt _ (bs_graph st) des) as [pool Ep]; [rewrite (hi_gl _ _ HI); exact Hd|].
    rewrite Ep in E1. cbn [bind] in E1. apply rd_ok in Ep.
    assert (Go : forall g1, grows (bs_graph st) g1 -> has_edge g1 des loc -> htask env E g1 loc (TRecip todo)).
    { intros g1 Hg1 He m Hm Hne. destruct (Hw m Hm Hne) as [w [C [D I]]]. exists w. split; [exact C|].
      split; [eapply has_edge_grows; eauto|]. destruct I as [[<-|I]|I]; auto. right. eapply has_edge_grows; eauto. }
    destruct (set_mem loc pool) eqn:Em.
    + apply set_mem_In in Em. injection E1 as <- <-. apply Keep; auto. apply Go; [apply grows_refl|]. exists pool. auto.
    + apply set_mem_not_In in Em.
      assert (Hlen : 10 * length pool < 13 * bp_R (be_prm (he_b env))).
      { assert (Hlt : des < length (bs_tasks st)) by (rewrite (hi_tl _ _ HI); exact Hd).
        destruct (nth_error (bs_tasks st) des) as [td|] eqn:Etd; [|apply nth_error_None in Etd; lia].
        destruct (hi_list _ _ HI des td pool Etd Ep) as [Hnb _]. destruct (hw_list _ _ _ HW des td pool Etd Ep) as [Hts _].
        pose proof (set_plus_length _ _ des pool Hnb Hts Hd). lia. }
      rewrite (proj2 (Nat.ltb_lt _ _) Hlen) in E1.
      destruct (wr (bs_graph st) des (pool ++ [loc])) as [g1| | | |] eqn:Wg; try discriminate. cbn [bind] in E1. injection E1 as <- <-.
      assert (Hgr : grows (bs_graph st) g1) by (eapply grows_wr; [exact Ep|apply incl_appl, incl_refl|exact Wg]).
      constructor; cbn [bs_graph bs_tasks]; [exact HI'| |].
      * intros i ti l Hi Hl. rewrite HT in Hi. rewrite (wr_nth_Some _ _ _ _ _ Wg) in Hl.
        destruct (Nat.eq_dec i des) as [->|].
        -- destruct (Nat.eq_dec des loc); [congruence|]. injection Hl as <-.
           destruct (hw_list _ _ _ HW des ti pool Hi Ep) as [A B]. split; [apply set_plus_add; auto|].
           intros Hlk. apply NoDup_snoc; auto.
        -- destruct (Nat.eq_dec i loc) as [->|]; [|eapply hw_list; eauto].
           injection Hi as <-. exact (hw_list _ _ _ HW loc _ l Ht Hl).
      * intros i ti Hi. rewrite HT in Hi. destruct (Nat.eq_dec i loc) as [->|].
        -- injection Hi as <-. apply Go; [exact Hgr|]. eapply has_edge_wr; [exact Wg|]. apply in_or_app. right. left. reflexivity.
        -- eapply htask_grows; [exact Hgr|]. eapply hw_task; eauto.
  - destruct Hw.
Qed.

Lemma hwinit : forall env E, hwinv env E (build_init (he_b env)).
Proof.
  intros env E. constructor; [apply h_init_inv| |]; cbn [build_init bs_tasks bs_graph].
  - intros i t l _ H. apply nth_error_In, repeat_spec in H. subst. split; [|intros _; constructor].
    exists [], []. split; [apply Permutation_refl|]. split; [constructor|cbn; lia].
  - intros i t H. apply nth_error_In, repeat_spec in H. subst. exact I.
Qed.

Lemma hwrun : forall env E, henv_ok env -> calm env ->
  (forall loc ids, loc < sp_n (be_sp (he_b env)) -> h_init_ids env loc = Ok ids -> incl E ids) ->
  forall sched st st', hwinv env E st -> (forall i, In i sched -> i < sp_n (be_sp (he_b env))) ->
  h_run env st sched = Ok st' -> hwinv env E st'.
Proof.
  intros env E H Hca HE sched. induction sched as [|i sched IH]; intros st st' HW Hsc Er; cbn [h_run] in Er.
  - injection Er as <-. exact HW.
  - assert (Hi : i < length (bs_tasks st)) by (rewrite (hi_tl _ _ (hw_h _ _ _ HW)); apply Hsc; left; auto).
    destruct (nth_error (bs_tasks st) i) as [t|] eqn:Et; [|apply nth_error_None in Et; lia].
    assert (Hr : forall j, In j sched -> j < sp_n (be_sp (he_b env))) by (intros j Hj; apply Hsc; right; exact Hj).
    destruct (task_done t) eqn:Ed.
    + rewrite (h_step_done env st i t Et Ed) in Er. cbn [bind] in Er. eapply IH; eauto.
    + destruct (hwstep env E st i t H Hca HE HW Et Ed) as [st1 [E1 HW1]]. rewrite E1 in Er. cbn [bind] in Er. eapply IH; eauto.
Qed.

(** In the end every point is linked both ways with a stand-in of each start point. *)
Lemma h_linked : forall env E sched st order g, henv_ok env -> calm env ->
  (forall loc ids, loc < sp_n (be_sp (he_b env)) -> h_init_ids env loc = Ok ids -> incl E ids) ->
  (forall i, In i sched -> i < sp_n (be_sp (he_b env))) -> h_run env (build_init (he_b env)) sched = Ok st -> all_done st = true ->
  Permutation order (seq 0 (sp_n (be_sp (he_b env)))) -> h_cleanup env (bs_graph st) order = Ok g ->
  forall loc m, loc < sp_n (be_sp (he_b env)) -> In m E -> m <> loc -> exists w, stands env loc m w /\ has_edge g loc w /\ has_edge g w loc.
Proof.
  intros env E sched st order g H Hca HE Hsc Hrun Hd Ho Hcl loc m Hloc Hm Hne.
  pose proof (hwrun env E H Hca HE sched _ _ (hwinit env E) Hsc Hrun) as HW. pose proof (hw_h _ _ _ HW) as HI.
  destruct (ca_p _ Hca) as [HL [HR Hal]].
  assert (HB : forall x l, nth_error (bs_graph st) x = Some l ->
    nbrs_ok (sp_n (be_sp (he_b env))) x l /\ length l <= bp_R (be_prm (he_b env))).
  { intros x l Hx. assert (Hlt : x < length (bs_tasks st)).
    { rewrite (hi_tl _ _ HI), <- (hi_gl _ _ HI). apply nth_error_Some. congruence. }
    destruct (nth_error (bs_tasks st) x) as [t|] eqn:Et; [|apply nth_error_None in Et; lia].
    destruct (hi_list _ _ HI x t l Et Hx) as [Hnb _]. destruct (hw_list _ _ _ HW x t l Et Hx) as [Hts _].
    rewrite (hi_tl _ _ HI) in Hlt. pose proof (set_plus_length _ _ x l Hnb Hts Hlt). split; [exact Hnb|lia]. }
  destruct (h_cleanup_ok env H order (bs_graph st)) as [g' [E2 [_ [_ K]]]].
  { split; [apply (hi_gl _ _ HI)|]. intros x l Hx. apply HB. exact Hx. }
  { intros x Hx. apply (Permutation_in _ Ho) in Hx. apply in_seq in Hx. lia. }
  assert (g' = g) by congruence. subst g'.
  assert (Ke : forall x y, has_edge (bs_graph st) x y -> has_edge g x y).
  { intros x y [l [El I]]. exists l. split; [|exact I]. apply K; [exact El|]. apply HB in El. apply El. }
  assert (Hlt : loc < length (bs_tasks st)) by (rewrite (hi_tl _ _ HI); exact Hloc).
  destruct (nth_error (bs_tasks st) loc) as [t|] eqn:Et; [|apply nth_error_None in Et; lia].
  unfold all_done in Hd. rewrite forallb_forall in Hd. specialize (Hd t (nth_error_In _ _ Et)).
  pose proof (hw_task _ _ _ HW loc t Et) as Hw. destruct t as [|s|p|[|d td]|d nw td]; try discriminate.
  destruct (Hw m Hm Hne) as [w [C [D [[]|I]]]]. exists w. auto.
Qed.

Lemma reach_from : forall g x y z, reach (fun _ => true) g (fun v => v = x) y -> reach (fun _ => true) g (fun v => v = y) z ->
  reach (fun _ => true) g (fun v => v = x) z.
Proof.
  intros g x y z R1 R2. induction R2 as [v ->|v w _ IH He]; [exact R1|]. eapply reach_edge; eauto.
Qed.

Lemma reach_one : forall g x y, has_edge g x y -> reach (fun _ => true) g (fun v => v = x) y.
Proof. intros g x y [l [E I]]. eapply reach_edge; [constructor; reflexivity|]. exists l. auto. Qed.

Lemma h_connected : forall env E sched st order g, henv_ok env -> calm env ->
  (forall loc ids, loc < sp_n (be_sp (he_b env)) -> h_init_ids env loc = Ok ids -> incl E ids) -> E <> [] ->
  (forall i, In i sched -> i < sp_n (be_sp (he_b env))) -> h_run env (build_init (he_b env)) sched = Ok st -> all_done st = true ->
  Permutation order (seq 0 (sp_n (be_sp (he_b env)))) -> h_cleanup env (bs_graph st) order = Ok g ->
  forall x y, x < sp_n (be_sp (he_b env)) -> y < sp_n (be_sp (he_b env)) -> reach (fun _ => true) g (fun v => v = x) y.
Proof.
  intros env E sched st order g H Hca HE HEn Hsc Hrun Hd Ho Hcl x y Hx Hy.
  pose proof (h_linked env E sched st order g H Hca HE Hsc Hrun Hd Ho Hcl) as J. pose proof (ca_pd _ Hca) as Hpd.
  destruct E as [|m E]; [congruence|].
  assert (B : forall z, z < sp_n (be_sp (he_b env)) ->
    reach (fun _ => true) g (fun v => v = z) m /\ reach (fun _ => true) g (fun v => v = m) z).
  { intros z. remember (length (nearer (sp_n (be_sp (he_b env))) (fun v => sp_pd (be_sp (he_b env)) v m) z)) as k eqn:Ek. revert z Ek.
    induction k as [k IH] using lt_wf_ind. intros z Ek Hz.
    destruct (Nat.eq_dec m z) as [<-|Hne]; [split; constructor; reflexivity|].
    destruct (J z m Hz (or_introl eq_refl) Hne) as [w [C [D1 D2]]]. apply reach_one in D1. apply reach_one in D2.
    destruct C as [->|[Hwn Hlt]]; [split; assumption|].
    rewrite (ds_sym _ Hpd m w) in Hlt.
    destruct (IH (length (nearer (sp_n (be_sp (he_b env))) (fun v => sp_pd (be_sp (he_b env)) v m) w))) with (z := w) as [R1 R2]; auto.
    { subst k. apply (nearer_lt (sp_n (be_sp (he_b env))) (fun v => sp_pd (be_sp (he_b env)) v m)); auto. }
    split; eapply reach_from; eauto. }
  eapply reach_from; [apply (B x Hx)|apply (B y Hy)].
Qed.

(** ** Whole builds *)
Definition all_connected (levels : hnsw) : Prop :=
  forall ix x y, In ix levels -> x < ix_n ix -> y < ix_n ix -> reach (fun _ => true) (ix_graph ix) (fun v => v = x) y.

Lemma patient_le : forall n m prm, m <= n -> patient n prm -> patient m prm.
Proof. intros n m prm H [A [B C]]. split; [lia|]. split; [lia|exact C]. Qed.

Lemma sample_le : forall n l, (forall i, In i l -> i < n) -> StronglySorted lt l -> length l <= n.
Proof.
  intros n l H S. apply NoDup_lt_length; [|exact H]. clear H. induction S as [|a l S IH F]; constructor; auto.
  intros I. rewrite Forall_forall in F. specialize (F a I). lia.
Qed.

Lemma diss_sub : forall sp s, dissimilarity (sp_pd sp) -> dissimilarity (sp_pd (sub_space sp s)).
Proof. intros sp s H. constructor; intros; cbn [sub_space sp_pd]; apply H. Qed.

Lemma hnsw_patient_connected : forall sortf prm cs sp tags levels, hinput_ok sortf prm sp tags cs ->
  patient (sp_n sp) prm -> dissimilarity (sp_pd sp) -> hnsw_build sortf prm sp tags cs = Ok levels -> all_connected levels.
Proof.
  intros sortf prm cs. induction cs as [|c rest IH]; intros sp tags levels H0 Hp Hpd Hb; [discriminate|].
  destruct H0 as [Hs HL Hnan Hf Ht Hcs].
  cbn [choices_ok] in Hcs. destruct Hcs as [Hn [Hc1 [Hc2 [Hc3 [Hc4 Hrest]]]]]. cbn [hnsw_build] in Hb.
  destruct (match rest with [] => Ok [] | _ :: _ => hnsw_build sortf prm (sub_space sp (hc_sample c)) (hc_sample c) rest end)
    as [inner| | | |] eqn:Ei; try discriminate. cbn [bind] in Hb.
  assert (Hin : (inner = [] \/ (levels_ok inner /\ exists inn r, inner = inn :: r /\ ix_tags inn = hc_sample c /\ ix_n inn = length (hc_sample c) /\
      10 <= length (hc_sample c) /\ length (hc_sample c) <= sp_n sp /\ (forall i, In i (hc_sample c) -> i < sp_n sp))) /\ all_connected inner).
  { destruct rest as [|c' rest'] eqn:Er.
    - injection Ei as <-. split; [left; reflexivity|]. intros ix x y [].
    - destruct Hrest as [Hr1 [Hr2 Hr3]]. rewrite <- Er in *.
      assert (Hle : length (hc_sample c) <= sp_n sp) by (apply sample_le; auto).
      assert (Ho : hinput_ok sortf prm (sub_space sp (hc_sample c)) (hc_sample c) rest).
      { constructor; auto. intros a b. apply Hnan. }
      split.
      + right. destruct (hnsw_build_ok _ _ _ _ _ Ho) as [[lv [E' [Hlv [_ Hbf]]]]|E']; [|congruence].
        assert (lv = inner) by congruence. subst lv. split; [exact Hlv|]. destruct inner as [|inn r]; [destruct Hlv|].
        exists inn, r. split; [reflexivity|]. subst rest. cbn [built_from] in Hbf. destruct Hbf as [B1 [B2 _]].
        cbn [choices_ok] in Hr3. destruct Hr3 as [B3 _]. auto.
      + apply (IH (sub_space sp (hc_sample c)) (hc_sample c)); auto.
        * eapply patient_le; [|exact Hp]. exact Hle.
        * apply diss_sub. exact Hpd. }
  destruct Hin as [Hin Hcon].
  destruct (level_ok sortf prm sp tags c inner) as [s [Es [Hs1 [Hfm Henv]]]]; auto.
  { destruct Hin as [->|[Hlv [inn [r [-> [B1 [_ [_ [_ B5]]]]]]]]]; [exact I|]. split; [exact Hlv|]. rewrite B1. exact B5. }
  rewrite Es in Hb. cbn [bind he_b] in Hb.
  set (env := mkH (mkEnv sortf sp prm s []) inner) in *.
  change (mkEnv sortf sp prm s []) with (he_b env) in Hb.
  destruct (h_run env (build_init (he_b env)) (hc_sched c)) as [st| | | |] eqn:Er; try discriminate. cbn [bind] in Hb.
  destruct (all_done st) eqn:Ed; [|discriminate].
  destruct (h_cleanup env (bs_graph st) (hc_order c)) as [g| | | |] eqn:Eg; try discriminate. cbn [bind] in Hb. injection Hb as <-.
  assert (Hca : calm env) by (constructor; assumption).
  assert (HE : exists E, E <> [] /\ forall loc ids, loc < sp_n (be_sp (he_b env)) -> h_init_ids env loc = Ok ids -> incl E ids).
  { destruct Hin as [->|[Hlv [inn [r [-> [B1 [B2 [B3 [B4 B5]]]]]]]]].
    - exists [s]. split; [discriminate|]. intros loc ids _ E0. unfold h_init_ids in E0. cbn in E0. injection E0 as <-. apply incl_refl.
    - exists (hc_sample c). split; [intros C; rewrite C in B3; cbn in B3; lia|]. intros loc ids Hloc E0.
      unfold h_init_ids in E0. cbn [env he_inner he_b be_prm be_sort be_sp] in E0.
      destruct Hp as [PL _].
      destruct (hnsw_wide_exact sortf inn r (inner_dist inn (sp_pd sp loc)) (bp_L prm) (bp_L prm) [] (repeat 0 (bp_L prm)) (repeat f32_zero (bp_L prm)))
        as [is [ind [dst [E1 [R [all [N [A T]]]]]]]]; auto.
      { intros id. apply Hnan. } { intros x y. apply Hcon. left. reflexivity. } { lia. } { rewrite repeat_length. lia. } { rewrite repeat_length. lia. }
      rewrite E1 in E0. cbn [bind] in E0. injection E0 as <-. intros m Hm. rewrite <- B1 in Hm. apply In_nth_error in Hm. destruct Hm as [i Hi].
      assert (Hin : i < ix_n inn) by (rewrite B2, <- B1; apply nth_error_Some; congruence).
      apply A in Hin. assert (I : In i is).
      { destruct T as [rst [P [Lt _]]]. unfold score in *. rewrite !map_length in Lt.
        assert (Hal : length all <= ix_n inn) by (apply NoDup_lt_length; [exact N|]; intros z Hz; apply A; exact Hz).
        apply Permutation_length in P as PLen. rewrite app_length, !map_length in PLen.
        assert (Rn : rst = []) by (destruct rst; [reflexivity|cbn in PLen; lia]). subst rst. rewrite app_nil_r in P.
        pose proof (Permutation_map fst P) as Q. rewrite !map_map in Q. cbn [fst] in Q. rewrite !map_id in Q.
        exact (Permutation_in _ Q Hin). }
      destruct R as [_ [_ [_ R4]]]. apply In_nth_error in I. destruct I as [j Hj]. destruct (R4 j i Hj) as [R5 _].
      apply (nth_error_In _ j). rewrite firstn_nth_error by (apply nth_error_Some; congruence). congruence. }
  destruct HE as [E [HEn HE]].
  intros ix x y [<-|Hix] Hx Hy; [|eapply Hcon; eauto]. cbn [ix_graph ix_n] in *.
  exact (h_connected env E (hc_sched c) st (hc_order c) g Henv Hca HE HEn Hc3 Er Ed Hc4 Eg x y Hx Hy).
Qed.

(** A search whose list has room for all points is exact. *)
Lemma hnsw_patient_exact : forall sortf prm cs sp tags levels dist L k filters indices distances,
  hinput_ok sortf prm sp tags cs -> patient (sp_n sp) prm -> dissimilarity (sp_pd sp) -> hnsw_build sortf prm sp tags cs = Ok levels ->
  (forall id, is_nan (dist id) = false) -> sp_n sp <= L -> k <= L -> k <= length indices -> k <= length distances ->
  exists ids indices' distances',
    hnsw_search sortf levels dist L k filters indices distances = Ok (indices', distances', length ids) /\
    reports (sp_n sp) tags dist indices' distances' ids /\ nearest_among k (fun x => x < sp_n sp) dist ids.
Proof.
  intros sortf prm cs sp tags levels dist L k fs ind dst Ho Hp Hpd Hb Hnan HL Hk Hi Hd.
  pose proof (hnsw_patient_connected _ _ _ _ _ _ Ho Hp Hpd Hb) as Hc.
  destruct (hnsw_build_ok _ _ _ _ _ Ho) as [[lv [E' [Hlv [_ Hbf]]]]|E']; [|congruence].
  assert (lv = levels) by congruence. subst lv. destruct levels as [|ix inner]; [destruct Hlv|].
  destruct cs as [|c rest]; [destruct Hbf|]. cbn [built_from] in Hbf. destruct Hbf as [B1 [B2 _]].
  rewrite <- B1, <- B2. apply hnsw_wide_exact; auto; [apply (ho_sort _ _ _ _ _ Ho)| |lia].
  intros x y. apply Hc. left. reflexivity.
Qed.

Lemma hnsw_patient_strong : forall sortf prm cs sp tags levels ix, hinput_ok sortf prm sp tags cs ->
  patient (sp_n sp) prm -> dissimilarity (sp_pd sp) -> hnsw_build sortf prm sp tags cs = Ok levels ->
  In ix levels -> strongly_connected (ix_n ix) (ix_graph ix).
Proof.
  intros sortf prm cs sp tags levels ix Ho Hp Hpd Hb Hix x y Hx Hy. apply reach_walk.
  exact (hnsw_patient_connected _ _ _ _ _ _ Ho Hp Hpd Hb ix x y Hix Hx Hy).
Qed.

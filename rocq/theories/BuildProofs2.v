(** * Consequences for the whole build. *)
From Coq Require Import String List Arith Lia Bool Sorting.Sorted Sorting.Permutation.
From Verif Require Import Base Float32 PoolModel TopKSpec SortSpec GraphSpec GreedyModel SearchModel PruneModel PruneSpec
  BuildModel BuildSpec ListLemmas FilterProofs PoolProofs PoolProofs2 GreedyProofs SearchProofs PruneProofs BuildProofs.
Import ListNotations.

Lemma binv_lists : forall env st x l, binv env st -> nth_error (bs_graph st) x = Some l ->
  nbrs_ok (sp_n (be_sp env)) x l /\ length l <= slack (bp_R (be_prm env)) + bp_R (be_prm env).
Proof.
  intros env st x l H Hx.
  assert (Hlt : x < length (bs_tasks st)).
  { rewrite (bv_tl _ _ H), <- (bv_gl _ _ H). apply nth_error_Some. congruence. }
  destruct (nth_error (bs_tasks st) x) as [t|] eqn:Et; [|apply nth_error_None in Et; lia].
  destruct (bv_list _ _ H x t l Et Hx) as [A B]. split; auto. destruct (task_linked t); lia.
Qed.

(** During the build. *)
Lemma build_always : forall env sched, sorts (be_sort env) -> build_input_ok env ->
  (forall i, In i sched -> i < sp_n (be_sp env)) ->
  exists st, build_run env (build_init env) sched = Ok st /\ length (bs_graph st) = sp_n (be_sp env) /\
    forall x l, nth_error (bs_graph st) x = Some l ->
      (forall y, In y l -> y < sp_n (be_sp env) /\ y <> x) /\
      length l <= slack (bp_R (be_prm env)) + bp_R (be_prm env).
Proof.
  intros env sched Hs Hin Hsc.
  destruct (build_run_ok env Hs Hin sched (build_init env) (build_init_inv env) Hsc) as [st [E [HI _]]].
  exists st. split; [auto|]. split; [apply (bv_gl _ _ HI)|]. intros x l Hx.
  apply (binv_lists env st); auto.
Qed.

(** ** Cleanup *)
Definition lists_ok (env : benv) (g : graph) : Prop :=
  length g = sp_n (be_sp env) /\ forall x l, nth_error g x = Some l -> nbrs_ok (sp_n (be_sp env)) x l.

Lemma cleanup_node_ok : forall env g x, sorts (be_sort env) -> build_input_ok env -> lists_ok env g ->
  x < sp_n (be_sp env) ->
  exists g', cleanup_node env g x = Ok g' /\ lists_ok env g' /\
    (forall y, y <> x -> nth_error g' y = nth_error g y) /\
    (forall l, nth_error g' x = Some l -> length l <= bp_R (be_prm env)) /\
    (forall l, nth_error g x = Some l -> length l <= bp_R (be_prm env) -> g' = g) /\
    (forall l l', nth_error g x = Some l -> nth_error g' x = Some l' -> forall y, In y l' -> In y l).
Proof.
  intros env g x Hs Hin [Hl Hg] Hx. unfold cleanup_node.
  destruct (rd_lt _ g x) as [nbrs E]; [lia|]. rewrite E. cbn [bind]. apply rd_ok in E.
  destruct (bp_R (be_prm env) <? length nbrs) eqn:Er.
  - apply Nat.ltb_lt in Er.
    destruct (dummy_pool_ok (be_sp env) x nbrs []) as [p [Ep [N [I D]]]]; auto.
    { intros y Hy. apply (Hg x nbrs E). auto. }
    rewrite Ep. cbn [bind].
    destruct (prune_alpha_plist (be_sort env) (be_sp env) (be_prm env) x p) as [out [E2 [PL Sub]]]; auto.
    { split; [|apply (bi_lab env Hin)]. intros z Hz. split.
      - apply (Hg x nbrs E). apply (I (nid z)). apply in_map. auto.
      - rewrite D by auto. apply (bi_nan env Hin). }
    rewrite E2. cbn [bind]. destruct (wr_nth _ g x out) as [g' [W [L N']]]; [lia|]. rewrite W.
    exists g'. split; [auto|]. split; [split; [lia|]|split; [|split; [|split]]].
    + intros y l Hy. rewrite N' in Hy. destruct (Nat.eq_dec y x) as [->|Hne]; [|eauto].
      inversion Hy. subst. apply PL.
    + intros y Hne. rewrite N'. destruct (Nat.eq_dec y x); congruence.
    + intros l Hl'. rewrite N' in Hl'. destruct (Nat.eq_dec x x); [|congruence]. inversion Hl'. subst. apply PL.
    + intros l Hl' Hle. assert (l = nbrs) by congruence. subst. lia.
    + intros l l' Hl1 Hl2 y Hy. rewrite N' in Hl2. destruct (Nat.eq_dec x x); [|congruence].
      assert (l' = out) by congruence. assert (l = nbrs) by congruence. subst. apply (I y). auto.
  - apply Nat.ltb_ge in Er. exists g. split; [auto|]. split; [split; auto|]. split; [auto|]. split; [|split; [auto|]].
    + intros l Hl'. assert (l = nbrs) by congruence. subst. auto.
    + intros l l' H1 H2 y Hy. congruence.
Qed.

Lemma cleanup_ok : forall env, sorts (be_sort env) -> build_input_ok env ->
  forall nodes g, lists_ok env g -> (forall x, In x nodes -> x < sp_n (be_sp env)) ->
  exists g', cleanup env g nodes = Ok g' /\ lists_ok env g' /\
    (forall x l, In x nodes -> nth_error g' x = Some l -> length l <= bp_R (be_prm env)) /\
    (forall x l, nth_error g x = Some l -> length l <= bp_R (be_prm env) -> nth_error g' x = Some l) /\
    (forall x l l', nth_error g x = Some l -> nth_error g' x = Some l' -> forall y, In y l' -> In y l).
Proof.
  intros env Hs Hin nodes. induction nodes as [|x nodes IH]; intros g Hg Hn; cbn [cleanup].
  - exists g. split; [auto|]. split; [auto|]. split; [intros x l []|]. split; [auto|].
    intros x l l' H1 H2. congruence.
  - destruct (cleanup_node_ok env g x Hs Hin Hg) as [g1 [E1 [Hg1 [O1 [D1 [K1 S1]]]]]]; [apply Hn; left; auto|].
    rewrite E1. cbn [bind]. destruct (IH g1 Hg1) as [g2 [E2 [Hg2 [D2 [K2 S2]]]]]; [intros y Hy; apply Hn; right; auto|].
    exists g2. split; [auto|]. split; [auto|]. split; [|split].
    + intros y l [<-|Hy] Hl; [|eapply D2; eauto].
      assert (Hx1 : x < length g1) by (destruct Hg1 as [-> _]; apply Hn; left; auto).
      destruct (nth_error g1 x) as [l1|] eqn:El1; [|apply nth_error_None in El1; lia].
      pose proof (K2 x l1 El1 (D1 l1 eq_refl)) as H2. assert (l = l1) by congruence. subst. apply D1. auto.
    + intros y l Hl Hle. apply K2; auto. destruct (Nat.eq_dec y x) as [->|Hne].
      * rewrite (K1 l) by auto. auto.
      * rewrite O1; auto.
    + intros y l l' H1 H2 z Hz.
      assert (Hy1 : y < length g1).
      { destruct Hg1 as [-> _]. destruct Hg as [Hgl _]. rewrite <- Hgl. apply nth_error_Some. congruence. }
      destruct (nth_error g1 y) as [l1|] eqn:El1; [|apply nth_error_None in El1; lia].
      apply (S2 y l1 l' El1 H2) in Hz. destruct (Nat.eq_dec y x) as [->|Hne].
      * eapply S1; eauto.
      * rewrite O1 in El1 by auto. congruence.
Qed.

Lemma build_final : forall env sched st order, sorts (be_sort env) -> build_input_ok env ->
  (forall i, In i sched -> i < sp_n (be_sp env)) ->
  build_run env (build_init env) sched = Ok st ->
  Permutation order (seq 0 (sp_n (be_sp env))) ->
  exists g, cleanup env (bs_graph st) order = Ok g /\ length g = sp_n (be_sp env) /\
    forall x l, nth_error g x = Some l ->
      (forall y, In y l -> y < sp_n (be_sp env) /\ y <> x) /\ length l <= bp_R (be_prm env).
Proof.
  intros env sched st order Hs Hin Hsc Hrun Hp.
  destruct (build_run_ok env Hs Hin sched (build_init env) (build_init_inv env) Hsc) as [st' [E [HI _]]].
  assert (st' = st) by congruence. subst st'.
  destruct (cleanup_ok env Hs Hin order (bs_graph st)) as [g [E2 [[Hgl Hg] [D _]]]].
  - split; [apply (bv_gl _ _ HI)|]. intros x l Hx. apply (binv_lists env st); auto.
  - intros x Hx. apply (Permutation_in _ Hp) in Hx. apply in_seq in Hx. lia.
  - exists g. split; [auto|]. split; [auto|]. intros x l Hx. split; [apply (Hg x l Hx)|].
    apply (D x l); auto. apply (Permutation_in _ (Permutation_sym Hp)). apply in_seq.
    assert (x < length g) by (apply nth_error_Some; congruence). lia.
Qed.

(** ** Termination *)
Lemma busy_bound : forall env, sorts (be_sort env) -> build_input_ok env ->
  forall sched st, binv env st -> busy env st sched -> length sched <= tmeasure env (bs_tasks st).
Proof.
  intros env Hs Hin sched. induction sched as [|i sched IH]; intros st HI Hb; [cbn; lia|].
  cbn [busy] in Hb. destruct Hb as [[t [Et Ed]] Hb].
  destruct (build_step_ok env st i t Hs Hin HI Et Ed) as [g' [t' [ts' [_ [_ [E [HI' [Hm _]]]]]]]].
  specialize (Hb _ E). specialize (IH _ HI' Hb). cbn [bs_tasks] in IH. cbn [length]. lia.
Qed.

Lemma tmeasure_repeat : forall env m t, tmeasure env (repeat t m) = m * task_measure env t.
Proof. intros env m t. induction m as [|m IH]; [reflexivity|]. cbn [repeat]. unfold tmeasure in *. cbn. lia. Qed.

Lemma build_terminates : forall env sched, sorts (be_sort env) -> build_input_ok env ->
  busy env (build_init env) sched ->
  length sched <= sp_n (be_sp env) *
    ((sp_n (be_sp env) + 1) * (bp_L (be_prm env) + 1) + 2 * bp_R (be_prm env) + 3).
Proof.
  intros env sched Hs Hin Hb. pose proof (busy_bound env Hs Hin sched _ (build_init_inv env) Hb) as H.
  cbn [build_init bs_tasks] in H. rewrite tmeasure_repeat in H. exact H.
Qed.

Lemma not_all_done : forall st, all_done st = false ->
  exists i t, nth_error (bs_tasks st) i = Some t /\ task_done t = false.
Proof.
  intros [g ts]. unfold all_done. cbn [bs_tasks]. induction ts as [|t ts IH]; [discriminate|].
  cbn [forallb]. intros H. destruct (task_done t) eqn:E.
  - destruct (IH H) as [i [t' [H1 H2]]]. exists (S i), t'. auto.
  - exists 0, t. auto.
Qed.

(** From every reachable state the build can be completed. *)
Lemma build_completes : forall env, sorts (be_sort env) -> build_input_ok env ->
  forall m st, binv env st -> tmeasure env (bs_tasks st) <= m ->
  exists sched st', (forall i, In i sched -> i < sp_n (be_sp env)) /\
    busy env st sched /\ build_run env st sched = Ok st' /\ all_done st' = true.
Proof.
  intros env Hs Hin m. induction m as [|m IH]; intros st HI Hm.
  - destruct (all_done st) eqn:Ed.
    + exists [], st. cbn. repeat split; auto. intros i [].
    + destruct (not_all_done _ Ed) as [i [t [Et Ed']]].
      destruct (build_step_ok env st i t Hs Hin HI Et Ed') as [g' [t' [ts' [_ [_ [E [HI' [Hm' _]]]]]]]]. lia.
  - destruct (all_done st) eqn:Ed.
    + exists [], st. cbn. repeat split; auto. intros i [].
    + destruct (not_all_done _ Ed) as [i [t [Et Ed']]].
      destruct (build_step_ok env st i t Hs Hin HI Et Ed') as [g' [t' [ts' [_ [_ [E [HI' [Hm' _]]]]]]]].
      destruct (IH (mkBS g' ts') HI') as [sched [st' [S1 [S2 [S3 S4]]]]]; [cbn [bs_tasks]; lia|].
      exists (i :: sched), st'. split; [|split; [|split; auto]].
      * intros j [<-|Hj]; auto. rewrite <- (bv_tl _ _ HI). apply nth_error_Some. congruence.
      * cbn [busy]. split; [eauto|]. intros st2 E2. rewrite E in E2. inversion E2. subst. auto.
      * cbn [build_run]. rewrite E. cbn [bind]. auto.
Qed.

Definition linked_at (st : bstate) (loc : nat) : nat :=
  match nth_error (bs_tasks st) loc with Some t => if task_linked t then 1 else 0 | None => 0 end.

Lemma task_linked_step : forall env loc g t g' t', task_step env loc g t = Ok (g', t') ->
  (if task_linked t' then 1 else 0) = (if task_linked t then 1 else 0) + (match t with TLink _ => 1 | _ => 0 end).
Proof.
  intros env loc g t g' t' H. destruct t as [|st|pr|[|d td]|d nw td]; unfold task_step in H.
  - destruct (sp_n (be_sp env) / 10 =? 0); [discriminate|].
    apply bind_ok in H. destruct H as [fs [_ H]]. apply bind_ok in H. destruct H as [s0 [_ H]]. inversion H. reflexivity.
  - apply bind_ok in H. destruct H as [fs [_ H]]. destruct (greedy_running st);
    apply bind_ok in H; destruct H as [s0 [_ H]]; inversion H; reflexivity.
  - apply bind_ok in H. destruct H as [fs [_ H]]. apply bind_ok in H. destruct H as [s0 [_ H]]. inversion H. reflexivity.
  - inversion H. reflexivity.
  - apply bind_ok in H. destruct H as [pool [_ H]]. destruct (set_mem loc pool); [inversion H; reflexivity|].
    destruct (10 * length pool <? 13 * bp_R (be_prm env));
    apply bind_ok in H; destruct H as [s0 [_ H]]; inversion H; reflexivity.
  - apply bind_ok in H. destruct H as [s0 [_ H]]. inversion H. reflexivity.
Qed.

Lemma links_count : forall env loc sched st st', build_run env st sched = Ok st' ->
  loc < length (bs_tasks st) ->
  linked_at st' loc = linked_at st loc + links env st sched loc.
Proof.
  intros env loc sched. induction sched as [|i sched IH]; intros st st' H Hl; cbn [build_run links] in *.
  - inversion H. subst. lia.
  - apply bind_ok in H. destruct H as [st1 [E H]]. rewrite E.
    unfold build_step in E. apply bind_ok in E. destruct E as [t [Et E]]. apply rd_ok in Et. rewrite Et.
    apply bind_ok in E. destruct E as [[g' t'] [Es E]]. apply bind_ok in E. destruct E as [ts [W E]].
    inversion E; subst st1. clear E.
    pose proof (wr_length _ _ _ _ _ W) as HL.
    rewrite (IH (mkBS g' ts) st' H) by (cbn [bs_tasks]; lia).
    pose proof (task_linked_step _ _ _ _ _ _ Es) as Hk.
    unfold linked_at. cbn [bs_tasks]. rewrite (wr_nth_Some _ _ _ _ _ W).
    destruct (Nat.eq_dec loc i) as [->|Hne].
    + rewrite Et, Hk, Nat.eqb_refl. destruct t; lia.
    + destruct (i =? loc) eqn:Ei; [apply Nat.eqb_eq in Ei; congruence|]. destruct t; lia.
Qed.

Lemma links_once : forall env sched st, sorts (be_sort env) -> build_input_ok env ->
  (forall i, In i sched -> i < sp_n (be_sp env)) ->
  build_run env (build_init env) sched = Ok st -> all_done st = true ->
  forall loc, loc < sp_n (be_sp env) -> links env (build_init env) sched loc = 1.
Proof.
  intros env sched st Hs Hin Hsc Hrun Hd loc Hl.
  destruct (build_run_ok env Hs Hin sched (build_init env) (build_init_inv env) Hsc) as [st' [E [HI _]]].
  assert (st' = st) by congruence. subst st'.
  pose proof (links_count env loc sched _ _ Hrun) as H. cbn [build_init bs_tasks] in H.
  rewrite repeat_length in H. specialize (H Hl).
  assert (H0 : linked_at (build_init env) loc = 0).
  { unfold linked_at. cbn [build_init bs_tasks]. destruct (nth_error (repeat TStart (sp_n (be_sp env))) loc) eqn:Er; auto.
    apply nth_error_In in Er. apply repeat_spec in Er. subst. reflexivity. }
  assert (H1 : linked_at st loc = 1).
  { unfold linked_at. destruct (nth_error (bs_tasks st) loc) as [t|] eqn:Et.
    - unfold all_done in Hd. rewrite forallb_forall in Hd. specialize (Hd t (nth_error_In _ _ Et)).
      destruct t as [| | |[|]|]; try discriminate. reflexivity.
    - apply nth_error_None in Et. rewrite (bv_tl _ _ HI) in Et. lia. }
  lia.
Qed.

(** ** Small data sets *)
Lemma small_build : forall env loc sched, 1 <= sp_n (be_sp env) < 10 -> loc < sp_n (be_sp env) ->
  build_run env (build_init env) (loc :: sched) = UB.
Proof.
  intros env loc sched Hn Hl. cbn [build_run]. unfold build_step. cbn [build_init bs_tasks bs_graph].
  unfold rd at 1. rewrite nth_error_repeat by auto. cbn [bind]. unfold task_step.
  rewrite (Nat.div_small (sp_n (be_sp env)) 10) by lia. reflexivity.
Qed.

(** ** No duplicates after pruning *)
Lemma pruned_nodup : forall sortf sp prm point cands, sorts sortf -> prune_input_ok sp cands ->
  NoDup (map nid cands) ->
  (exists out, prune_alpha sortf sp prm point cands [] = Ok out /\ NoDup out) /\
  (exists out, prune_topk sortf prm point cands [] = Ok out /\ NoDup out).
Proof.
  intros sortf sp prm point cands Hs Hin Hnd. split.
  - destruct (prune_alpha_plist sortf sp prm point cands Hs Hin Hnd) as [out [E [[_ [_ N]] _]]]. eauto.
  - destruct (prune_topk_plist sortf (sp_n sp) prm point cands Hs) as [out [E [[_ [_ N]] _]]]; eauto. apply Hin.
Qed.

Lemma reprune_nodup : forall env des nbrs, sorts (be_sort env) -> build_input_ok env ->
  des < sp_n (be_sp env) -> (forall y, In y nbrs -> y < sp_n (be_sp env)) ->
  exists new, reprune env des nbrs = Ok new /\ NoDup new /\ ~ In des new /\ length new <= bp_R (be_prm env) /\
    forall y, In y new -> In y nbrs.
Proof.
  intros env des nbrs Hs Hin Hd Hn.
  destruct (reprune_ok env des nbrs Hs Hin Hd Hn) as [p [new [_ [_ [_ [_ [E [[P1 [P2 P3]] Sub]]]]]]]].
  exists new. split; [auto|]. split; [auto|]. split; [|auto]. intros C. destruct (P1 des C). congruence.
Qed.

Lemma build_edges_always : forall env sched, sorts (be_sort env) -> build_input_ok env ->
  (forall i, In i sched -> i < sp_n (be_sp env)) ->
  exists st, build_run env (build_init env) sched = Ok st /\ length (bs_graph st) = sp_n (be_sp env) /\
    forall x l y, nth_error (bs_graph st) x = Some l -> In y l -> y < sp_n (be_sp env) /\ y <> x.
Proof.
  intros env sched Hs Hin Hsc. destruct (build_always env sched Hs Hin Hsc) as [st [E [L H]]].
  exists st. split; [auto|]. split; [auto|]. intros x l y Hx Hy. apply (H x l Hx). auto.
Qed.

Lemma build_degree_always : forall env sched, sorts (be_sort env) -> build_input_ok env ->
  (forall i, In i sched -> i < sp_n (be_sp env)) ->
  exists st, build_run env (build_init env) sched = Ok st /\
    forall x l, nth_error (bs_graph st) x = Some l ->
      length l <= slack (bp_R (be_prm env)) + bp_R (be_prm env).
Proof.
  intros env sched Hs Hin Hsc. destruct (build_always env sched Hs Hin Hsc) as [st [E [L H]]].
  exists st. split; [auto|]. intros x l Hx. apply (H x l Hx).
Qed.

Lemma build_completes_run : forall env sched st, sorts (be_sort env) -> build_input_ok env ->
  (forall i, In i sched -> i < sp_n (be_sp env)) -> build_run env (build_init env) sched = Ok st ->
  exists sched' st', (forall i, In i sched' -> i < sp_n (be_sp env)) /\
    busy env st sched' /\ build_run env st sched' = Ok st' /\ all_done st' = true.
Proof.
  intros env sched st Hs Hin Hsc Hrun.
  destruct (build_run_ok env Hs Hin sched (build_init env) (build_init_inv env) Hsc) as [st' [E [HI _]]].
  assert (st' = st) by congruence. subst. eapply build_completes; eauto.
Qed.

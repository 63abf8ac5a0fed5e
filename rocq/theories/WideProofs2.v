(** * Vamana builds whose degree bound is never reached: every point is reachable. *)
From Coq Require Import ZArith String List Arith Lia Bool Sorting.Sorted Sorting.Permutation.
From Verif Require Import Base Float32 Float32Facts PoolModel TopKSpec SortSpec GraphSpec FilterSpec GreedyModel SearchSpec SearchModel
  PruneModel PruneSpec BuildModel BuildSpec ListLemmas FilterProofs PoolProofs PoolProofs2 GreedyProofs SearchProofs AcceptProofs PruneProofs
  BuildProofs BuildProofs2 EntryModel EntrySpec EntryProofs VamanaModel VamanaProofs WideSpec WideProofs.
Import ListNotations.

(** ** Edges are only added *)
Definition grows (g g' : graph) : Prop :=
  forall x l, nth_error g x = Some l -> exists l', nth_error g' x = Some l' /\ incl l l'.

Lemma grows_refl : forall g, grows g g.
Proof. intros g x l H. exists l. split; [exact H|apply incl_refl]. Qed.

Lemma grows_wr : forall g x old new g', nth_error g x = Some old -> incl old new -> wr g x new = Ok g' -> grows g g'.
Proof.
  intros g x old new g' Ho Hi W y l Hy. rewrite (wr_nth_Some _ _ _ _ _ W). destruct (Nat.eq_dec y x) as [->|].
  - exists new. split; [reflexivity|]. assert (l = old) by congruence. subst. exact Hi.
  - exists l. split; [exact Hy|apply incl_refl].
Qed.

Lemma reach_grows : forall acc g g' S x, grows g g' -> reach acc g S x -> reach acc g' S x.
Proof.
  intros acc g g' S x Hg R. induction R as [x Hx|x y R IH [l [E [I A]]]]; [constructor; exact Hx|].
  destruct (Hg x l E) as [l' [E' I']]. eapply reach_edge; [exact IH|]. exists l'. auto.
Qed.

(** ** Lists made of two lists without repetitions *)
Definition two_sets (l : list nat) : Prop := exists a b, Permutation l (a ++ b) /\ NoDup a /\ NoDup b.

Lemma two_sets_length : forall n x l, nbrs_ok n x l -> two_sets l -> x < n -> length l <= 2 * (n - 1).
Proof.
  intros n x l Hn [a [b [P [Na Nb]]]] Hx.
  assert (A : forall c, NoDup c -> (forall y, In y c -> In y l) -> length c <= n - 1).
  { intros c Nc Hc. assert (S (length c) <= n); [|lia]. change (length (x :: c) <= n). rewrite <- (seq_length n 0).
    apply NoDup_incl_length.
    - constructor; [|exact Nc]. intros I. apply Hc, Hn in I. lia.
    - intros y [<-|Hy]; apply in_seq; [lia|]. apply Hc, Hn in Hy. lia. }
  assert (Ha : length a <= n - 1).
  { apply A; [exact Na|]. intros y Hy. apply (Permutation_in _ (Permutation_sym P)). apply in_or_app. auto. }
  assert (Hb : length b <= n - 1).
  { apply A; [exact Nb|]. intros y Hy. apply (Permutation_in _ (Permutation_sym P)). apply in_or_app. auto. }
  rewrite (Permutation_length P), app_length. lia.
Qed.

Lemma two_sets_one : forall l, NoDup l -> two_sets l.
Proof. intros l N. exists l, []. split; [rewrite app_nil_r; apply Permutation_refl|]. split; [exact N|constructor]. Qed.

Lemma two_sets_add : forall l y, ~ In y l -> two_sets l -> two_sets (l ++ [y]).
Proof.
  intros l y Hy [a [b [P [Na Nb]]]]. exists (y :: a), b. split; [|split; [|exact Nb]].
  - rewrite <- Permutation_cons_append. cbn. constructor. exact P.
  - constructor; [|exact Na]. intros I. apply Hy. apply (Permutation_in _ (Permutation_sym P)). apply in_or_app. auto.
Qed.

Lemma NoDup_snoc : forall (l : list nat) y, NoDup l -> ~ In y l -> NoDup (l ++ [y]).
Proof.
  intros l y N H. apply (Permutation_NoDup (l := y :: l)); [apply Permutation_cons_append|]. constructor; auto.
Qed.

(** ** Filters and start points of a location *)
Definition own_filters (env : benv) (loc : nat) : list label :=
  match task_filters env loc with Ok fs => fs | _ => [] end.
Definition own_acc (env : benv) (loc : nat) : nat -> bool := acc_of (sp_labels (be_sp env)) (own_filters env loc).
Definition own_starts (env : benv) (loc : nat) : nat -> Prop := fun x => In x (task_init_ids env (own_filters env loc)).
Definition joined (env : benv) (g : graph) (loc x : nat) : Prop := reach (own_acc env loc) g (own_starts env loc) x.

Lemma string_compare_self : forall f, String.compare f f = Eq.
Proof.
  induction f as [|c f IH]; cbn; [reflexivity|]. unfold Ascii.compare. rewrite N.compare_refl. exact IH.
Qed.

Lemma own_accepts : forall env loc, build_input_ok env -> loc < sp_n (be_sp env) -> own_acc env loc loc = true.
Proof.
  intros env loc Hin Hl. unfold own_acc, own_filters, task_filters.
  destruct (sp_filtered (be_sp env)) eqn:E; [|reflexivity].
  pose proof (bi_lab env Hin E) as HL. destruct (rd_lt _ (pts_to_labels (sp_labels (be_sp env))) loc) as [fs Ef]; [lia|].
  rewrite Ef. unfold acc_of, passes_filter. destruct fs as [|f fs]; [reflexivity|]. rewrite Ef. cbn [bind].
  assert (C : exists r, set_intersection (f :: fs) (f :: fs) = f :: r).
  { cbn [set_intersection]. rewrite string_compare_self. eexists. reflexivity. }
  destruct C as [r ->]. destruct (use_universal_label _ && _); reflexivity.
Qed.

Definition wtask (env : benv) (g : graph) (loc : nat) (t : task) : Prop :=
  match t with
  | TStart => True
  | TSearch st => p_ins (g_pool st) <> [] /\ forall x, In x (p_ins (g_pool st)) -> joined env g loc x
  | TLink pruned => (forall x, In x pruned -> joined env g loc x) /\ (pruned <> [] \/ joined env g loc loc)
  | TRecip todo => (forall x, In x todo -> joined env g loc x) /\ (todo <> [] \/ joined env g loc loc)
  | TOver _ _ _ => False
  end.

Lemma wtask_grows : forall env g g' loc t, grows g g' -> wtask env g loc t -> wtask env g' loc t.
Proof.
  intros env g g' loc t Hg H.
  assert (J : forall x, joined env g loc x -> joined env g' loc x) by (intros x; apply reach_grows; exact Hg).
  destruct t; cbn in *; auto; destruct H as [H1 H2]; split; auto; destruct H2; auto.
Qed.

Record winv (env : benv) (st : bstate) : Prop := {
  wv_b : binv env st;
  wv_list : forall i t l, nth_error (bs_tasks st) i = Some t -> nth_error (bs_graph st) i = Some l ->
    two_sets l /\ (task_linked t = false -> NoDup l);
  wv_task : forall i t, nth_error (bs_tasks st) i = Some t -> wtask env (bs_graph st) i t
}.

(** Degree bound and pruning parameters of the theorem. *)
Record roomy (env : benv) : Prop := {
  rm_R : 2 * (sp_n (be_sp env) - 1) <= bp_R (be_prm env);
  rm_C : 1 <= bp_C (be_prm env);
  rm_alpha : fgt f32_zero (bp_alpha (be_prm env)) = false
}.

Lemma task_init_ids_some : forall env fs, task_init_ids env fs <> [].
Proof. intros env fs. unfold task_init_ids. destruct (filter_starts (be_medoids env) fs); discriminate. Qed.

Lemma search_prunes : forall env loc g st pruned c0, sorts (be_sort env) -> build_input_ok env -> roomy env ->
  loc < sp_n (be_sp env) -> ginv (sp_n (be_sp env)) (sp_pd (be_sp env) loc) (bp_L (be_prm env)) c0 st ->
  greedy_running st = false -> wtask env g loc (TSearch st) ->
  prune_alpha (be_sort env) (be_sp env) (be_prm env) loc (rev (g_exp st)) [] = Ok pruned ->
  wtask env g loc (TLink pruned).
Proof.
  intros env loc g st pruned c0 Hs Hin Hrm Hloc HI Hr [Hne Hj] E.
  assert (Hin' : prune_input_ok (be_sp env) (rev (g_exp st))).
  { split; [|apply (bi_lab env Hin)]. intros z Hz. apply in_rev in Hz.
    destruct (gi_exp _ _ _ _ _ HI z Hz) as [H1 [H2 _]]. split; [eapply gi_lt; eauto|]. rewrite H2. apply (bi_nan env Hin). }
  assert (Hexp : forall z, In z (g_exp st) -> joined env g loc (nid z)).
  { intros z Hz. apply Hj. apply (gi_exp _ _ _ _ _ HI z Hz). }
  split.
  - destruct (prune_alpha_plist (be_sort env) (be_sp env) (be_prm env) loc (rev (g_exp st))) as [out [E1 [_ Sub]]]; auto.
    { rewrite map_rev. apply NoDup_rev. apply (gi_nd _ _ _ _ _ HI). }
    assert (out = pruned) by congruence. subst out. intros x Hx. apply Sub in Hx. apply in_map_iff in Hx.
    destruct Hx as [z [<- Hz]]. apply Hexp. apply in_rev. exact Hz.
  - destruct (in_dec Nat.eq_dec loc (map nid (g_exp st))) as [I|I].
    + right. apply in_map_iff in I. destruct I as [z [<- Hz]]. apply Hexp. exact Hz.
    + left. assert (Hnx : g_exp st <> []).
      { intros C. assert (Hf : found st <> []).
        { intros F. apply Hne. apply (gi_cur _ _ _ _ _ HI). rewrite <- (pool_entries_length _ _ _ (gi_wf _ _ _ _ _ HI)).
          unfold found in F. rewrite F. reflexivity. }
        destruct (found st) as [|z r] eqn:Ef; [congruence|].
        destruct (found_all_expanded _ _ _ _ _ HI Hr z) as [_ H]; [rewrite Ef; left; reflexivity|].
        unfold exp_ids in H. rewrite C in H. destruct H. }
      destruct (be_sort env (rev (g_exp st))) as [|c rest] eqn:Es.
      { destruct (Hs (rev (g_exp st))) as [P _]; [intros z Hz; apply Hin'; exact Hz|]. rewrite Es in P.
        apply Permutation_sym, Permutation_nil in P. apply (f_equal (@rev _)) in P. rewrite rev_involutive in P. cbn in P. congruence. }
      destruct (prune_alpha_first (be_sort env) (be_sp env) (be_prm env) loc (rev (g_exp st)) c rest) as [out E2]; auto.
      * apply (rm_alpha _ Hrm).
      * intros C. apply I. rewrite <- C. apply in_map.
        destruct (Hs (rev (g_exp st))) as [P _]; [intros z Hz; apply Hin'; exact Hz|].
        apply in_rev. apply (Permutation_in _ (Permutation_sym P)). rewrite Es. left. reflexivity.
      * pose proof (rm_R _ Hrm). pose proof (bi_n env Hin). lia.
      * apply (rm_C _ Hrm).
      * assert (pruned = nid c :: out) by congruence. subst. discriminate.
Qed.

(** ** One step *)
Lemma wstep : forall env st loc t, sorts (be_sort env) -> build_input_ok env -> roomy env -> winv env st ->
  nth_error (bs_tasks st) loc = Some t -> task_done t = false ->
  exists st', build_step env st loc = Ok st' /\ winv env st'.
Proof.
  intros env st loc t Hs Hin Hrm HW Ht Hnd. pose proof (wv_b _ _ HW) as HI.
  destruct (build_step_ok env st loc t Hs Hin HI Ht Hnd) as [g' [t' [ts' [E1 [W [E2 [HI' [_ He]]]]]]]].
  exists (mkBS g' ts'). split; [exact E2|].
  assert (Hloc : loc < sp_n (be_sp env)) by (rewrite <- (bv_tl _ _ HI); apply nth_error_Some; congruence).
  assert (HT : forall i, nth_error ts' i = if Nat.eq_dec i loc then Some t' else nth_error (bs_tasks st) i)
    by (intros i; apply (wr_nth_Some _ _ _ _ _ W)).
  pose proof (wv_task _ _ HW loc t Ht) as Hw.
  destruct t as [|s|pruned|todo|des new todo].
  - (* TStart *)
    unfold task_step in E1. destruct (sp_n (be_sp env) / 10 =? 0); [discriminate|].
    destruct (task_filters_ok env loc Hin Hloc) as [fs [Ef _]].
    assert (Eo : own_filters env loc = fs) by (unfold own_filters; rewrite Ef; reflexivity).
    rewrite Ef in E1. cbn [bind] in E1.
    destruct (greedy_init_ok (be_sort env) (sp_n (be_sp env)) (sp_pd (be_sp env) loc) (bp_L (be_prm env)) (task_init_ids env fs))
      as [st0 [E0 [GI [_ [_ [H1 [H2 [H3 _]]]]]]]]; auto.
    { apply (bi_L env Hin). } { intros id. apply (bi_nan env Hin). } { apply task_init_ids_ok. auto. }
    rewrite E0 in E1. cbn [bind] in E1. injection E1 as <- <-. constructor; cbn [bs_graph bs_tasks]; [exact HI'| |].
    + intros i ti l Hi Hl. rewrite HT in Hi. destruct (Nat.eq_dec i loc) as [->|]; [|eapply wv_list; eauto].
      injection Hi as <-. exact (wv_list _ _ HW loc TStart l Ht Hl).
    + intros i ti Hi. rewrite HT in Hi. destruct (Nat.eq_dec i loc) as [->|]; [|eapply wv_task; eauto].
      injection Hi as <-. split.
      * intros C. pose proof (bi_L env Hin). destruct H2 as [H2|H2].
        -- rewrite C in H3. cbn in H3. lia.
        -- destruct (task_init_ids env fs) as [|a r] eqn:Ei; [exact (task_init_ids_some env fs Ei)|].
           specialize (H2 a (or_introl eq_refl)). rewrite C in H2. destruct H2.
      * intros x Hx. constructor. unfold own_starts. rewrite Eo. apply H1. exact Hx.
  - (* TSearch *)
    pose proof (bv_task _ _ HI loc _ Ht) as [c0 GI].
    unfold task_step in E1. destruct (task_filters_ok env loc Hin Hloc) as [fs [Ef Hfs]].
    assert (Eo : own_filters env loc = fs) by (unfold own_filters; rewrite Ef; reflexivity).
    rewrite Ef in E1. cbn [bind] in E1.
    assert (Keep : forall t1, t' = t1 -> g' = bs_graph st -> task_linked t1 = false -> wtask env (bs_graph st) loc t1 ->
      winv env (mkBS g' ts')).
    { intros t1 -> -> Hlk Hwt. constructor; cbn [bs_graph bs_tasks]; [exact HI'| |].
      - intros i ti l Hi Hl. rewrite HT in Hi. destruct (Nat.eq_dec i loc) as [->|]; [|eapply wv_list; eauto].
        injection Hi as <-. destruct (wv_list _ _ HW loc _ l Ht Hl) as [A B]. split; [exact A|]. intros _. apply B. reflexivity.
      - intros i ti Hi. rewrite HT in Hi. destruct (Nat.eq_dec i loc) as [->|]; [|eapply wv_task; eauto].
        injection Hi as <-. exact Hwt. }
    destruct (greedy_running s) eqn:Er.
    + destruct (greedy_step_ok (sp_n (be_sp env)) (sp_pd (be_sp env) loc) (passes_filter (sp_labels (be_sp env)) fs)
        (acc_of (sp_labels (be_sp env)) fs) (bp_L (be_prm env)) c0 (bs_graph st) s) as [s' [Es [_ Hk]]]; auto.
      { intros id. apply (bi_nan env Hin). } { intros id Hid. eapply acc_of_ok; eauto. } { apply binv_graph_ok. exact HI. }
      rewrite Es in E1. cbn [bind] in E1. injection E1 as Eg Et'. symmetry in Eg, Et'.
      apply (Keep (TSearch s') Et' Eg eq_refl). destruct Hw as [W1 W2].
      destruct Hk as [K1 K2 K3|x nbrs K1 K2 K3 K4].
      * cbn. rewrite K1. auto.
      * split.
        -- intros C. destruct (p_ins (g_pool s)) as [|a r] eqn:Ep; [congruence|].
           assert (I : In a (p_ins (g_pool s'))) by (apply K4; left; left; reflexivity). rewrite C in I. destruct I.
        -- intros y Hy. apply K4 in Hy. destruct Hy as [Hy|[Hy Ha]]; [apply W2; exact Hy|].
           apply (reach_edge _ _ _ (nid x)); [apply W2; exact K3|]. exists nbrs. split; [exact K2|]. split; [exact Hy|].
           unfold own_acc. rewrite Eo. exact Ha.
    + destruct (prune_alpha (be_sort env) (be_sp env) (be_prm env) loc (rev (g_exp s)) []) as [pr| | | |] eqn:Ep; try discriminate.
      cbn [bind] in E1. injection E1 as Eg Et'. symmetry in Eg, Et'.
      apply (Keep (TLink pr) Et' Eg eq_refl). exact (search_prunes env loc _ s pr c0 Hs Hin Hrm Hloc GI Er Hw Ep).
  - (* TLink *)
    destruct He as [Eg El|old pr Et Et' Eold Wg|d td pool Et _ _ _ _ _ _ _|d nw td Et _ _ _ _]; try discriminate.
    { exfalso. unfold task_step in E1. destruct (rd (bs_graph st) loc) as [o| | | |]; try discriminate. cbn [bind] in E1.
      destruct (wr (bs_graph st) loc (o ++ pruned)); try discriminate. cbn [bind] in E1. injection E1 as _ <-. discriminate. }
    injection Et as <-.
    assert (Hgr : grows (bs_graph st) g') by (eapply grows_wr; [exact Eold|apply incl_appl, incl_refl|exact Wg]).
    constructor; cbn [bs_graph bs_tasks]; [exact HI'| |].
    + intros i ti l Hi Hl. rewrite HT in Hi. rewrite (wr_nth_Some _ _ _ _ _ Wg) in Hl.
      destruct (Nat.eq_dec i loc) as [->|]; [|eapply wv_list; eauto].
      injection Hi as <-. injection Hl as <-. subst t'. split; [|discriminate].
      destruct (wv_list _ _ HW loc _ old Ht Eold) as [_ N]. exists old, pruned. split; [apply Permutation_refl|].
      split; [apply N; reflexivity|]. pose proof (bv_task _ _ HI loc _ Ht) as [_ [_ P]]. exact P.
    + intros i ti Hi. rewrite HT in Hi. destruct (Nat.eq_dec i loc) as [->|].
      * injection Hi as <-. subst t'. exact (wtask_grows _ _ _ loc (TLink pruned) Hgr Hw).
      * eapply wtask_grows; [exact Hgr|]. eapply wv_task; eauto.
  - (* TRecip *)
    destruct todo as [|des todo]; [discriminate|]. destruct Hw as [W1 W2].
    pose proof (bv_task _ _ HI loc _ Ht) as Hok. cbn [task_ok] in Hok. apply plist_tail in Hok. destruct Hok as [_ [Hd [Hdl _]]].
    unfold task_step in E1. destruct (rd_lt _ (bs_graph st) des) as [pool Ep]; [rewrite (bv_gl _ _ HI); auto|].
    rewrite Ep in E1. cbn [bind] in E1. apply rd_ok in Ep.
    assert (Hedge : forall g1 l1, nth_error g1 des = Some l1 -> In loc l1 -> grows (bs_graph st) g1 -> joined env g1 loc loc).
    { intros g1 l1 H1 H2 Hg1. apply (reach_edge _ _ _ des).
      - apply (reach_grows _ _ _ _ _ Hg1). apply W1. left. reflexivity.
      - exists l1. split; [exact H1|]. split; [exact H2|]. apply own_accepts; auto. }
    destruct (set_mem loc pool) eqn:Em.
    + injection E1 as <- <-. apply set_mem_In in Em. constructor; cbn [bs_graph bs_tasks]; [exact HI'| |].
      * intros i ti l Hi Hl. rewrite HT in Hi. destruct (Nat.eq_dec i loc) as [->|]; [|eapply wv_list; eauto].
        injection Hi as <-. exact (wv_list _ _ HW loc _ l Ht Hl).
      * intros i ti Hi. rewrite HT in Hi. destruct (Nat.eq_dec i loc) as [->|]; [|eapply wv_task; eauto].
        injection Hi as <-. split; [intros x Hx; apply W1; right; exact Hx|]. right.
        apply (Hedge _ pool Ep Em (grows_refl _)).
    + apply set_mem_not_In in Em.
      assert (Hlen : 10 * length pool < 13 * bp_R (be_prm env)).
      { assert (Hlt : des < length (bs_tasks st)) by (rewrite (bv_tl _ _ HI); exact Hd).
        destruct (nth_error (bs_tasks st) des) as [td|] eqn:Etd; [|apply nth_error_None in Etd; lia].
        destruct (bv_list _ _ HI des td pool Etd Ep) as [Hnb _]. destruct (wv_list _ _ HW des td pool Etd Ep) as [Hts _].
        pose proof (two_sets_length _ des pool Hnb Hts Hd). pose proof (rm_R _ Hrm). pose proof (bi_n env Hin). lia. }
      rewrite (proj2 (Nat.ltb_lt _ _) Hlen) in E1.
      destruct (wr (bs_graph st) des (pool ++ [loc])) as [g1| | | |] eqn:Wg; try discriminate. cbn [bind] in E1. injection E1 as <- <-.
      assert (Hgr : grows (bs_graph st) g1) by (eapply grows_wr; [exact Ep|apply incl_appl, incl_refl|exact Wg]).
      constructor; cbn [bs_graph bs_tasks]; [exact HI'| |].
      * intros i ti l Hi Hl. rewrite HT in Hi. rewrite (wr_nth_Some _ _ _ _ _ Wg) in Hl.
        destruct (Nat.eq_dec i des) as [->|].
        -- destruct (Nat.eq_dec des loc); [congruence|]. injection Hl as <-.
           destruct (wv_list _ _ HW des ti pool Hi Ep) as [A B]. split; [apply two_sets_add; auto|].
           intros Hlk. apply NoDup_snoc; auto.
        -- destruct (Nat.eq_dec i loc) as [->|]; [|eapply wv_list; eauto].
           injection Hi as <-. exact (wv_list _ _ HW loc _ l Ht Hl).
      * intros i ti Hi. rewrite HT in Hi. destruct (Nat.eq_dec i loc) as [->|].
        -- injection Hi as <-. split.
           ++ intros x Hx. apply (reach_grows _ _ _ _ _ Hgr). apply W1. right. exact Hx.
           ++ right. apply (Hedge g1 (pool ++ [loc])); [|apply in_or_app; right; left; reflexivity|exact Hgr].
              rewrite (wr_nth_Some _ _ _ _ _ Wg). destruct (Nat.eq_dec des des); congruence.
        -- eapply wtask_grows; [exact Hgr|]. eapply wv_task; eauto.
  - destruct Hw.
Qed.

Lemma winit : forall env, winv env (build_init env).
Proof.
  intros env. constructor; [apply build_init_inv| |]; cbn [build_init bs_tasks bs_graph].
  - intros i t l _ H. apply nth_error_In, repeat_spec in H. subst. split; [apply two_sets_one|intros _]; constructor.
  - intros i t H. apply nth_error_In, repeat_spec in H. subst. exact I.
Qed.

Lemma wrun : forall env, sorts (be_sort env) -> build_input_ok env -> roomy env ->
  forall sched st st', winv env st -> (forall i, In i sched -> i < sp_n (be_sp env)) ->
  build_run env st sched = Ok st' -> winv env st'.
Proof.
  intros env Hs Hin Hrm sched. induction sched as [|i sched IH]; intros st st' HW Hsc E; cbn [build_run] in E.
  - injection E as <-. exact HW.
  - assert (Hi : i < length (bs_tasks st)) by (rewrite (bv_tl _ _ (wv_b _ _ HW)); apply Hsc; left; auto).
    destruct (nth_error (bs_tasks st) i) as [t|] eqn:Et; [|apply nth_error_None in Et; lia].
    assert (Hr : forall j, In j sched -> j < sp_n (be_sp env)) by (intros j Hj; apply Hsc; right; exact Hj).
    destruct (task_done t) eqn:Ed.
    + rewrite (build_step_done env st i t Et Ed) in E. cbn [bind] in E. eapply IH; eauto.
    + destruct (wstep env st i t Hs Hin Hrm HW Et Ed) as [st1 [E1 HW1]]. rewrite E1 in E. cbn [bind] in E. eapply IH; eauto.
Qed.

(** Every point is reached from the entry points of its own labels. *)
Lemma built_joined : forall env sched st order g, sorts (be_sort env) -> build_input_ok env -> roomy env ->
  (forall i, In i sched -> i < sp_n (be_sp env)) -> build_run env (build_init env) sched = Ok st -> all_done st = true ->
  Permutation order (seq 0 (sp_n (be_sp env))) -> cleanup env (bs_graph st) order = Ok g ->
  forall loc, loc < sp_n (be_sp env) -> joined env g loc loc.
Proof.
  intros env sched st order g Hs Hin Hrm Hsc Hrun Hd Ho Hcl loc Hloc.
  pose proof (wrun env Hs Hin Hrm sched _ _ (winit env) Hsc Hrun) as HW. pose proof (wv_b _ _ HW) as HI.
  assert (HL : forall x l, nth_error (bs_graph st) x = Some l -> length l <= bp_R (be_prm env)).
  { intros x l Hx. assert (Hlt : x < length (bs_tasks st)).
    { rewrite (bv_tl _ _ HI), <- (bv_gl _ _ HI). apply nth_error_Some. congruence. }
    destruct (nth_error (bs_tasks st) x) as [t|] eqn:Et; [|apply nth_error_None in Et; lia].
    destruct (bv_list _ _ HI x t l Et Hx) as [Hnb _]. destruct (wv_list _ _ HW x t l Et Hx) as [Hts _].
    rewrite (bv_tl _ _ HI) in Hlt. pose proof (two_sets_length _ x l Hnb Hts Hlt). pose proof (rm_R _ Hrm). lia. }
  destruct (cleanup_ok env Hs Hin order (bs_graph st)) as [g' [E2 [_ [_ [K _]]]]].
  { split; [apply (bv_gl _ _ HI)|]. intros x l Hx. apply (binv_lists env st); auto. }
  { intros x Hx. apply (Permutation_in _ Ho) in Hx. apply in_seq in Hx. lia. }
  assert (g' = g) by congruence. subst g'.
  apply (reach_grows _ (bs_graph st)).
  { intros x l Hx. exists l. split; [apply K; auto; eapply HL; eauto|apply incl_refl]. }
  assert (Hlt : loc < length (bs_tasks st)) by (rewrite (bv_tl _ _ HI); exact Hloc).
  destruct (nth_error (bs_tasks st) loc) as [t|] eqn:Et; [|apply nth_error_None in Et; lia].
  unfold all_done in Hd. rewrite forallb_forall in Hd. specialize (Hd t (nth_error_In _ _ Et)).
  pose proof (wv_task _ _ HW loc t Et) as Hw. destruct t as [|s|p|[|d td]|d nw td]; try discriminate.
  destruct Hw as [_ [C|J]]; [congruence|exact J].
Qed.

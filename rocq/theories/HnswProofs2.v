(** * Lemmas about the HNSW build. *)
From Coq Require Import String List Arith Lia Bool Sorting.Sorted Sorting.Permutation.
From Verif Require Import Base Float32 PoolModel TopKSpec SortSpec GraphSpec GreedyModel SearchSpec SearchModel PruneModel PruneSpec
  BuildModel BuildSpec EntryModel EntrySpec HnswModel HnswSpec ListLemmas FilterProofs PoolProofs PoolProofs2 GreedyProofs SearchProofs PruneProofs
  BuildProofs BuildProofs2 EntryProofs HnswProofs.
Import ListNotations.

(** ** Contents of the pool buffer *)
Definition slot_ok (n : nat) (dist : nat -> f32) (z : neighbor) : Prop :=
  z = default_neighbor \/ (nid z < n /\ ndist z = dist (nid z)).

Definition tail_default (L cur : nat) (arr : list neighbor) : Prop :=
  forall j, cur <= j -> j <= L -> nth_error arr j = Some default_neighbor.

Definition slots_ok (n : nat) (dist : nat -> f32) (L : nat) (p : pool_state) : Prop :=
  (forall z, In z (p_arr p) -> slot_ok n dist z) /\ (p_cur p < L -> tail_default L (p_cur p) (p_arr p)).

Lemma memmove_tail : forall a b s c j, memmove_up a s c = Ok b -> s + 1 + c <= j -> nth_error b j = nth_error a j.
Proof.
  intros a b s c j H Hj. unfold memmove_up in H. destruct (s + 1 + c <=? length a) eqn:El; [|discriminate].
  apply Nat.leb_le in El.
  assert (E : b = firstn (s + 1) a ++ firstn c (skipn s a) ++ skipn (s + 1 + c) a) by congruence.
  rewrite E. clear H E. assert (L1 : length (firstn (s + 1) a) = s + 1) by (apply firstn_length_le; lia).
  assert (L2 : length (firstn c (skipn s a)) = c) by (apply firstn_length_le; rewrite skipn_length; lia).
  rewrite nth_error_app2 by lia. rewrite nth_error_app2 by lia. rewrite L1, L2.
  rewrite <- (firstn_skipn (s + 1 + c) a) at 2. rewrite nth_error_app2; rewrite firstn_length_le by lia; [|lia].
  f_equal. lia.
Qed.

Lemma wr_other : forall (A : Type) (a b : list A) i x j, wr a i x = Ok b -> j <> i -> nth_error b j = nth_error a j.
Proof. intros A a b i x j H Hj. rewrite (wr_nth_Some _ _ _ _ _ H). destruct (Nat.eq_dec j i); congruence. Qed.

Lemma bsearch_le : forall a nn fuel l r l' r', bsearch fuel a nn l r = Ok (l', r') -> l <= r -> r' <= r.
Proof.
  intros a nn fuel. induction fuel as [|fuel IH]; intros l r l' r' H Hlr; cbn [bsearch] in H; [discriminate|].
  destruct ((1 <? r) && (l <? r - 1)) eqn:E.
  - apply andb_true_iff in E. destruct E as [E1 E2]. apply Nat.ltb_lt in E1, E2.
    assert (Hm : l <= (l + r) / 2 <= r).
    { split; [apply Nat.div_le_lower_bound; lia|apply Nat.div_le_upper_bound; lia]. }
    apply bind_ok in H. destruct H as [m [_ H]]. destruct (fgt (ndist m) (ndist nn)).
    + apply IH in H; lia.
    + apply IH in H; lia.
  - inversion H. lia.
Qed.

Lemma insert_tail : forall a K nn b r j, insert_into_pool a K nn = Ok (b, r) -> K < j -> nth_error b j = nth_error a j.
Proof.
  intros a K nn b r j H Hj. unfold insert_into_pool in H.
  apply bind_ok in H. destruct H as [x0 [_ H]]. destruct (fgt (ndist x0) (ndist nn)).
  - apply bind_ok in H. destruct H as [a1 [H1 H]]. apply bind_ok in H. destruct H as [a2 [H2 H]].
    assert (a2 = b) by congruence. subst. rewrite (wr_other _ _ _ _ _ _ H2) by lia. eapply memmove_tail; [eauto|lia].
  - destruct K as [|right0]; [discriminate|].
    apply bind_ok in H. destruct H as [xr0 [_ H]]. destruct (flt (ndist xr0) (ndist nn)).
    + apply bind_ok in H. destruct H as [a1 [H1 H]]. assert (a1 = b) by congruence. subst.
      apply (wr_other _ _ _ _ _ _ H1). lia.
    + apply bind_ok in H. destruct H as [[l rr] [Hb H]]. apply bsearch_le in Hb; [|lia].
      apply bind_ok in H. destruct H as [w [_ H]].
      destruct w as [l1|]; [|assert (a = b) by congruence; subst; auto].
      apply bind_ok in H. destruct H as [xl [_ H]]. apply bind_ok in H. destruct H as [xr [_ H]].
      destruct ((nid xl =? nid nn) || (nid xr =? nid nn)); [assert (a = b) by congruence; subst; auto|].
      apply bind_ok in H. destruct H as [a1 [H1 H]]. apply bind_ok in H. destruct H as [a2 [H2 H]].
      assert (a2 = b) by congruence. subst. rewrite (wr_other _ _ _ _ _ _ H2) by lia. eapply memmove_tail; [eauto|lia].
Qed.

Lemma process_one_slots : forall n dist accept m st id st', process_one n dist accept m st id = Ok st' ->
  slots_ok n dist m st -> slots_ok n dist m st'.
Proof.
  intros n dist accept m st id st' H Hb. unfold process_one in H.
  apply bind_ok in H. destruct H as [ok [_ H]]. destruct (negb ok); [inversion H; subst; auto|].
  destruct (set_mem id (p_ins st)); [inversion H; subst; auto|].
  apply bind_ok in H. destruct H as [d [Hd H]]. destruct (id <? n) eqn:E; [|discriminate]. apply Nat.ltb_lt in E.
  assert (d = dist id) by congruence. subst d.
  apply bind_ok in H. destruct H as [skip [_ H]]. destruct skip.
  - assert (E' : st' = mkP (p_arr st) (p_cur st) (id :: p_ins st) (S (p_cmps st)) (p_best st)) by congruence. subst st'. exact Hb.
  - apply bind_ok in H. destruct H as [[arr' r] [Hi H]].
    assert (E' : p_arr st' = arr' /\ p_cur st' = if p_cur st <? m then S (p_cur st) else p_cur st) by (inversion H; auto).
    destruct E' as [Ea Ec]. destruct Hb as [Hb1 Hb2]. split.
    + intros z Hz. rewrite Ea in Hz. apply (insert_In _ _ _ _ _ _ Hi) in Hz. destruct Hz as [Hz| ->]; auto.
      right. cbn. auto.
    + rewrite Ea, Ec. intros Hlt j H1 H2. destruct (p_cur st <? m) eqn:Ecm.
      * apply Nat.ltb_lt in Ecm. rewrite (insert_tail _ _ _ _ _ _ Hi) by lia. apply (Hb2 Ecm); lia.
      * apply Nat.ltb_ge in Ecm. lia.
Qed.

Lemma process_loop_slots : forall n dist accept m l st st', process_loop n dist accept m st l = Ok st' ->
  slots_ok n dist m st -> slots_ok n dist m st'.
Proof.
  intros n dist accept m l. induction l as [|id l IH]; intros st st' H Hb; cbn [process_loop] in H; [inversion H; subst; auto|].
  apply bind_ok in H. destruct H as [st1 [H1 H]]. eapply IH; eauto. eapply process_one_slots; eauto.
Qed.

Lemma greedy_step_slots : forall n dist accept L g st st', greedy_step n dist accept L g st = Ok st' ->
  greedy_running st = true -> slots_ok n dist L (g_pool st) ->
  (forall z, In z (found st) -> nid z < n /\ ndist z = dist (nid z)) -> slots_ok n dist L (g_pool st').
Proof.
  intros n dist accept L g st st' H Hr [Hb1 Hb2] Hf. unfold greedy_step in H.
  apply bind_ok in H. destruct H as [x [Hx H]]. destruct (nflag x).
  - apply bind_ok in H. destruct H as [arr1 [Hw H]]. apply bind_ok in H. destruct H as [des [_ H]].
    apply bind_ok in H. destruct H as [p' [Hp H]]. assert (E : g_pool st' = p') by (inversion H; auto). rewrite E.
    unfold process_candidates in Hp. eapply process_loop_slots; [exact Hp|]. split; cbn [p_arr p_cur].
    + intros z Hz. apply (wr_In _ _ _ _ _ _ Hw) in Hz. destruct Hz as [Hz| ->]; auto.
      right. cbn [nid ndist]. apply Hf. unfold found, pool_entries. apply rd_ok in Hx.
      apply Nat.ltb_lt in Hr. apply (nth_error_In _ (g_k st)). rewrite firstn_nth_error by auto. auto.
    + intros Hlt j H1 H2. apply Nat.ltb_lt in Hr. rewrite (wr_other _ _ _ _ _ _ Hw) by lia. apply (Hb2 Hlt); lia.
  - assert (E : g_pool st' = g_pool st) by (inversion H; auto). rewrite E. split; auto.
Qed.

Lemma init_loop_slots : forall n dist L ids arr l ins arr' l' ins',
  init_loop n dist L arr l ins ids = Ok (arr', l', ins') ->
  (forall z, In z arr -> slot_ok n dist z) -> tail_default L l arr ->
  (forall z, In z arr' -> slot_ok n dist z) /\ tail_default L l' arr'.
Proof.
  intros n dist L ids. induction ids as [|id ids IH]; intros arr l ins arr' l' ins' H Hb Ht; cbn [init_loop] in H.
  - assert (arr' = arr /\ l' = l) as [-> ->] by (split; congruence). auto.
  - apply bind_ok in H. destruct H as [d [Hd H]]. destruct (id <? n) eqn:E; [|discriminate]. apply Nat.ltb_lt in E.
    assert (d = dist id) by congruence. subst d.
    apply bind_ok in H. destruct H as [[[a1 l1] i1] [H1 H]].
    assert (Hb1 : (forall z, In z a1 -> slot_ok n dist z) /\ tail_default L l1 a1).
    { destruct (set_mem id ins).
      - assert (a1 = arr /\ l1 = l) as [-> ->] by (split; congruence). auto.
      - apply bind_ok in H1. destruct H1 as [a2 [Hw H1]]. assert (a1 = a2 /\ l1 = S l) as [-> ->] by (split; congruence). split.
        + intros z Hz. apply (wr_In _ _ _ _ _ _ Hw) in Hz. destruct Hz as [Hz| ->]; auto. right. cbn. auto.
        + intros j Hj1 Hj2. rewrite (wr_other _ _ _ _ _ _ Hw) by lia. apply Ht; lia. }
    destruct Hb1 as [Hb1 Ht1].
    destruct (l1 =? L); [assert (arr' = a1 /\ l' = l1) as [-> ->] by (split; congruence); auto|]. eapply IH; eauto.
Qed.

Lemma slot_not_nan : forall n dist z, (forall id, is_nan (dist id) = false) -> slot_ok n dist z -> is_nan (ndist z) = false.
Proof. intros n dist z H [->|[_ ->]]; auto. Qed.

Lemma slot_lt : forall n dist z, 1 <= n -> slot_ok n dist z -> nid z < n.
Proof. intros n dist z H [->|[A _]]; auto. Qed.

Lemma greedy_init_slots : forall sortf n dist L ids st, sorts sortf -> (forall id, is_nan (dist id) = false) ->
  greedy_init sortf n dist L ids = Ok st -> slots_ok n dist L (g_pool st).
Proof.
  intros sortf n dist L ids st Hs Hnan H. unfold greedy_init in H.
  apply bind_ok in H. destruct H as [[[arr l] ins] [Hi H]].
  assert (E : p_arr (g_pool st) = sortf (firstn l arr) ++ skipn l arr /\ p_cur (g_pool st) = l) by (inversion H; auto).
  destruct E as [Ea Ec]. apply init_loop_slots in Hi.
  - destruct Hi as [Hb Ht].
    assert (Hno : forall y, In y (firstn l arr) -> is_nan (ndist y) = false).
    { intros y Hy. apply (slot_not_nan n dist); auto. apply Hb. eapply In_firstn; eauto. }
    destruct (Hs _ Hno) as [P _]. split; rewrite Ea.
    + intros z Hz. apply Hb. apply in_app_or in Hz. destruct Hz as [Hz|Hz].
      * apply (Permutation_in _ (Permutation_sym P)) in Hz. eapply In_firstn; eauto.
      * rewrite <- (firstn_skipn l arr). apply in_or_app. auto.
    + rewrite Ec. intros Hlt j H1 H2. specialize (Ht j H1 H2).
      rewrite <- (firstn_skipn l arr) in Ht. apply Permutation_length in P.
      assert (Hll : length (firstn l arr) <= l) by (rewrite firstn_length; lia).
      rewrite nth_error_app2 in Ht by lia. rewrite nth_error_app2 by lia. rewrite <- P. exact Ht.
  - intros z Hz. apply repeat_spec in Hz. left. auto.
  - intros j _ Hj. apply nth_error_repeat. lia.
Qed.

(** ** Pruned lists, possibly with repetitions *)
Definition wlist_ok (n R x : nat) (l : list nat) : Prop := nbrs_ok n x l /\ length l <= R.

Lemma prune_alpha_wlist : forall sortf sp prm point cands, sorts sortf -> prune_input_ok sp cands ->
  exists out, prune_alpha sortf sp prm point cands [] = Ok out /\ wlist_ok (sp_n sp) (bp_R prm) point out /\
    (forall y, In y out -> In y (map nid cands)).
Proof.
  intros sortf sp prm point cands Hs Hin.
  destruct (prune_alpha_shape sortf sp prm point cands Hs Hin) as [ks [rest [E [P [HR [_ [_ Hp]]]]]]].
  assert (Hsub : forall z, In z ks -> In z cands).
  { intros z Hz. apply (Permutation_in _ (Permutation_sym P)). apply in_or_app. auto. }
  exists (map nid ks). split; [auto|]. split; [split|].
  - intros y Hy. apply in_map_iff in Hy. destruct Hy as [z [<- Hz]]. split; [apply Hin; auto|auto].
  - rewrite map_length. auto.
  - intros y Hy. apply in_map_iff in Hy. destruct Hy as [z [<- Hz]]. apply in_map. auto.
Qed.

Lemma prune_topk_wlist : forall sortf n prm point cands,
  sorts sortf -> (forall z, In z cands -> nid z < n /\ is_nan (ndist z) = false) ->
  exists out, prune_topk sortf prm point cands [] = Ok out /\ wlist_ok n (bp_R prm) point out /\
    (forall y, In y out -> In y (map nid cands)).
Proof.
  intros sortf n prm point cands Hs Hin.
  destruct (prune_topk_spec sortf prm point cands Hs) as [out [E [rest [P [HL _]]]]]; [intros z Hz; apply Hin; auto|].
  assert (Hmem : forall y, In y (map fst out) -> In y (map nid cands) /\ y <> point).
  { intros y Hy. apply in_map_iff in Hy. destruct Hy as [q [<- Hq]].
    assert (Hq' : In q (map (fun z => (nid z, ndist z)) (filter (fun z => negb (nid z =? point)) cands))).
    { apply (Permutation_in _ (Permutation_sym P)). apply in_or_app. auto. }
    apply in_map_iff in Hq'. destruct Hq' as [z [<- Hz]]. apply filter_In in Hz. destruct Hz as [Hz1 Hz2].
    apply negb_true_iff in Hz2. apply Nat.eqb_neq in Hz2. cbn. split; auto. apply in_map. auto. }
  exists (map fst out). split; [auto|]. split; [split|].
  - intros y Hy. apply Hmem in Hy. destruct Hy as [Hy Hp]. split; auto.
    apply in_map_iff in Hy. destruct Hy as [z [<- Hz]]. apply Hin. auto.
  - rewrite map_length. eapply Nat.le_trans; [apply Nat.eq_le_incl; exact HL|apply Nat.le_min_l].
  - intros y Hy. apply Hmem. auto.
Qed.

(** ** The invariant *)
Record henv_ok (env : henv) : Prop := {
  hv_sort : sorts (be_sort (he_b env));
  hv_in : build_input_ok (he_b env);
  hv_plain : sp_filtered (be_sp (he_b env)) = false;
  hv_inner : match he_inner env with
             | [] => True
             | inn :: _ => levels_ok (he_inner env) /\ forall t, In t (ix_tags inn) -> t < sp_n (be_sp (he_b env))
             end
}.

Lemma h_init_ids_ok : forall env loc, henv_ok env -> exists ids, h_init_ids env loc = Ok ids /\
  (forall id, In id ids -> id < sp_n (be_sp (he_b env))) /\ ids <> [] /\ length ids <= bp_L (be_prm (he_b env)).
Proof.
  intros env loc H. unfold h_init_ids. pose proof (hv_inner _ H) as Hi. pose proof (bi_L _ (hv_in _ H)) as HL.
  destruct (he_inner env) as [|inn inner] eqn:Ei.
  - eexists. split; [reflexivity|]. split; [|split; [discriminate|cbn; lia]]. intros id [<-|[]]. apply (bi_start _ (hv_in _ H)).
  - destruct Hi as [Hlv Htg].
    destruct (hnsw_search_ok (be_sort (he_b env)) (bp_L (be_prm (he_b env))) (bp_L (be_prm (he_b env))) (hv_sort _ H) HL (le_n _)
      inner inn (inner_dist inn (sp_pd (be_sp (he_b env)) loc)) [] (repeat 0 (bp_L (be_prm (he_b env)))) (repeat f32_zero (bp_L (be_prm (he_b env)))) Hlv)
      as [entry [ids [ind [dst [E [Hl [Hne [S1 [_ [[R1 [R2 [_ R4]]] _]]]]]]]]]].
    { intros id. apply (bi_nan _ (hv_in _ H)). } { rewrite repeat_length. auto. } { rewrite repeat_length. auto. }
    rewrite E. cbn [bind]. exists (firstn (length ids) ind). split; [reflexivity|].
    assert (Hlen : length (firstn (length ids) ind) = length ids).
    { apply firstn_length_le. rewrite (proj1 S1), repeat_length. auto. }
    split; [|split; [|lia]].
    + intros id Hid. apply Htg. apply In_nth_error in Hid. destruct Hid as [i Hid].
      assert (Hlt : i < length ids) by (rewrite <- Hlen; apply nth_error_Some; congruence).
      rewrite firstn_nth_error in Hid by auto.
      destruct (nth_error ids i) as [x|] eqn:Ex; [|apply nth_error_None in Ex; lia].
      rewrite (proj1 (R4 i x Ex)) in Hid. eapply nth_error_In; eauto.
    + intros C. rewrite C in Hlen. specialize (Hne HL). destruct ids; [congruence|discriminate].
Qed.

Definition h_task_ok (env : henv) (loc : nat) (t : task) : Prop :=
  let n := sp_n (be_sp (he_b env)) in
  let R := bp_R (be_prm (he_b env)) in
  let L := bp_L (be_prm (he_b env)) in
  let dist := sp_pd (be_sp (he_b env)) loc in
  match t with
  | TStart => True
  | TSearch st => (exists c0, ginv n dist L c0 st) /\ slots_ok n dist L (g_pool st)
  | TLink pruned => wlist_ok n R loc pruned
  | TRecip todo => wlist_ok n R loc todo
  | TOver des new todo => des < n /\ wlist_ok n R des new /\ wlist_ok n R loc todo /\ length todo + 1 <= R
  end.

Definition h_list_ok (env : henv) (x : nat) (t : task) (l : list nat) : Prop := list_ok (he_b env) x t l.

Record hinv (env : henv) (st : bstate) : Prop := {
  hi_tl : length (bs_tasks st) = sp_n (be_sp (he_b env));
  hi_gl : length (bs_graph st) = sp_n (be_sp (he_b env));
  hi_task : forall i t, nth_error (bs_tasks st) i = Some t -> h_task_ok env i t;
  hi_list : forall i t l, nth_error (bs_tasks st) i = Some t -> nth_error (bs_graph st) i = Some l -> h_list_ok env i t l
}.

Lemma hinv_graph_ok : forall env st, hinv env st -> graph_ok (sp_n (be_sp (he_b env))) (bs_graph st).
Proof.
  intros env st H. split; [apply (hi_gl _ _ H)|]. intros x l y Hx Hy.
  assert (Hlt : x < length (bs_tasks st)).
  { rewrite (hi_tl _ _ H), <- (hi_gl _ _ H). apply nth_error_Some. congruence. }
  destruct (nth_error (bs_tasks st) x) as [t|] eqn:Et; [|apply nth_error_None in Et; lia].
  apply (hi_list _ _ H x t l Et Hx). auto.
Qed.

Inductive h_effect (env : benv) (loc : nat) (g : graph) (t : task) (g' : graph) (t' : task) : Prop :=
| he_local : g' = g -> task_linked t' = task_linked t -> h_effect env loc g t g' t'
| he_link : forall old pruned, t = TLink pruned -> t' = TRecip pruned -> nth_error g loc = Some old ->
    wr g loc (old ++ pruned) = Ok g' -> h_effect env loc g t g' t'
| he_append : forall des todo pool, t = TRecip (des :: todo) -> t' = TRecip todo -> des < sp_n (be_sp env) -> des <> loc ->
    nth_error g des = Some pool -> ~ In loc pool -> 10 * length pool < 13 * bp_R (be_prm env) ->
    wr g des (pool ++ [loc]) = Ok g' -> h_effect env loc g t g' t'
| he_over : forall des new todo, t = TOver des new todo -> t' = TRecip todo -> des < sp_n (be_sp env) ->
    wlist_ok (sp_n (be_sp env)) (bp_R (be_prm env)) des new ->
    wr g des new = Ok g' -> h_effect env loc g t g' t'.

Lemma wlist_tail : forall n R x a l, wlist_ok n R x (a :: l) -> wlist_ok n R x l /\ a < n /\ a <> x /\ length l + 1 <= R.
Proof.
  intros n R x a l [H1 H2]. cbn in H2. split; [split|].
  - intros y Hy. apply H1. right. auto.
  - lia.
  - destruct (H1 a (or_introl eq_refl)). repeat split; auto. lia.
Qed.

Lemma h_prune_ok : forall env loc st, henv_ok env ->
  slots_ok (sp_n (be_sp (he_b env))) (sp_pd (be_sp (he_b env)) loc) (bp_L (be_prm (he_b env))) (g_pool st) ->
  exists out, h_prune env loc st = Ok out /\ wlist_ok (sp_n (be_sp (he_b env))) (bp_R (be_prm (he_b env))) loc out /\
    (forall y, In y out -> In y (map nid (p_arr (g_pool st)))).
Proof.
  intros env loc st H [Hs _].
  assert (Hn : 1 <= sp_n (be_sp (he_b env))) by (pose proof (bi_n _ (hv_in _ H)); lia).
  assert (Hz : forall z, In z (p_arr (g_pool st)) -> nid z < sp_n (be_sp (he_b env)) /\ is_nan (ndist z) = false).
  { intros z Hz. specialize (Hs z Hz). split; [eapply slot_lt; eauto|eapply slot_not_nan; eauto].
    intros id. apply (bi_nan _ (hv_in _ H)). }
  unfold h_prune. destruct (bp_rule (be_prm (he_b env)) =? 0).
  - apply prune_alpha_wlist; [apply (hv_sort _ H)|]. split; auto. apply (bi_lab _ (hv_in _ H)).
  - apply prune_topk_wlist; [apply (hv_sort _ H)|auto].
Qed.

Lemma h_task_step_ok : forall env loc g t, henv_ok env ->
  loc < sp_n (be_sp (he_b env)) -> graph_ok (sp_n (be_sp (he_b env))) g -> h_task_ok env loc t -> task_done t = false ->
  exists g' t', h_task_step env loc g t = Ok (g', t') /\ h_task_ok env loc t' /\
    task_measure (he_b env) t' < task_measure (he_b env) t /\ h_effect (he_b env) loc g t g' t'.
Proof.
  intros env loc g t H Hloc Hg Ht Hnd. pose proof (hv_sort _ H) as Hs. pose proof (hv_in _ H) as Hin.
  destruct t as [|st|pruned|todo|des new todo].
  - (* TStart *)
    unfold h_task_step. assert (E : sp_n (be_sp (he_b env)) / 10 =? 0 = false).
    { apply Nat.eqb_neq. pose proof (bi_n _ Hin) as Hn. intros C. apply Nat.div_small_iff in C; lia. }
    rewrite E. destruct (h_init_ids_ok env loc H) as [ids [Ei [Hids _]]]. rewrite Ei. cbn [bind].
    destruct (greedy_init_ok (be_sort (he_b env)) (sp_n (be_sp (he_b env))) (sp_pd (be_sp (he_b env)) loc) (bp_L (be_prm (he_b env))) ids)
      as [st0 [E0 [HI [Hexp [Hk _]]]]]; auto.
    { apply (bi_L _ Hin). } { intros id. apply (bi_nan _ Hin). }
    rewrite E0. cbn [bind]. exists g, (TSearch st0). split; [auto|]. split; [split; [eexists; eauto|]|].
    { eapply greedy_init_slots; eauto. intros id. apply (bi_nan _ Hin). }
    split.
    + cbn [task_measure]. unfold gmeasure. rewrite Hexp, Hk. cbn [length]. rewrite !Nat.sub_0_r. nia.
    + apply he_local; auto.
  - (* TSearch *)
    destruct Ht as [[c0 HI] Hsl]. unfold h_task_step.
    destruct (greedy_running st) eqn:Er.
    + destruct (greedy_step_ok (sp_n (be_sp (he_b env))) (sp_pd (be_sp (he_b env)) loc) (passes_filter (sp_labels (be_sp (he_b env))) [])
        (fun _ => true) (bp_L (be_prm (he_b env))) c0 g st) as [st' [E1 [HI' Hk]]]; auto.
      { intros id. apply (bi_nan _ Hin). }
      rewrite E1. cbn [bind]. exists g, (TSearch st'). split; [auto|]. split; [split; [eexists; eauto|]|].
      { eapply greedy_step_slots; eauto. intros z Hz.
        destruct (gi_wf _ _ _ _ _ HI) as [_ [_ [_ [_ He]]]]. destruct (He z Hz) as [_ [A B]]. split; [exact (gi_lt _ _ _ _ _ HI _ B)|exact A]. }
      split.
      * cbn [task_measure]. pose proof (step_measure _ _ _ _ _ _ _ _ HI HI' Er Hk). lia.
      * apply he_local; auto.
    + destruct (h_prune_ok env loc st H Hsl) as [out [E1 [PL _]]].
      rewrite E1. cbn [bind]. exists g, (TLink out). split; [auto|]. split; [exact PL|]. split.
      * cbn [task_measure]. destruct PL as [_ PL]. lia.
      * apply he_local; auto.
  - (* TLink *)
    unfold h_task_step, task_step. destruct Hg as [Hgl Hg].
    destruct (rd_lt _ g loc) as [old Eo]; [lia|]. rewrite Eo. cbn [bind].
    destruct (wr_nth _ g loc (old ++ pruned)) as [g' [W _]]; [lia|]. rewrite W. cbn [bind].
    exists g', (TRecip pruned). split; [auto|]. split; [exact Ht|]. split; [cbn; lia|].
    eapply he_link; eauto. apply rd_ok. auto.
  - (* TRecip *)
    destruct todo as [|des todo]; [discriminate|]. unfold h_task_step, task_step. destruct Hg as [Hgl Hg].
    cbn [h_task_ok] in Ht. apply wlist_tail in Ht. destruct Ht as [Ht [Hd [Hne Hlen]]].
    destruct (rd_lt _ g des) as [pool Ep]; [lia|]. rewrite Ep. cbn [bind]. apply rd_ok in Ep.
    destruct (set_mem loc pool) eqn:Em.
    + exists g, (TRecip todo). split; [auto|]. split; [exact Ht|]. split; [cbn; lia|]. apply he_local; auto.
    + apply set_mem_not_In in Em. destruct (10 * length pool <? 13 * bp_R (be_prm (he_b env))) eqn:El.
      * apply Nat.ltb_lt in El. destruct (wr_nth _ g des (pool ++ [loc])) as [g' [W _]]; [lia|]. rewrite W. cbn [bind].
        exists g', (TRecip todo). split; [auto|]. split; [exact Ht|]. split; [cbn; lia|].
        eapply he_append; eauto.
      * destruct (reprune_ok (he_b env) des (pool ++ [loc]) Hs Hin Hd) as [p [new [_ [_ [_ [_ [E1 [[P1 [P2 _]] _]]]]]]]].
        { intros y Hy. apply in_app_or in Hy. destruct Hy as [Hy|[<-|[]]]; auto. eapply Hg; eauto. }
        rewrite E1. cbn [bind]. exists g, (TOver des new todo). split; [auto|].
        split; [cbn; repeat (split; [solve [auto]|]); auto; split; auto; split; auto|]. split; [cbn; lia|]. apply he_local; auto.
  - (* TOver *)
    unfold h_task_step, task_step. cbn [h_task_ok] in Ht. destruct Ht as [Hd [PL [Ht Hlen]]]. destruct Hg as [Hgl Hg].
    destruct (wr_nth _ g des new) as [g' [W _]]; [lia|]. rewrite W. cbn [bind].
    exists g', (TRecip todo). split; [auto|]. split; [exact Ht|]. split; [cbn; lia|]. eapply he_over; eauto.
Qed.

Lemma h_step_done : forall env st loc t, nth_error (bs_tasks st) loc = Some t -> task_done t = true ->
  h_step env st loc = Ok st.
Proof.
  intros env st loc t Ht Hd. unfold h_step. rewrite (proj2 (rd_ok _ _ _ _) Ht). cbn [bind].
  destruct t as [| | |[|d td]|]; try discriminate. cbn [h_task_step task_step bind].
  rewrite (wr_self _ _ _ _ Ht). cbn [bind]. destruct st. reflexivity.
Qed.

Lemma h_step_ok : forall env st loc t, henv_ok env -> hinv env st ->
  nth_error (bs_tasks st) loc = Some t -> task_done t = false ->
  exists st', h_step env st loc = Ok st' /\ hinv env st' /\
    tmeasure (he_b env) (bs_tasks st') < tmeasure (he_b env) (bs_tasks st).
Proof.
  intros env st loc t H HI Ht Hnd.
  assert (Hloc : loc < sp_n (be_sp (he_b env))).
  { rewrite <- (hi_tl _ _ HI). apply nth_error_Some. congruence. }
  destruct (h_task_step_ok env loc (bs_graph st) t H Hloc (hinv_graph_ok _ _ HI) (hi_task _ _ HI _ _ Ht) Hnd)
    as [g' [t' [E1 [Hok [Hm He]]]]].
  destruct (wr_nth _ (bs_tasks st) loc t') as [ts' [W [L1 N1]]]; [rewrite (hi_tl _ _ HI); auto|].
  exists (mkBS g' ts'). split.
  { unfold h_step. rewrite (proj2 (rd_ok _ _ _ _) Ht). cbn [bind]. rewrite E1. cbn [bind]. rewrite W. reflexivity. }
  split.
  2:{ cbn [bs_tasks]. pose proof (tmeasure_wr (he_b env) _ _ _ _ _ Ht W). lia. }
  assert (Hgl : length g' = sp_n (be_sp (he_b env))).
  { rewrite <- (hi_gl _ _ HI). destruct He as [-> _|old pr _ _ _ Wg|des todo pool _ _ _ _ _ _ _ Wg|des new todo _ _ _ _ Wg]; auto;
    apply wr_length in Wg; auto. }
  constructor; cbn [bs_tasks bs_graph].
  - rewrite L1. apply (hi_tl _ _ HI).
  - auto.
  - intros i ti Hi. rewrite N1 in Hi. destruct (Nat.eq_dec i loc) as [->|Hne]; [inversion Hi; subst; auto|].
    eapply hi_task; eauto.
  - intros i ti li Hi Hl. rewrite N1 in Hi.
    pose proof (hi_list _ _ HI) as HL. pose proof (slack_ge (bp_R (be_prm (he_b env)))) as Hsl.
    destruct He as [Eg Elk|old pr Et Et' Eold Wg|des todo pool Et Et' Hd Hdl Ep Hnin Hlt Wg|des new todo Et Et' Hd PL Wg].
    + subst g'. destruct (Nat.eq_dec i loc) as [->|Hne]; [|eapply HL; eauto].
      inversion Hi; subst ti. destruct (HL loc t li Ht Hl) as [A B]. split; auto. rewrite Elk. auto.
    + rewrite (wr_nth_Some _ _ _ _ _ Wg) in Hl. destruct (Nat.eq_dec i loc) as [->|Hne]; [|eapply HL; eauto].
      inversion Hi; subst ti. inversion Hl; subst li. subst t t'. destruct (HL loc _ old Ht Eold) as [A B].
      assert (PL := hi_task _ _ HI _ _ Ht). cbn [h_task_ok] in PL. destruct PL as [P1 P2].
      split.
      * intros y Hy. apply in_app_or in Hy. destruct Hy; auto.
      * cbn [task_linked] in *. rewrite app_length. lia.
    + rewrite (wr_nth_Some _ _ _ _ _ Wg) in Hl. destruct (Nat.eq_dec i des) as [->|Hne].
      * inversion Hl; subst li. destruct (Nat.eq_dec des loc); [congruence|].
        destruct (HL des ti pool Hi Ep) as [A B]. split.
        -- intros y Hy. apply in_app_or in Hy. destruct Hy as [Hy|[<-|[]]]; auto.
        -- rewrite app_length. cbn [length]. apply slack_lt in Hlt. lia.
      * destruct (Nat.eq_dec i loc) as [->|Hne']; [|eapply HL; eauto].
        inversion Hi; subst ti. subst t t'. exact (HL loc _ li Ht Hl).
    + rewrite (wr_nth_Some _ _ _ _ _ Wg) in Hl. destruct (Nat.eq_dec i des) as [->|Hne].
      * inversion Hl; subst li. destruct PL as [P1 P2]. split; auto. lia.
      * destruct (Nat.eq_dec i loc) as [->|Hne']; [|eapply HL; eauto].
        inversion Hi; subst ti. subst t t'. exact (HL loc _ li Ht Hl).
Qed.

Lemma h_init_inv : forall env, hinv env (build_init (he_b env)).
Proof.
  intros env. constructor; cbn [build_init bs_tasks bs_graph].
  - apply repeat_length.
  - apply repeat_length.
  - intros i t H. apply nth_error_In in H. apply repeat_spec in H. subst. exact I.
  - intros i t l H1 H2. apply nth_error_In in H2. apply repeat_spec in H2. subst. split; [intros y []|cbn; lia].
Qed.

Lemma h_run_ok : forall env, henv_ok env -> forall sched st, hinv env st ->
  (forall i, In i sched -> i < sp_n (be_sp (he_b env))) ->
  exists st', h_run env st sched = Ok st' /\ hinv env st'.
Proof.
  intros env H sched. induction sched as [|i sched IH]; intros st HI Hsc; cbn [h_run].
  - exists st. auto.
  - assert (Hi : i < length (bs_tasks st)) by (rewrite (hi_tl _ _ HI); apply Hsc; left; auto).
    destruct (nth_error (bs_tasks st) i) as [t|] eqn:Et; [|apply nth_error_None in Et; lia].
    destruct (task_done t) eqn:Ed.
    + rewrite (h_step_done env st i t) by auto. cbn [bind]. apply IH; auto. intros j Hj. apply Hsc. right. auto.
    + destruct (h_step_ok env st i t H HI Et Ed) as [st1 [E [HI' Hm]]].
      rewrite E. cbn [bind]. apply IH; auto. intros j Hj. apply Hsc. right. auto.
Qed.

Lemma h_completes : forall env, henv_ok env ->
  forall m st, hinv env st -> tmeasure (he_b env) (bs_tasks st) <= m ->
  exists sched st', (forall i, In i sched -> i < sp_n (be_sp (he_b env))) /\ h_run env st sched = Ok st' /\ all_done st' = true.
Proof.
  intros env H m. induction m as [|m IH]; intros st HI Hm; destruct (all_done st) eqn:Ed.
  - exists [], st. split; [intros i []|auto].
  - destruct (not_all_done _ Ed) as [i [t [Et Ed']]]. destruct (h_step_ok env st i t H HI Et Ed') as [st1 [E [HI' Hm']]]. lia.
  - exists [], st. split; [intros i []|auto].
  - destruct (not_all_done _ Ed) as [i [t [Et Ed']]]. destruct (h_step_ok env st i t H HI Et Ed') as [st1 [E [HI' Hm']]].
    destruct (IH st1 HI') as [sched [st' [S1 [S2 S3]]]]; [lia|].
    exists (i :: sched), st'. split; [|split; auto].
    + intros j [<-|Hj]; auto. rewrite <- (hi_tl _ _ HI). apply nth_error_Some. congruence.
    + cbn [h_run]. rewrite E. auto.
Qed.

(** ** Cleanup *)
Lemma h_cleanup_ok : forall env, henv_ok env -> forall nodes g, lists_ok (he_b env) g ->
  (forall x, In x nodes -> x < sp_n (be_sp (he_b env))) ->
  exists g', h_cleanup env g nodes = Ok g' /\ lists_ok (he_b env) g' /\
    (forall x l, In x nodes -> nth_error g' x = Some l -> length l <= bp_R (be_prm (he_b env))) /\
    (forall x l, nth_error g x = Some l -> length l <= bp_R (be_prm (he_b env)) -> nth_error g' x = Some l).
Proof.
  intros env H nodes. pose proof (hv_sort _ H) as Hs. pose proof (hv_in _ H) as Hin.
  induction nodes as [|x nodes IH]; intros g Hg Hn; cbn [h_cleanup].
  - exists g. split; [auto|]. split; [auto|]. split; [intros x l []|auto].
  - assert (Hx : x < sp_n (be_sp (he_b env))) by (apply Hn; left; auto).
    assert (H1 : exists g1, h_cleanup_node env g x = Ok g1 /\ lists_ok (he_b env) g1 /\
      (forall y, y <> x -> nth_error g1 y = nth_error g y) /\
      (forall l, nth_error g1 x = Some l -> length l <= bp_R (be_prm (he_b env))) /\
      (forall l, nth_error g x = Some l -> length l <= bp_R (be_prm (he_b env)) -> g1 = g)).
    { destruct Hg as [Hl Hg]. unfold h_cleanup_node. destruct (rd_lt _ g x) as [nbrs E]; [lia|]. rewrite E. cbn [bind]. apply rd_ok in E.
      destruct (bp_R (be_prm (he_b env)) <? length nbrs) eqn:Er.
      - apply Nat.ltb_lt in Er.
        destruct (reprune_ok (he_b env) x nbrs Hs Hin Hx) as [p [new [_ [_ [_ [_ [E1 [[P1 [P2 _]] _]]]]]]]].
        { intros y Hy. apply (Hg x nbrs E). auto. }
        rewrite E1. cbn [bind]. destruct (wr_nth _ g x new) as [g' [W [L N']]]; [lia|]. rewrite W.
        exists g'. split; [auto|]. split; [split; [lia|]|split; [|split]].
        + intros y l Hy. rewrite N' in Hy. destruct (Nat.eq_dec y x) as [->|Hne]; [|eauto]. inversion Hy. subst. auto.
        + intros y Hne. rewrite N'. destruct (Nat.eq_dec y x); congruence.
        + intros l Hl'. rewrite N' in Hl'. destruct (Nat.eq_dec x x); [|congruence]. inversion Hl'. subst. auto.
        + intros l Hl' Hle. assert (l = nbrs) by congruence. subst. lia.
      - apply Nat.ltb_ge in Er. exists g. split; [auto|]. split; [split; auto|]. split; [auto|]. split; [|auto].
        intros l Hl'. assert (l = nbrs) by congruence. subst. auto. }
    destruct H1 as [g1 [E1 [Hg1 [O1 [D1 K1]]]]].
    rewrite E1. cbn [bind]. destruct (IH g1 Hg1) as [g2 [E2 [Hg2 [D2 K2]]]]; [intros y Hy; apply Hn; right; auto|].
    exists g2. split; [auto|]. split; [auto|]. split.
    + intros y l [<-|Hy] Hl; [|eapply D2; eauto].
      assert (Hx1 : x < length g1) by (destruct Hg1 as [-> _]; auto).
      destruct (nth_error g1 x) as [l1|] eqn:El1; [|apply nth_error_None in El1; lia].
      pose proof (K2 x l1 El1 (D1 l1 eq_refl)) as H2. assert (l = l1) by congruence. subst. apply D1. auto.
    + intros y l Hl Hle. apply K2; auto. destruct (Nat.eq_dec y x) as [->|Hne].
      * rewrite (K1 l) by auto. auto.
      * rewrite O1; auto.
Qed.

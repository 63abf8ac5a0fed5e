(** * Builds on related distances do the same. *)
From Coq Require Import String List Arith Lia Bool Floats.SpecFloat.
From Verif Require Import Base Float32 PoolModel SortSpec GraphSpec GreedyModel SearchModel PruneModel BuildModel EntryModel VamanaModel HnswModel RngModel ListLemmas
  GreedyProofs BuildProofs BuildProofs2 VamanaProofs OrderSpec OrderProofs.
Import ListNotations.

(** Dividing an entry's distance by a distance of two points gives the same, or puts both beyond alpha. *)
Definition ratio_rel (alpha : f32) (R D : f32 -> f32 -> Prop) : Prop :=
  forall a a' b b', R a a' -> D b b' -> fdiv a b = fdiv a' b' \/ (fgt (fdiv a b) alpha = true /\ fgt (fdiv a' b') alpha = true).

Definition space_rel (D : f32 -> f32 -> Prop) (sp sp' : space) : Prop :=
  sp_n sp = sp_n sp' /\ sp_filtered sp = sp_filtered sp' /\ sp_labels sp = sp_labels sp' /\ forall a b, D (sp_pd sp a b) (sp_pd sp' a b).

Definition occ_rel (alpha f f' : f32) : Prop := f = f' \/ (fgt f alpha = true /\ fgt f' alpha = true).

Lemma occ_fgt : forall alpha f f', occ_rel alpha f f' -> fgt f alpha = fgt f' alpha.
Proof. intros alpha f f' [->|[H1 H2]]; congruence. Qed.

Lemma occ_fmax : forall alpha f q q', fgt f alpha = false -> occ_rel alpha q q' -> occ_rel alpha (fmax f q) (fmax f q').
Proof.
  intros alpha f q q' Hf [->|[H1 H2]]; [left; reflexivity|]. unfold fmax. destruct (is_nan f) eqn:En.
  - destruct f; try discriminate. left. reflexivity.
  - assert (Ha : is_nan alpha = false) by (unfold fgt in H1; apply flt_not_nan in H1; tauto).
    assert (L : fle f alpha = true) by (apply flt_false_fle; auto).
    unfold fgt in H1, H2. change (SFltb alpha q) with (flt alpha q) in H1. change (SFltb alpha q') with (flt alpha q') in H2.
    rewrite (fle_flt_trans _ _ _ L H1), (fle_flt_trans _ _ _ L H2). right. auto.
Qed.

Lemma data_dist_rel : forall D sp sp' a b, space_rel D sp sp' -> res_rel D (data_dist sp a b) (data_dist sp' a b).
Proof. intros D sp sp' a b [En [_ [_ Hd]]]. unfold data_dist. rewrite En. destruct (_ && _); cbn; auto. Qed.

Lemma allowed_rel : forall D sp sp' a b, space_rel D sp sp' -> prune_allowed sp a b = prune_allowed sp' a b.
Proof. intros D sp sp' a b [_ [Ef [El _]]]. unfold prune_allowed. rewrite Ef, El. reflexivity. Qed.

Lemma occlude_rel : forall alpha R D sp sp', ratio_rel alpha R D -> space_rel D sp sp' ->
  forall cnt cands cands' p p' t occ occ', Forall2 (nb_rel R) cands cands' -> nid p = nid p' -> Forall2 (occ_rel alpha) occ occ' ->
  res_rel (Forall2 (occ_rel alpha)) (occlude_loop sp cands alpha p t cnt occ) (occlude_loop sp' cands' alpha p' t cnt occ').
Proof.
  intros alpha R D sp sp' Hq HS cnt. induction cnt as [|cnt IH]; intros cands cands' p p' t occ occ' Hc Hp Ho; cbn [occlude_loop]; [exact Ho|].
  apply (bind_rel _ _ _ _ (occ_rel alpha)); [apply rd_rel; exact Ho|]. intros f f' Hf. rewrite (occ_fgt _ _ _ Hf).
  destruct (fgt f' alpha) eqn:Ef; [apply IH; assumption|].
  assert (f = f') by (destruct Hf as [E|[_ E]]; congruence). subst f'.
  apply (bind_rel _ _ _ _ (nb_rel R)); [apply rd_rel; exact Hc|]. intros c c' Hcc.
  rewrite (proj1 Hcc), Hp, (allowed_rel D sp sp' _ _ HS).
  apply (bind_rel _ _ _ _ eq); [apply same_rel|]. intros ok ? <-. destruct (negb ok); [apply IH; assumption|].
  apply (bind_rel _ _ _ _ D); [apply data_dist_rel; exact HS|]. intros djk djk' Hdd.
  apply (bind_rel _ _ _ _ (Forall2 (occ_rel alpha))).
  { apply wr_rel; [exact Ho|]. apply occ_fmax; [exact Ef|]. apply Hq; [apply Hcc|exact Hdd]. }
  intros o1 o1' H1. apply IH; assumption.
Qed.

Lemma prune_loop_rel : forall alpha R D sp sp', ratio_rel alpha R D -> space_rel D sp sp' ->
  forall fuel cands cands' RR C point start occ occ' result result', Forall2 (nb_rel R) cands cands' -> Forall2 (occ_rel alpha) occ occ' ->
  Forall2 (nb_rel R) result result' ->
  res_rel (Forall2 (nb_rel R)) (prune_loop fuel sp cands RR C alpha point start occ result) (prune_loop fuel sp' cands' RR C alpha point start occ' result').
Proof.
  intros alpha R D sp sp' Hq HS fuel. induction fuel as [|fuel IH]; intros cands cands' RR C point start occ occ' result result' Hc Ho Hr; cbn [prune_loop];
    rewrite (all2_length _ _ _ _ _ Hr), (all2_length _ _ _ _ _ Hc); destruct (_ && _ && _); try exact I; try exact Hr.
  apply (bind_rel _ _ _ _ (nb_rel R)); [apply rd_rel; exact Hc|]. intros p p' Hp. rewrite (proj1 Hp).
  destruct (_ =? _); [apply IH; assumption|].
  apply (bind_rel _ _ _ _ (occ_rel alpha)); [apply rd_rel; exact Ho|]. intros f f' Hf. rewrite (occ_fgt _ _ _ Hf).
  destruct (fgt f' alpha); [apply IH; assumption|].
  apply (bind_rel _ _ _ _ (Forall2 (occ_rel alpha))); [apply wr_rel; [exact Ho|left; reflexivity]|]. intros o1 o1' H1.
  apply (bind_rel _ _ _ _ (Forall2 (occ_rel alpha))).
  { apply (occlude_rel alpha R D); auto. apply Hp. }
  intros o2 o2' H2. apply IH; [exact Hc|exact H2|]. apply Forall2_app; [exact Hr|]. constructor; [exact Hp|constructor].
Qed.

Lemma filter_nid_rel : forall R point l l', Forall2 (nb_rel R) l l' ->
  map nid (filter (fun z => negb (nid z =? point)) l) = map nid (filter (fun z => negb (nid z =? point)) l').
Proof.
  intros R point l l' H. induction H as [|x y l l' Hxy _ IH]; cbn [filter map]; [reflexivity|]. rewrite (proj1 Hxy).
  destruct (negb _); cbn [map]; [rewrite (proj1 Hxy)|]; congruence.
Qed.

Lemma prune_alpha_rel : forall R D sortf sp sp' prm point cands cands' p0, alike R -> by_comparisons sortf -> ratio_rel (bp_alpha prm) R D -> space_rel D sp sp' ->
  Forall2 (nb_rel R) cands cands' -> prune_alpha sortf sp prm point cands p0 = prune_alpha sortf sp' prm point cands' p0.
Proof.
  intros R D sortf sp sp' prm point cands cands' p0 HR Hs Hq HS H. apply rel_eq. unfold prune_alpha.
  pose proof (Hs R _ _ HR H) as H'. destruct H as [|x y l l' Hxy H]; [reflexivity|]. cbv zeta.
  rewrite (all2_length _ _ _ _ _ H').
  apply (bind_rel _ _ _ _ (Forall2 (nb_rel R))).
  - apply (prune_loop_rel _ R D); auto. apply repeat_rel. left. reflexivity.
  - intros r r' Hr. cbn. apply (filter_nid_rel R). exact Hr.
Qed.

Lemma topk_loop_rel : forall R RR point l l', Forall2 (nb_rel R) l l' -> forall acc, topk_loop RR point l acc = topk_loop RR point l' acc.
Proof.
  intros R RR point l l' H. induction H as [|x y l l' Hxy _ IH]; intros acc; cbn [topk_loop]; [reflexivity|]. rewrite (proj1 Hxy), !IH. reflexivity.
Qed.

Lemma prune_topk_rel : forall R sortf prm point cands cands' p0, alike R -> by_comparisons sortf ->
  Forall2 (nb_rel R) cands cands' -> prune_topk sortf prm point cands p0 = prune_topk sortf prm point cands' p0.
Proof.
  intros R sortf prm point cands cands' p0 HR Hs H. unfold prune_topk. pose proof (Hs R _ _ HR H) as H'.
  destruct H; [reflexivity|]. rewrite (topk_loop_rel R _ _ _ _ H'). reflexivity.
Qed.

Lemma dummy_rel : forall D sp sp' des, space_rel D sp sp' -> forall nbrs visited, res_rel (Forall2 (nb_rel D)) (dummy_pool sp des visited nbrs) (dummy_pool sp' des visited nbrs).
Proof.
  intros D sp sp' des HS nbrs. induction nbrs as [|c nbrs IH]; intros visited; cbn [dummy_pool]; [constructor|].
  destruct (_ && _); [|apply IH]. apply (bind_rel _ _ _ _ D); [apply data_dist_rel; exact HS|]. intros d d' Hd.
  apply (bind_rel _ _ _ _ (Forall2 (nb_rel D))); [apply IH|]. intros p p' Hp. constructor; [repeat split; exact Hd|exact Hp].
Qed.

(** Two builds that differ in the distances only. *)
Definition env_rel (D : f32 -> f32 -> Prop) (env env' : benv) : Prop :=
  be_sort env = be_sort env' /\ space_rel D (be_sp env) (be_sp env') /\ be_prm env = be_prm env' /\ be_start env = be_start env' /\ be_medoids env = be_medoids env'.

(** What the pruning of a build needs. *)
Definition pruning_rel (env : benv) (D : f32 -> f32 -> Prop) : Prop :=
  alike D /\ by_comparisons (be_sort env) /\ (bp_rule (be_prm env) = 0 -> ratio_rel (bp_alpha (be_prm env)) D D).

Lemma reprune_rel : forall D env env' des nbrs, pruning_rel env D -> env_rel D env env' -> reprune env des nbrs = reprune env' des nbrs.
Proof.
  intros D env env' des nbrs [HD [Hs Hq]] [E1 [HS [E2 _]]]. apply rel_eq. unfold reprune.
  apply (bind_rel _ _ _ _ (Forall2 (nb_rel D))); [apply dummy_rel; exact HS|]. intros p p' Hp. rewrite <- E1, <- E2.
  destruct (bp_rule (be_prm env) =? 0) eqn:Er.
  - apply Nat.eqb_eq in Er. rewrite (prune_alpha_rel D D (be_sort env) _ (be_sp env') (be_prm env) des p p' []); auto. apply same_rel.
  - rewrite (prune_topk_rel D (be_sort env) (be_prm env) des p p' []); auto. apply same_rel.
Qed.

Definition task_rel (R : f32 -> f32 -> Prop) (t t' : task) : Prop :=
  match t, t' with
  | TSearch s, TSearch s' => g_rel R s s'
  | TStart, TStart => True
  | TLink p, TLink p' => p = p'
  | TRecip p, TRecip p' => p = p'
  | TOver d p q, TOver d' p' q' => d = d' /\ p = p' /\ q = q'
  | _, _ => False
  end.

Definition step_rel (R : f32 -> f32 -> Prop) (x y : graph * task) : Prop := fst x = fst y /\ task_rel R (snd x) (snd y).

(** The steps after the search, shared by Vamana and HNSW. *)
Lemma link_rel : forall R D env env' loc g t t', pruning_rel env D -> env_rel D env env' -> task_rel R t t' ->
  (match t with TStart | TSearch _ => False | _ => True end) ->
  res_rel (step_rel R) (task_step env loc g t) (task_step env' loc g t').
Proof.
  intros R D env env' loc g t t' HP HE Ht Hk. pose proof HE as [E1 [HS [E2 [E3 E4]]]].
  destruct t as [|s|pr|todo|des new todo], t' as [|s'|pr'|todo'|des' new' todo']; cbn in Ht, Hk; try contradiction.
  - subst pr'. cbn [task_step]. apply (bind_rel _ _ _ _ eq); [apply same_rel|]. intros old ? <-.
    apply (bind_rel _ _ _ _ eq); [apply same_rel|]. intros g1 ? <-. cbn. split; reflexivity.
  - subst todo'. destruct todo as [|des todo]; [cbn; split; reflexivity|]. cbn [task_step]. rewrite <- E2.
    apply (bind_rel _ _ _ _ eq); [apply same_rel|]. intros pool ? <-. destruct (set_mem loc pool); [cbn; split; reflexivity|].
    destruct (_ <? _).
    + apply (bind_rel _ _ _ _ eq); [apply same_rel|]. intros g1 ? <-. cbn. split; reflexivity.
    + rewrite (reprune_rel D env env' des (pool ++ [loc]) HP HE).
      apply (bind_rel _ _ _ _ eq); [apply same_rel|]. intros new ? <-. cbn. split; [reflexivity|]. split; [reflexivity|]. split; reflexivity.
  - destruct Ht as [<- [<- <-]]. cbn [task_step]. apply (bind_rel _ _ _ _ eq); [apply same_rel|]. intros g1 ? <-. cbn. split; reflexivity.
Qed.

(** ** Vamana *)
Lemma rev_rel : forall (A B : Type) (P : A -> B -> Prop) l l', Forall2 P l l' -> Forall2 P (rev l) (rev l').
Proof. intros A B P l l' H. induction H; cbn [rev]; [constructor|]. apply Forall2_app; [assumption|]. constructor; [assumption|constructor]. Qed.

(** The expanded entries are points with their true distances. *)
Lemma true_rel : forall (R D : f32 -> f32 -> Prop) dist dist' l l', (forall a, D (dist a) (dist' a)) -> Forall2 (nb_rel R) l l' ->
  (forall x, In x l -> ndist x = dist (nid x)) -> (forall x, In x l' -> ndist x = dist' (nid x)) -> Forall2 (nb_rel D) l l'.
Proof.
  intros R D dist dist' l l' HD H T T'. induction H as [|x y l l' Hxy _ IH]; constructor.
  - destruct Hxy as [E1 [E2 _]]. split; [exact E1|]. split; [exact E2|]. rewrite (T x (or_introl eq_refl)), (T' y (or_introl eq_refl)), E1. apply HD.
  - apply IH; intros z Hz; [apply T|apply T']; right; exact Hz.
Qed.

Definition widen (D : f32 -> f32 -> Prop) (x y : f32) : Prop := D x y \/ (x = FLT_MAX /\ y = FLT_MAX).

Lemma vamana_step_rel : forall D env env' loc g t t', alike (widen D) -> pruning_rel env D -> ratio_rel (bp_alpha (be_prm env)) D D -> env_rel D env env' ->
  task_ok env loc t -> task_ok env' loc t' -> task_rel (widen D) t t' ->
  res_rel (step_rel (widen D)) (task_step env loc g t) (task_step env' loc g t').
Proof.
  intros D env env' loc g t t' HW HP Hq HE Ht Ht' H. pose proof HE as [E1 [HS [E2 [E3 E4]]]]. pose proof HS as [En [Ef [El Hd]]].
  assert (SD : sides (widen D) (sp_n (be_sp env)) (sp_pd (be_sp env) loc) (sp_pd (be_sp env') loc)).
  { split; [exact HW|]. split; [right; auto|]. intros. left. apply Hd. }
  assert (Fs : task_filters env loc = task_filters env' loc) by (unfold task_filters; rewrite Ef, El; reflexivity).
  destruct t as [|s|pr|todo|des new todo]; try (apply (link_rel _ D); auto; exact I).
  - destruct t'; try contradiction. cbn [task_step]. rewrite <- En. destruct (_ =? _); [exact I|]. rewrite <- Fs.
    apply (bind_rel _ _ _ _ eq); [apply same_rel|]. intros fs ? <-.
    replace (task_init_ids env' fs) with (task_init_ids env fs) by (unfold task_init_ids; rewrite E3, E4; reflexivity).
    rewrite <- E1, <- E2. apply (bind_rel _ _ _ _ (g_rel (widen D))); [apply greedy_init_rel; [apply HP|exact SD]|].
    intros s s' Hss. split; [reflexivity|exact Hss].
  - destruct t' as [|s'| | |]; try contradiction. cbn [task_rel] in H. cbn [task_step]. rewrite <- Fs.
    apply (bind_rel _ _ _ _ eq); [apply same_rel|]. intros fs ? <-. rewrite (running_rel _ _ _ H).
    destruct (greedy_running s').
    + rewrite <- En, <- El, <- E2. apply (bind_rel _ _ _ _ (g_rel (widen D))); [apply greedy_step_rel; assumption|].
      intros q q' Hqq. split; [reflexivity|exact Hqq].
    + rewrite <- E1, <- E2. rewrite (prune_alpha_rel D D (be_sort env) _ (be_sp env') (be_prm env) loc (rev (g_exp s)) (rev (g_exp s')) []); auto; try apply HP.
      * apply (bind_rel _ _ _ _ eq); [apply same_rel|]. intros pr ? <-. cbn. split; reflexivity.
      * destruct Ht as [c0 G]. destruct Ht' as [c0' G'].
        apply (true_rel (widen D) D (sp_pd (be_sp env) loc) (sp_pd (be_sp env') loc)); auto.
        -- apply rev_rel. apply H.
        -- intros x Hx. apply in_rev in Hx. apply (gi_exp _ _ _ _ _ G). exact Hx.
        -- intros x Hx. apply in_rev in Hx. apply (gi_exp _ _ _ _ _ G'). exact Hx.
Qed.

Definition bs_rel (R : f32 -> f32 -> Prop) (st st' : bstate) : Prop :=
  bs_graph st = bs_graph st' /\ Forall2 (task_rel R) (bs_tasks st) (bs_tasks st').

Lemma step_keeps : forall env st loc st', sorts (be_sort env) -> build_input_ok env -> binv env st -> loc < sp_n (be_sp env) -> build_step env st loc = Ok st' -> binv env st'.
Proof.
  intros env st loc st' Hs Hin HI Hl E. destruct (build_run_ok env Hs Hin [loc] st HI) as [st1 [E1 [H1 _]]]; [intros i [<-|[]]; exact Hl|].
  cbn [build_run] in E1. rewrite E in E1. cbn in E1. congruence.
Qed.

Lemma build_step_rel : forall D env env' st st' loc, alike (widen D) -> pruning_rel env D -> ratio_rel (bp_alpha (be_prm env)) D D -> env_rel D env env' ->
  binv env st -> binv env' st' -> bs_rel (widen D) st st' -> res_rel (bs_rel (widen D)) (build_step env st loc) (build_step env' st' loc).
Proof.
  intros D env env' st st' loc HW HP Hq HE HI HI' [Eg Ht]. unfold build_step.
  pose proof (rd_rel _ _ _ _ _ Ht loc) as Hr. rewrite <- Eg.
  destruct (rd (bs_tasks st) loc) as [t| | | |] eqn:R1, (rd (bs_tasks st') loc) as [t'| | | |] eqn:R2; cbn in Hr; try contradiction; cbn [bind]; try exact I.
  apply rd_ok in R1. apply rd_ok in R2.
  apply (bind_rel _ _ _ _ (step_rel (widen D))).
  - apply vamana_step_rel; auto; [apply (bv_task _ _ HI); exact R1|apply (bv_task _ _ HI'); exact R2].
  - intros [g1 t1] [g1' t1'] [Ea Eb]. cbn [fst snd] in *. subst g1'.
    apply (bind_rel _ _ _ _ (Forall2 (task_rel (widen D)))); [apply wr_rel; assumption|]. intros ts ts' Hts. split; [reflexivity|exact Hts].
Qed.

Lemma build_run_rel : forall D env env', alike (widen D) -> pruning_rel env D -> ratio_rel (bp_alpha (be_prm env)) D D -> env_rel D env env' ->
  sorts (be_sort env) -> build_input_ok env -> build_input_ok env' -> forall sched st st', (forall i, In i sched -> i < sp_n (be_sp env)) ->
  binv env st -> binv env' st' -> bs_rel (widen D) st st' -> res_rel (bs_rel (widen D)) (build_run env st sched) (build_run env' st' sched).
Proof.
  intros D env env' HW HP Hq HE Hs Hin Hin' sched. induction sched as [|loc sched IH]; intros st st' Hl HI HI' H; cbn [build_run]; [exact H|].
  assert (Hloc : loc < sp_n (be_sp env)) by (apply Hl; left; reflexivity).
  pose proof HE as [E1 [[En _] _]].
  pose proof (build_step_rel D env env' st st' loc HW HP Hq HE HI HI' H) as K.
  destruct (build_step env st loc) as [s1| | | |] eqn:B1, (build_step env' st' loc) as [s1'| | | |] eqn:B2; cbn in K; try contradiction; cbn [bind]; try exact I.
  apply IH; [intros i Hi; apply Hl; right; exact Hi|eapply step_keeps; eauto|apply (step_keeps env' st' loc); auto; [rewrite <- E1; exact Hs|rewrite <- En; exact Hloc]|exact K].
Qed.

Lemma cleanup_rel : forall D env env' nodes g, alike D -> by_comparisons (be_sort env) -> ratio_rel (bp_alpha (be_prm env)) D D -> env_rel D env env' ->
  cleanup env g nodes = cleanup env' g nodes.
Proof.
  intros D env env' nodes g HD Hs Hq [E1 [HS [E2 _]]]. revert g. induction nodes as [|x nodes IH]; intros g; cbn [cleanup]; [reflexivity|].
  assert (E : cleanup_node env g x = cleanup_node env' g x).
  { apply rel_eq. unfold cleanup_node. apply (bind_rel _ _ _ _ eq); [apply same_rel|]. intros nb ? <-. rewrite <- E2. destruct (_ <? _); [|reflexivity].
    apply (bind_rel _ _ _ _ (Forall2 (nb_rel D))); [apply dummy_rel; exact HS|]. intros p p' Hp. rewrite <- E1.
    rewrite (prune_alpha_rel D D (be_sort env) _ (be_sp env') (be_prm env) x p p' []); auto. apply same_rel. }
  rewrite E. destruct (cleanup_node env' g x); cbn [bind]; auto.
Qed.

Lemma argmin_rel : forall R, alike R -> forall fuel l l' n i mi md md', Forall2 R l l' -> R md md' -> res_rel eq (argmin_loop l n i mi md fuel) (argmin_loop l' n i mi md' fuel).
Proof.
  intros R HR fuel. induction fuel as [|fuel IH]; intros l l' n i mi md md' Hl Hm; cbn [argmin_loop]; [reflexivity|].
  apply (bind_rel _ _ _ _ R); [apply rd_rel; exact Hl|]. intros d d' Hd. rewrite (flt_rel R _ _ _ _ HR Hd Hm). destruct (flt d' md'); apply IH; assumption.
Qed.

Lemma medoid_rel : forall R n l l', alike R -> Forall2 R l l' -> calculate_medoid n l = calculate_medoid n l'.
Proof.
  intros R n l l' HR Hl. apply rel_eq. unfold calculate_medoid. apply (bind_rel _ _ _ _ R); [apply rd_rel; exact Hl|]. intros. apply (argmin_rel R); assumption.
Qed.

Lemma done_rel : forall R st st', bs_rel R st st' -> all_done st = all_done st'.
Proof.
  intros R st st' [_ H]. unfold all_done. induction H as [|t t' l l' Ht _ IH]; cbn [forallb]; [reflexivity|]. rewrite IH. f_equal.
  destruct t, t'; cbn in Ht; try contradiction; try reflexivity. subst. reflexivity.
Qed.

Lemma alike_narrow : forall D, alike (widen D) -> alike D.
Proof. intros D H a a' b b' Ha Hb. apply H; left; assumption. Qed.

(** Inputs that differ in the distances only. *)
Definition vinput_rel (D : f32 -> f32 -> Prop) (v v' : vinput) : Prop :=
  vi_sort v = vi_sort v' /\ space_rel D (vi_sp v) (vi_sp v') /\ vi_prm v = vi_prm v' /\ vi_tags v = vi_tags v' /\ Forall2 D (vi_centroid v) (vi_centroid v') /\
  vi_work v = vi_work v' /\ vi_sched v = vi_sched v' /\ vi_order v = vi_order v'.

Lemma tasks_same : forall R t k, task_rel R t t -> Forall2 (task_rel R) (repeat t k) (repeat t k).
Proof. intros R t k H. apply repeat_rel. exact H. Qed.

Lemma vamana_build_rel : forall D v v', alike (widen D) -> by_comparisons (vi_sort v) -> ratio_rel (bp_alpha (vi_prm v)) D D ->
  vinput_ok v -> vinput_ok v' -> vinput_rel D v v' -> vamana_build v = vamana_build v'.
Proof.
  intros D v v' HW Hs Hq Hv Hv' [E1 [HS [E2 [E3 [Hc [E4 [E5 E6]]]]]]]. pose proof HS as [En [Ef [El Hd]]].
  pose proof (alike_narrow D HW) as HD. apply rel_eq. unfold vamana_build.
  destruct (vamana_env_ok v Hv) as [env [V [Hin [V1 [V2 [V3 _]]]]]]. destruct (vamana_env_ok v' Hv') as [env' [V' [Hin' [V1' [V2' [V3' _]]]]]].
  assert (HE : env_rel D env env').
  { split; [congruence|]. split; [rewrite V2, V2'; exact HS|]. split; [congruence|].
    assert (E : res_rel (fun a b => be_start a = be_start b /\ be_medoids a = be_medoids b) (vamana_env v) (vamana_env v')).
    { unfold vamana_env. rewrite <- Ef, <- El, <- E4, <- En, <- (medoid_rel D (sp_n (vi_sp v)) _ _ HD Hc).
      apply (bind_rel _ _ _ _ eq); [apply same_rel|]. intros ms ? <-. apply (bind_rel _ _ _ _ eq); [apply same_rel|]. intros s ? <-. cbn. auto. }
    rewrite V, V' in E. exact E. }
  rewrite V, V'. cbn [bind].
  assert (HP : pruning_rel env D).
  { split; [exact HD|]. rewrite V1, V3. split; [exact Hs|]. intros _. exact Hq. }
  assert (Hq' : ratio_rel (bp_alpha (be_prm env)) D D) by (rewrite V3; exact Hq).
  rewrite <- E5, <- E6.
  apply (bind_rel _ _ _ _ (bs_rel (widen D))).
  - apply build_run_rel; auto.
    + rewrite V1. apply (vo_sort _ Hv).
    + rewrite V2. apply (vo_sched _ Hv).
    + apply build_init_inv.
    + apply build_init_inv.
    + pose proof HE as [_ [[En' _] _]]. unfold build_init. split; cbn; rewrite <- En'; [reflexivity|]. apply tasks_same. exact I.
  - intros st st' Hst. rewrite <- (done_rel _ _ _ Hst). destruct (all_done st); [|exact I].
    rewrite <- (proj1 Hst), <- (cleanup_rel D env env' _ _ HD); auto; [|rewrite V1; exact Hs].
    apply (bind_rel _ _ _ _ eq); [apply same_rel|]. intros g ? <-. rewrite <- En, <- El, <- E3.
    apply (bind_rel _ _ _ _ eq); [apply same_rel|]. intros md ? <-. pose proof HE as [_ [_ [_ [F1 F2]]]]. rewrite <- F1, <- F2. reflexivity.
Qed.

(** ** Relative neighbourhood graph *)
Lemma rng_pool_rel : forall D sp sp' loc, space_rel D sp sp' -> Forall2 (nb_rel D) (rng_pool sp loc) (rng_pool sp' loc).
Proof.
  intros D sp sp' loc [En [_ [_ Hd]]]. unfold rng_pool. rewrite <- En. induction (filter _ _) as [|j l IH]; cbn [map]; constructor; [|exact IH].
  repeat split. apply Hd.
Qed.

Lemma rng_build_rel : forall D sortf sp sp' tags c c' order, alike D -> by_comparisons sortf -> ratio_rel f32_one D D -> space_rel D sp sp' -> Forall2 D c c' ->
  rng_build sortf sp tags c order = rng_build sortf sp' tags c' order.
Proof.
  intros D sortf sp sp' tags c c' order HD Hs Hq HS Hc. pose proof HS as [En [Ef [El Hd]]]. apply rel_eq. unfold rng_build.
  rewrite <- En, <- El, <- (medoid_rel D (sp_n sp) _ _ HD Hc). apply (bind_rel _ _ _ _ eq); [apply same_rel|]. intros s ? <-.
  assert (E : forall order g, rng_loop sortf sp g order = rng_loop sortf sp' g order).
  { clear - HD Hs Hq HS En. intros order. induction order as [|x order IH]; intros g; cbn [rng_loop]; [reflexivity|].
    replace (rng_step sortf sp' g x) with (rng_step sortf sp g x); [destruct (rng_step sortf sp g x); cbn [bind]; auto|].
    unfold rng_step. rewrite <- En. destruct (_ =? _); [reflexivity|].
    replace (rng_params sp') with (rng_params sp) by (unfold rng_params; congruence).
    rewrite (prune_alpha_rel D D sortf sp sp' (rng_params sp) x (rng_pool sp x) (rng_pool sp' x) []); auto using rng_pool_rel. }
  rewrite E. apply (bind_rel _ _ _ _ eq); [apply same_rel|]. intros g ? <-. apply same_rel.
Qed.

(** ** HNSW *)
Definition hn_rel (D : f32 -> f32 -> Prop) (env : benv) : Prop :=
  alike (widen D) /\ by_comparisons (be_sort env) /\ (bp_rule (be_prm env) = 0 -> ratio_rel (bp_alpha (be_prm env)) (widen D) D).

Lemma hn_pruning : forall D env, hn_rel D env -> pruning_rel env D.
Proof.
  intros D env [HW [Hs Hq]]. split; [apply alike_narrow; exact HW|]. split; [exact Hs|]. intros H a a' b b' Ha Hb. apply (Hq H); [left; exact Ha|exact Hb].
Qed.

Lemma inner_search_rel : forall R sortf levels dist dist' L k fs ind dst, by_comparisons sortf -> alike R -> R FLT_MAX FLT_MAX -> (forall id, R (dist id) (dist' id)) ->
  res_rel (out_rel R) (hnsw_search sortf levels dist L k fs ind dst) (hnsw_search sortf levels dist' L k fs ind dst).
Proof.
  intros R sortf levels dist dist' L k fs ind dst Hs HR HM. revert dist dist' L k fs ind dst.
  induction levels as [|ix inner IH]; intros dist dist' L k fs ind dst Hd; cbn [hnsw_search]; [exact I|].
  apply (bind_rel _ _ _ _ eq).
  - destruct inner as [|inn rest]; [reflexivity|]. apply (bind_rel _ _ _ _ (out_rel R)); [apply IH; intros; apply Hd|].
    intros [[a b] c] [[a' b'] c'] [[H1 _] H2]. cbn in *. congruence.
  - intros init ? <-. apply search_rel; [exact Hs| |apply dst_same]. split; [exact HR|]. split; [exact HM|]. auto.
Qed.

Lemma h_step_rel : forall D b b' inner loc g t t', hn_rel D b -> env_rel D b b' -> task_rel (widen D) t t' ->
  res_rel (step_rel (widen D)) (h_task_step (mkH b inner) loc g t) (h_task_step (mkH b' inner) loc g t').
Proof.
  intros D b b' inner loc g t t' HN HE H. pose proof HE as [E1 [HS [E2 [E3 E4]]]]. pose proof HS as [En [Ef [El Hd]]]. pose proof HN as [HW [Hs Hq]].
  assert (SD : sides (widen D) (sp_n (be_sp b)) (sp_pd (be_sp b) loc) (sp_pd (be_sp b') loc)).
  { split; [exact HW|]. split; [right; auto|]. intros. left. apply Hd. }
  destruct t as [|s|pr|todo|des new todo].
  - destruct t'; try contradiction. cbn [h_task_step he_b]. rewrite <- En. destruct (_ =? _); [exact I|].
    apply (bind_rel _ _ _ _ eq).
    + unfold h_init_ids. cbn [he_inner he_b]. rewrite <- E3, <- E1, <- E2. destruct inner as [|inn rest]; [reflexivity|].
      apply (bind_rel _ _ _ _ (out_rel (widen D))); [apply inner_search_rel; auto; [right; auto|intros; left; apply Hd]|].
      intros [[a c] e] [[a' c'] e'] [[H1 _] H2]. cbn in *. congruence.
    + intros ids ? <-. rewrite <- E1, <- E2. apply (bind_rel _ _ _ _ (g_rel (widen D))); [apply greedy_init_rel; assumption|].
      intros s s' Hss. split; [reflexivity|exact Hss].
  - destruct t' as [|s'| | |]; try contradiction. cbn [task_rel] in H. cbn [h_task_step he_b]. rewrite (running_rel _ _ _ H). destruct (greedy_running s').
    + rewrite <- En, <- El, <- E2. apply (bind_rel _ _ _ _ (g_rel (widen D))); [apply greedy_step_rel; assumption|].
      intros q q' Hqq. split; [reflexivity|exact Hqq].
    + apply (bind_rel _ _ _ _ eq); [|intros pr ? <-; cbn; split; reflexivity]. unfold h_prune. cbn [he_b]. rewrite <- E1, <- E2.
      pose proof H as [[Ha _] _]. destruct (bp_rule (be_prm b) =? 0) eqn:Er.
      * apply Nat.eqb_eq in Er. rewrite (prune_alpha_rel (widen D) D (be_sort b) _ (be_sp b') (be_prm b) loc _ (p_arr (g_pool s')) []); auto. apply same_rel.
      * rewrite (prune_topk_rel (widen D) (be_sort b) (be_prm b) loc _ (p_arr (g_pool s')) []); auto. apply same_rel.
  - destruct t'; try contradiction. cbn [h_task_step he_b]. apply (link_rel _ D); auto using hn_pruning.
  - destruct t'; try contradiction. cbn [h_task_step he_b]. apply (link_rel _ D); auto using hn_pruning.
  - destruct t'; try contradiction. cbn [h_task_step he_b]. apply (link_rel _ D); auto using hn_pruning.
Qed.

Lemma h_run_rel : forall D b b' inner, hn_rel D b -> env_rel D b b' -> forall sched st st', bs_rel (widen D) st st' ->
  res_rel (bs_rel (widen D)) (h_run (mkH b inner) st sched) (h_run (mkH b' inner) st' sched).
Proof.
  intros D b b' inner HN HE sched. induction sched as [|loc sched IH]; intros st st' H; cbn [h_run]; [exact H|].
  apply (bind_rel _ _ _ _ (bs_rel (widen D))); [|intros; apply IH; assumption]. destruct H as [Eg Ht]. unfold h_step.
  apply (bind_rel _ _ _ _ (task_rel (widen D))); [apply rd_rel; exact Ht|]. intros t t' Htt. rewrite <- Eg.
  apply (bind_rel _ _ _ _ (step_rel (widen D))); [apply h_step_rel; assumption|]. intros [g1 t1] [g1' t1'] [Ea Eb]. cbn [fst snd] in *. subst g1'.
  apply (bind_rel _ _ _ _ (Forall2 (task_rel (widen D)))); [apply wr_rel; assumption|]. intros ts ts' Hts. split; [reflexivity|exact Hts].
Qed.

Lemma h_cleanup_rel : forall D b b' inner nodes g, hn_rel D b -> env_rel D b b' -> h_cleanup (mkH b inner) g nodes = h_cleanup (mkH b' inner) g nodes.
Proof.
  intros D b b' inner nodes g HN HE. revert g. induction nodes as [|x nodes IH]; intros g; cbn [h_cleanup]; [reflexivity|].
  assert (E : h_cleanup_node (mkH b inner) g x = h_cleanup_node (mkH b' inner) g x).
  { unfold h_cleanup_node. cbn [he_b]. pose proof HE as [_ [_ [<- _]]]. destruct (rd g x) as [nb| | | |]; cbn [bind]; auto.
    destruct (_ <? _); [|reflexivity]. rewrite (reprune_rel D b b' x nb); auto using hn_pruning. }
  rewrite E. destruct (h_cleanup_node (mkH b' inner) g x); cbn [bind]; auto.
Qed.

Definition choice_rel (D : f32 -> f32 -> Prop) (c c' : hchoice) : Prop :=
  hc_sample c = hc_sample c' /\ Forall2 D (hc_centroid c) (hc_centroid c') /\ hc_sched c = hc_sched c' /\ hc_order c = hc_order c'.

Lemma hnsw_build_rel : forall D sortf prm, alike (widen D) -> by_comparisons sortf -> (bp_rule prm = 0 -> ratio_rel (bp_alpha prm) (widen D) D) ->
  forall cs cs', Forall2 (choice_rel D) cs cs' -> forall sp sp' tags, space_rel D sp sp' -> hnsw_build sortf prm sp tags cs = hnsw_build sortf prm sp' tags cs'.
Proof.
  intros D sortf prm HW Hs Hq cs cs' H. induction H as [|c c' cs cs' Hc Hcs IH]; intros sp sp' tags HS; cbn [hnsw_build]; [reflexivity|].
  apply rel_eq. pose proof HS as [En [Ef [El Hd]]]. destruct Hc as [Hsam [Hcen [Hsch Hord]]].
  apply (bind_rel _ _ _ _ eq).
  - destruct Hcs as [|c1 c1' l l' H1 Hl]; [reflexivity|]. rewrite <- Hsam.
    rewrite (IH (sub_space sp (hc_sample c)) (sub_space sp' (hc_sample c)) (hc_sample c)); [apply same_rel|].
    repeat split; cbn; auto.
  - intros inner ? <-. rewrite <- En, <- (medoid_rel D (sp_n sp) _ _ (alike_narrow D HW) Hcen).
    apply (bind_rel _ _ _ _ eq); [apply same_rel|]. intros s ? <-. cbv zeta. cbn [he_b].
    assert (HN : hn_rel D (mkEnv sortf sp prm s [])) by (repeat split; cbn; auto; apply HW; assumption).
    assert (HE : env_rel D (mkEnv sortf sp prm s []) (mkEnv sortf sp' prm s [])) by (repeat split; cbn; auto).
    rewrite <- Hsch, <- Hord. apply (bind_rel _ _ _ _ (bs_rel (widen D))).
    + apply (h_run_rel D); auto. unfold build_init. cbn [be_sp]. rewrite <- En. split; [reflexivity|]. apply tasks_same. exact I.
    + intros st st' Hst. rewrite <- (done_rel _ _ _ Hst). destruct (all_done st); [|exact I]. rewrite <- (proj1 Hst).
      rewrite (h_cleanup_rel D _ (mkEnv sortf sp' prm s []) inner (hc_order c) (bs_graph st) HN HE). apply (bind_rel _ _ _ _ eq); [apply same_rel|].
      intros g ? <-. rewrite <- El. reflexivity.
Qed.

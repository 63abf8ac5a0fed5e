(** * Whole Vamana builds and searches with a list as long as the data set. *)
From Coq Require Import ZArith String List Arith Lia Bool Sorting.Sorted Sorting.Permutation.
From Verif Require Import Base Float32 Float32Facts PoolModel TopKSpec SortSpec GraphSpec FilterSpec GreedyModel SearchSpec SearchModel
  PruneModel PruneSpec BuildModel BuildSpec ListLemmas FilterProofs PoolProofs PoolProofs2 GreedyProofs SearchProofs AcceptProofs PruneProofs
  BuildProofs BuildProofs2 EntryModel EntrySpec EntryProofs VamanaModel VamanaProofs WideSpec WideProofs WideProofs2 BuildWitness SortInst.
Import ListNotations.

Lemma vamana_wide_acc : forall sortf ix dist L k fs ind dst,
  sorts sortf -> index_ok ix -> ix_n ix <= L -> (forall id, is_nan (dist id) = false) ->
  (fs = [] \/ length (pts_to_labels (ix_labels ix)) = ix_n ix) -> length fs <= L ->
  k <= L + 1 -> k <= length ind -> k <= length dst ->
  exists ids ind' dst', vamana_search sortf ix dist L k fs ind dst = Ok (ind', dst', length ids) /\
    reports (ix_n ix) (ix_tags ix) dist ind' dst' ids /\
    nearest_among k (reach (acc_of (ix_labels ix) fs) (ix_graph ix) (fun x => In x (vamana_init_ids ix fs))) dist ids.
Proof.
  intros sortf ix dist L k fs ind dst Hs Hix HL Hnan Hfl HfL Hk Hi Hd.
  assert (H1 : 1 <= ix_n ix) by apply Hix. assert (HL1 : 1 <= L) by lia.
  destruct (vamana_search_ok sortf ix dist L k fs ind dst) as [st [ind' [dst' [E [V [S1 [S2 [R _]]]]]]]]; auto.
  destruct (greedy_answers sortf (ix_n ix) dist (passes_filter (ix_labels ix) fs) (acc_of (ix_labels ix) fs) L (ix_graph ix)
    (vamana_init_ids ix fs)) as [st' [E' G]]; auto; try apply Hix.
  { intros id Hid. eapply acc_of_ok; eauto. }
  { apply init_ids_ok. auto. }
  assert (st' = st) by congruence. subst st'.
  exists (firstn k (map nid (found st))), ind', dst'. split; [rewrite firstn_length, map_length; exact V|]. split; [exact R|].
  apply greedy_answer_nearest with (L := L); [exact G| |].
  - unfold vamana_init_ids. destruct fs as [|f fs]; [exact HL1|]. pose proof (filter_starts_length (ix_medoids ix) (f :: fs)). lia.
  - apply (at_most_n (ix_n ix)); [exact HL|]. intros x Rx. eapply reach_lt; [apply Hix| |exact Rx]. apply init_ids_ok. exact Hix.
Qed.

(** The labels with which the build looks for the neighbours of a point. *)
Definition build_labels (v : vinput) (id : nat) : list label :=
  if sp_filtered (vi_sp v) then nth id (pts_to_labels (sp_labels (vi_sp v))) [] else [].

Lemma vamana_joined : forall v ix md id, vinput_ok v -> uncut v -> vamana_build v = Ok (ix, md) -> id < sp_n (vi_sp v) ->
  (build_labels v id = [] \/ exists x, In x (build_labels v id) /\ In x (map fst (vi_work v))) ->
  reach (acc_of (ix_labels ix) (build_labels v id)) (ix_graph ix) (fun x => In x (vamana_init_ids ix (build_labels v id))) id.
Proof.
  intros v ix md id H [HR [HC Ha]] Hb Hid Hlab.
  destruct (vamana_env_ok v H) as [env [Ee [Hin [Es [Esp [Eprm Hfm]]]]]].
  unfold vamana_build in Hb. rewrite Ee in Hb. cbn [bind] in Hb.
  pose proof (vo_sort _ H) as Hs. rewrite <- Es in Hs.
  destruct (build_run env (build_init env) (vi_sched v)) as [st| | | |] eqn:Er; try discriminate. cbn [bind] in Hb.
  destruct (all_done st) eqn:Ed; [|discriminate].
  destruct (cleanup env (bs_graph st) (vi_order v)) as [g| | | |] eqn:Eg; try discriminate. cbn [bind] in Hb.
  destruct (update_degree_stats true (sp_n (vi_sp v)) 0 g) as [m| | | |]; try discriminate. cbn [bind] in Hb.
  injection Hb as <- _. cbn [ix_labels ix_graph].
  assert (Hrm : roomy env) by (constructor; rewrite ?Esp, ?Eprm; auto).
  pose proof (built_joined env (vi_sched v) st (vi_order v) g Hs Hin Hrm) as J. rewrite Esp in J.
  specialize (J (vo_sched _ H) Er Ed (vo_order _ H) Eg id Hid). unfold joined, own_acc, own_starts in J. rewrite Esp in J.
  assert (Eo : own_filters env id = build_labels v id).
  { unfold own_filters, task_filters, build_labels. rewrite Esp. destruct (sp_filtered (vi_sp v)) eqn:Ef; [|reflexivity].
    pose proof (vo_lab _ H Ef) as HL. destruct (rd_lt _ (pts_to_labels (sp_labels (vi_sp v))) id) as [fs E]; [lia|]. rewrite E.
    apply rd_ok in E. symmetry. apply nth_error_nth. exact E. }
  rewrite Eo in J. eapply reach_weaken; [|exact J]. intros y Hy. unfold vamana_init_ids. cbn [ix_start ix_medoids].
  destruct (build_labels v id) as [|f fs] eqn:Ebl; [exact Hy|].
  unfold task_init_ids in Hy. destruct (filter_starts (be_medoids env) (f :: fs)) as [|a r] eqn:Eq; [|exact Hy]. exfalso.
  destruct Hlab as [C|[x [Hx Hw]]]; [discriminate|].
  assert (Ef : sp_filtered (vi_sp v) = true) by (unfold build_labels in Ebl; destruct (sp_filtered (vi_sp v)); [reflexivity|discriminate]).
  destruct (label_medoids_final (sp_labels (vi_sp v)) (vi_work v) (vo_rand _ H)) as [ms [Em [_ Hc]]].
  unfold vamana_env in Ee. rewrite Ef, Em in Ee. cbn [bind] in Ee.
  destruct (calculate_medoid (sp_n (vi_sp v)) (vi_centroid v)) as [s| | | |]; try discriminate. cbn [bind] in Ee. injection Ee as <-.
  cbn [be_medoids] in Eq.
  destruct (Hc x Hw) as [p Hp].
  { exists id. exists (f :: fs). split; [|exact Hx]. unfold build_labels in Ebl. rewrite Ef in Ebl.
    destruct (nth_error (pts_to_labels (sp_labels (vi_sp v))) id) as [ls|] eqn:El.
    - rewrite (nth_error_nth _ _ _ El) in Ebl. subst ls; exact El.
    - apply nth_error_None in El. rewrite nth_overflow in Ebl by exact El. discriminate. }
  assert (I : In p (filter_starts (ms_medoids ms) (f :: fs))) by (apply filter_starts_In; exists x; auto).
  rewrite Eq in I. destruct I.
Qed.

Lemma vamana_built : forall v ix md, vinput_ok v -> vamana_build v = Ok (ix, md) ->
  index_ok ix /\ ix_n ix = sp_n (vi_sp v) /\ ix_tags ix = vi_tags v /\ ix_labels ix = sp_labels (vi_sp v).
Proof.
  intros v ix md H Hb. destruct (vamana_build_ok v H) as [[ix' [md' [E [H1 [H2 [H3 [H4 _]]]]]]]|E]; [|congruence].
  assert (ix' = ix) by congruence. subst. auto.
Qed.

Lemma reach_of : forall acc g (S : nat -> Prop) x, reach acc g S x -> S x \/ acc x = true.
Proof. intros acc g S x R. destruct R as [x Hx|x y _ [l [_ [_ A]]]]; auto. Qed.

(** Without labels: exact. *)
Lemma vamana_uncut_reach : forall v ix md id, vinput_ok v -> uncut v -> sp_filtered (vi_sp v) = false ->
  vamana_build v = Ok (ix, md) -> id < sp_n (vi_sp v) -> reach (fun _ => true) (ix_graph ix) (fun x => x = ix_start ix) id.
Proof.
  intros v ix md id H Hu Hf Hb Hid.
  assert (El : build_labels v id = []) by (unfold build_labels; rewrite Hf; reflexivity).
  pose proof (vamana_joined v ix md id H Hu Hb Hid (or_introl El)) as J. rewrite El in J.
  eapply reach_weaken; [|exact J]. intros y [<-|[]]. reflexivity.
Qed.

Lemma vamana_uncut_exact : forall v ix md dist L k ind dst, vinput_ok v -> uncut v -> sp_filtered (vi_sp v) = false ->
  vamana_build v = Ok (ix, md) -> (forall id, is_nan (dist id) = false) -> sp_n (vi_sp v) <= L ->
  k <= L + 1 -> k <= length ind -> k <= length dst ->
  exists ids ind' dst', vamana_search (vi_sort v) ix dist L k [] ind dst = Ok (ind', dst', length ids) /\
    reports (sp_n (vi_sp v)) (vi_tags v) dist ind' dst' ids /\ nearest_among k (fun x => x < sp_n (vi_sp v)) dist ids.
Proof.
  intros v ix md dist L k ind dst H Hu Hf Hb Hnan HL Hk Hi Hd.
  destruct (vamana_built v ix md H Hb) as [Hix [En [Et _]]].
  destruct (vamana_wide_acc (vi_sort v) ix dist L k [] ind dst) as [ids [ind' [dst' [V [R [all [N [A T]]]]]]]]; auto.
  { apply (vo_sort _ H). } { rewrite En. exact HL. } { cbn. lia. }
  exists ids, ind', dst'. split; [exact V|]. split; [rewrite <- En, <- Et; exact R|]. exists all. split; [exact N|]. split; [|exact T].
  intros x. rewrite A. split.
  - intros Rx. rewrite <- En. eapply reach_lt; [apply Hix| |exact Rx]. apply init_ids_ok. exact Hix.
  - intros Hx. eapply reach_weaken; [|exact (vamana_uncut_reach v ix md x H Hu Hf Hb Hx)]. intros y ->. left. reflexivity.
Qed.

(** With labels: a point is found by its own labels. *)
Lemma vamana_uncut_own : forall v ix md id ls dist L k ind dst, vinput_ok v -> uncut v -> sp_filtered (vi_sp v) = true ->
  vamana_build v = Ok (ix, md) -> nth_error (pts_to_labels (sp_labels (vi_sp v))) id = Some ls ->
  (forall x, In x ls -> In x (map fst (vi_work v))) -> (forall id, is_nan (dist id) = false) ->
  sp_n (vi_sp v) <= L -> length ls <= L -> k <= L + 1 -> k <= length ind -> k <= length dst ->
  exists ids ind' dst', vamana_search (vi_sort v) ix dist L k ls ind dst = Ok (ind', dst', length ids) /\
    reports (sp_n (vi_sp v)) (vi_tags v) dist ind' dst' ids /\
    (In id ids \/ (length ids = k /\ forall z, In z ids -> fle (dist z) (dist id) = true)).
Proof.
  intros v ix md id ls dist L k ind dst H Hu Hf Hb Hls Hw Hnan HL HlL Hk Hi Hd.
  destruct (vamana_built v ix md H Hb) as [Hix [En [Et El]]].
  pose proof (vo_lab _ H Hf) as Hlen.
  assert (Hid : id < sp_n (vi_sp v)) by (rewrite <- Hlen; apply nth_error_Some; congruence).
  assert (Eb : build_labels v id = ls) by (unfold build_labels; rewrite Hf; apply nth_error_nth; exact Hls).
  destruct (vamana_wide_acc (vi_sort v) ix dist L k ls ind dst) as [ids [ind' [dst' [V [R [all [N [A T]]]]]]]]; auto.
  { apply (vo_sort _ H). } { rewrite En. exact HL. } { right. rewrite El, En. exact Hlen. }
  exists ids, ind', dst'. split; [exact V|]. split; [rewrite <- En, <- Et; exact R|].
  assert (J : In id all).
  { apply A. rewrite <- Eb. apply (vamana_joined v ix md id H Hu Hb Hid). rewrite Eb. destruct ls as [|x ls]; [left; reflexivity|].
    right. exists x. split; [left; reflexivity|]. apply Hw. left. reflexivity. }
  destruct (top_k_cases _ _ _ (id, dist id) T) as [I|[I1 I2]].
  - unfold score. apply in_map_iff. exists id. auto.
  - left. unfold score in I. apply in_map_iff in I. destruct I as [z [E Hz]]. injection E as <-. exact Hz.
  - right. unfold score in I1. rewrite map_length in I1. split; [exact I1|]. intros z Hz.
    apply (I2 (z, dist z)). unfold score. apply in_map_iff. exists z. auto.
Qed.

(** One label per point: filtered search is exact. *)
Lemma vamana_uncut_label : forall v ix md x dist L k ind dst, vinput_ok v -> uncut v -> sp_filtered (vi_sp v) = true ->
  (forall ls, In ls (pts_to_labels (sp_labels (vi_sp v))) -> exists y, ls = [y] /\ universal_of (sp_labels (vi_sp v)) <> Some y) ->
  universal_of (sp_labels (vi_sp v)) <> Some x -> In x (map fst (vi_work v)) ->
  vamana_build v = Ok (ix, md) -> (forall id, is_nan (dist id) = false) ->
  sp_n (vi_sp v) <= L -> k <= L + 1 -> k <= length ind -> k <= length dst ->
  exists ids ind' dst', vamana_search (vi_sort v) ix dist L k [x] ind dst = Ok (ind', dst', length ids) /\
    reports (sp_n (vi_sp v)) (vi_tags v) dist ind' dst' ids /\
    nearest_among k (fun id => carries (pts_to_labels (sp_labels (vi_sp v))) id x) dist ids.
Proof.
  intros v ix md x dist L k ind dst H Hu Hf Hone Hux Hw Hb Hnan HL Hk Hi Hd.
  destruct (vamana_built v ix md H Hb) as [Hix [En [Et El]]].
  pose proof (vo_lab _ H Hf) as Hlen.
  assert (H1 : 1 <= ix_n ix) by apply Hix.
  destruct (vamana_wide_acc (vi_sort v) ix dist L k [x] ind dst) as [ids [ind' [dst' [V [R [all [N [A T]]]]]]]]; auto.
  { apply (vo_sort _ H). } { rewrite En. exact HL. } { right. rewrite El, En. exact Hlen. } { cbn. lia. }
  exists ids, ind', dst'. split; [exact V|]. split; [rewrite <- En, <- Et; exact R|].
  exists all. split; [exact N|]. split; [|exact T]. intros id. rewrite A. split.
  - intros Rx. assert (Hid : id < ix_n ix) by (eapply reach_lt; [apply Hix| |exact Rx]; apply init_ids_ok; exact Hix).
    rewrite En, <- Hlen in Hid.
    destruct (nth_error (pts_to_labels (sp_labels (vi_sp v))) id) as [ls|] eqn:Els; [|apply nth_error_None in Els; lia].
    exists ls. split; [exact Els|].
    destruct (Hone ls (nth_error_In _ _ Els)) as [y [-> Huy]].
    apply reach_of in Rx. destruct Rx as [Sx|Ax].
    + cbn [vamana_init_ids] in Sx. apply filter_starts_In in Sx. destruct Sx as [z [[<-|[]] Hz]].
      unfold vamana_build in Hb. destruct (vamana_env v) as [env| | | |] eqn:Ee; try discriminate. cbn [bind] in Hb.
      destruct (build_run env (build_init env) (vi_sched v)) as [st| | | |]; try discriminate. cbn [bind] in Hb.
      destruct (all_done st); [|discriminate].
      destruct (cleanup env (bs_graph st) (vi_order v)) as [g| | | |]; try discriminate. cbn [bind] in Hb.
      destruct (update_degree_stats true (sp_n (vi_sp v)) 0 g) as [m| | | |]; try discriminate. cbn [bind] in Hb.
      injection Hb as <- _. cbn [ix_medoids] in Hz.
      destruct (label_medoids_final (sp_labels (vi_sp v)) (vi_work v) (vo_rand _ H)) as [ms [Em [Hc _]]].
      unfold vamana_env in Ee. rewrite Hf, Em in Ee. cbn [bind] in Ee.
      destruct (calculate_medoid (sp_n (vi_sp v)) (vi_centroid v)) as [s| | | |]; try discriminate. cbn [bind] in Ee. injection Ee as <-.
      cbn [be_medoids] in Hz. destruct (Hc x id Hz) as [[ls [E1 I1]]|[u [Eu [ls [E1 I1]]]]].
      * pose proof (eq_trans (eq_sym E1) Els) as E2. injection E2 as ->. exact I1.
      * pose proof (eq_trans (eq_sym E1) Els) as E2. injection E2 as ->. destruct I1 as [->|[]]. exfalso. apply Huy. exact Eu.
    + destruct (acc_filter_test (ix_labels ix) [x]) as [_ F]. rewrite El in F, Ax.
      destruct (F id [y] Els) as [F1 _]. destruct (F1 Ax) as [C|[[z [[<-|[]] I]]|[u [Eu [[C|[]]|[C|[]]]]]]].
      * discriminate.
      * exact I.
      * exfalso. apply Hux. rewrite C. exact Eu.
      * exfalso. apply Huy. rewrite C. exact Eu.
  - intros [ls [Els I]]. destruct (Hone ls (nth_error_In _ _ Els)) as [y [-> Huy]]. destruct I as [->|[]].
    assert (Hid : id < sp_n (vi_sp v)) by (rewrite <- Hlen; apply nth_error_Some; intros C; pose proof (eq_trans (eq_sym Els) C); discriminate).
    assert (Eb : build_labels v id = [x]) by (unfold build_labels; rewrite Hf; apply nth_error_nth; exact Els).
    pose proof (vamana_joined v ix md id H Hu Hb Hid) as J. rewrite Eb in J. apply J. right. exists x. split; [left; reflexivity|exact Hw].
Qed.

(** ** The origin and 127 unit vectors, L = 100, R = 64, C = 750, alpha = 1.2, one thread *)
Definition tight_input : vinput :=
  mkV isort star_space (mkB 100 64 750 f12 0) (seq 0 128) (map (fun i => f32_of_Z (if i =? 127 then 127%Z else 16255%Z)) (seq 0 128)) []
    (one_thread 128 250) (seq 0 128).
Definition tight_graph : graph := repeat [127] 127 ++ [seq 0 64].

Lemma tight_ok : vinput_ok tight_input.
Proof.
  constructor; cbn [tight_input vi_sort vi_sp vi_prm vi_tags vi_centroid vi_work vi_sched vi_order star_space sp_n sp_pd sp_filtered sp_labels bp_L].
  - exact isort_sorts.
  - apply Nat.leb_le. reflexivity.
  - apply Nat.leb_le. reflexivity.
  - intros a b. apply f32_of_Z_not_nan.
  - apply seq_length.
  - rewrite map_length. apply seq_length.
  - intros d Hd. apply in_map_iff in Hd. destruct Hd as [i [<- _]]. apply f32_of_Z_not_nan.
  - discriminate.
  - intros x r [].
  - intros i Hi. unfold one_thread in Hi. apply in_concat in Hi. destruct Hi as [l [Hl Hi]]. apply in_map_iff in Hl.
    destruct Hl as [j [<- Hj]]. apply repeat_spec in Hi. subst. apply in_seq in Hj. apply Hj.
  - apply Permutation_refl.
Qed.

Lemma tight_built : vamana_build tight_input = Ok (mkI 128 (seq 0 128) (mkL [] true "0"%string) [] 127 tight_graph, 64).
Proof. vm_compute. reflexivity. Qed.

Lemma some_eq : forall (A : Type) (a b : A), Some a = Some b -> a = b.
Proof. congruence. Qed.

Lemma tight_closed : forall x, reach (fun _ => true) tight_graph (fun y => In y [127]) x -> x = 127 \/ x < 64.
Proof.
  intros x R. induction R as [x [<-|[]]|x y R IH [l [E [I _]]]]; [left; reflexivity|].
  unfold tight_graph in E. destruct IH as [->|Hx].
  - right. rewrite nth_error_app2 in E by (rewrite repeat_length; apply Nat.leb_le; reflexivity). rewrite repeat_length, Nat.sub_diag in E.
    change (Some (seq 0 64) = Some l) in E. apply some_eq in E. rewrite <- E in I. apply in_seq in I. apply I.
  - left. assert (H127 : x < 127) by (eapply Nat.lt_le_trans; [exact Hx|apply Nat.leb_le; reflexivity]).
    rewrite nth_error_app1 in E by (rewrite repeat_length; exact H127).
    apply nth_error_In, repeat_spec in E. subst l. destruct I as [<-|[]]. reflexivity.
Qed.

Lemma repeat_sorted : forall x m, StronglySorted le (repeat x m).
Proof.
  intros x m. induction m; cbn; constructor; auto. apply Forall_forall. intros y Hy. apply repeat_spec in Hy. subst. lia.
Qed.

Lemma one_thread_sorted : forall steps n s, StronglySorted le (concat (map (fun i => repeat i steps) (seq s n))).
Proof.
  intros steps. induction n as [|n IH]; intros s; [constructor|]. cbn [seq map concat].
  apply ssorted_app. split; [apply repeat_sorted|]. split; [apply IH|].
  intros a b Ha Hb. apply repeat_spec in Ha. apply in_concat in Hb. destruct Hb as [l [Hl Hb]]. apply in_map_iff in Hl.
  destruct Hl as [j [<- Hj]]. apply repeat_spec in Hb. apply in_seq in Hj. lia.
Qed.

Lemma tight_misses : exists v ix md id, vinput_ok v /\ sp_filtered (vi_sp v) = false /\
  sp_n (vi_sp v) = 128 /\ vi_prm v = mkB 100 64 750 f12 0 /\ StronglySorted le (vi_sched v) /\
  vamana_build v = Ok (ix, md) /\ id < 128 /\
  (forall p, p < 128 -> p <> id -> fle f32_one (sp_pd (vi_sp v) p id) = true) /\ feq (sp_pd (vi_sp v) id id) f32_zero = true /\
  forall L k ind dst, 1 <= L -> k <= L + 1 -> k <= length ind -> k <= length dst ->
    exists ids ind' dst', vamana_search (vi_sort v) ix (fun p => sp_pd (vi_sp v) p id) L k [] ind dst = Ok (ind', dst', length ids) /\
      reports (sp_n (vi_sp v)) (vi_tags v) (fun p => sp_pd (vi_sp v) p id) ind' dst' ids /\ ~ In id ids.
Proof.
  exists tight_input, (mkI 128 (seq 0 128) (mkL [] true "0"%string) [] 127 tight_graph), 64, 100.
  split; [exact tight_ok|]. split; [reflexivity|]. split; [reflexivity|]. split; [reflexivity|].
  split; [|split; [exact tight_built|split; [apply Nat.ltb_lt; reflexivity|split; [|split; [reflexivity|]]]]].
  { exact (one_thread_sorted 250 128 0). }
  { intros p Hp Hne. change (sp_pd (vi_sp tight_input)) with star_pd. unfold star_pd.
    rewrite (proj2 (Nat.eqb_neq p 100) Hne). destruct ((p =? 127) || (100 =? 127)); reflexivity. }
  intros L k ind dst HL Hk Hi Hd.
  destruct (vamana_built tight_input _ 64 tight_ok tight_built) as [Hix _].
  destruct (vamana_search_ok (vi_sort tight_input) (mkI 128 (seq 0 128) (mkL [] true "0"%string) [] 127 tight_graph)
    (fun p => sp_pd (vi_sp tight_input) p 100) L k [] ind dst) as [st [ind' [dst' [E [V [_ [_ [R Hr]]]]]]]]; auto.
  { exact isort_sorts. } { intros p. apply f32_of_Z_not_nan. }
  exists (firstn k (map nid (found st))), ind', dst'. split; [rewrite firstn_length, map_length; exact V|]. split; [exact R|].
  intros I. apply In_firstn in I. apply in_map_iff in I. destruct I as [z [Ez Hz]]. apply Hr in Hz. rewrite Ez in Hz.
  apply tight_closed in Hz. destruct Hz as [C|C]; [discriminate|]. apply Nat.ltb_lt in C. discriminate.
Qed.

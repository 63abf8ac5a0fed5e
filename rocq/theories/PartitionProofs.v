(** * Lemmas about partitioning. *)
From Coq Require Import ZArith NArith String List Arith Bool Lia Floats.SpecFloat.
From Verif Require Import Base Bytes Float32 FloatBits DivFacts ListLemmas StreamModel BinModel BinSpec BinProofs TextModel TextProofs IndexFileModel IndexFileProofs2 CacheModel CacheProofs
  ClosestModel ClosestSpec TruthModel PqModel PqSpec LloydModel LloydSpec LloydProofs LloydProofs2 SystemProofs3 ConvertModel ShardModel ShardSpec ShardProofs ShardProofs2 ShardProofs3 SliceModel SliceProofs
  PqFileModel PqFileSpec PqFileProofs PqFileProofs2 PqFileProofs3 PartitionModel PartitionSpec.
Import ListNotations.

Lemma kmeans_new_shape : forall e dim nc reps rows p, kmeans_new e dim nc reps rows = Ok p -> 1 <= reps -> rows_of nc dim p /\ floats_ok p.
Proof.
  intros e dim nc reps rows p H Hr. unfold kmeans_new in H. apply bind_ok in H. destruct H as [first [_ H]]. apply bind_ok in H. destruct H as [cs [_ H]].
  apply bind_ok in H. destruct H as [st [E H]]. injection H as <-.
  destruct (run_lloyds_ok _ _ _ _ _ _ _ _ _ _ _ _ _ _ _ E Hr) as [r [s [Hr1 [_ [Es [Hrun _]]]]]].
  destruct r as [|r]; [lia|]. specialize (Hrun r (Nat.lt_succ_diag_r r)). cbn beta in Hrun. rewrite Es in Hrun.
  assert (S : rows_shape nc dim (ll_centers st)) by (eapply lloyd_iter_shape; eauto). exact S.
Qed.

(** ** Names *)
Lemma show_split : forall a b c d x y, is_digit c = false -> is_digit d = false ->
  (show a ++ String c x)%string = (show b ++ String d y)%string -> a = b /\ String c x = String d y.
Proof.
  intros a b c d x y Hc Hd E. destruct (digits_show a) as [k [_ Ha]]. destruct (digits_show b) as [k' [_ Hb]].
  pose proof (digits_app _ (String c x) _ _ _ _ Ha) as Ea. pose proof (digits_app _ (String d y) _ _ _ _ Hb) as Eb.
  rewrite E in Ea. rewrite Ea in Eb. cbn [digits] in Eb. rewrite Hc, Hd in Eb. injection Eb as E1 E2 E3 E4. subst. auto.
Qed.

Lemma eq_app : forall a b c : string, (a ++ b)%string = (a ++ c)%string -> b = c.
Proof. exact sapp_inj_l. Qed.

Lemma ids_ids : forall prefix i j, ids_name prefix i = ids_name prefix j -> i = j.
Proof. intros prefix i j H. unfold ids_name in H. apply eq_app in H. apply eq_app in H. apply show_split in H; [|reflexivity..]. destruct H as [H _]. now apply Nat2N.inj. Qed.
Lemma shard_shard : forall prefix i j, shard_name prefix i = shard_name prefix j -> i = j.
Proof. intros prefix i j H. unfold shard_name in H. apply eq_app in H. apply eq_app in H. apply show_split in H; [|reflexivity..]. destruct H as [H _]. now apply Nat2N.inj. Qed.
Lemma shard_ids : forall prefix i j, shard_name prefix i <> ids_name prefix j.
Proof. intros prefix i j H. unfold shard_name, ids_name in H. apply eq_app in H. apply eq_app in H. apply show_split in H; [|reflexivity..]. destruct H as [_ H]. discriminate. Qed.
Lemma cent_shard : forall prefix i, centroids_name prefix <> shard_name prefix i.
Proof. intros prefix i H. unfold centroids_name, shard_name in H. apply eq_app in H. discriminate. Qed.
Lemma cent_ids : forall prefix i, centroids_name prefix <> ids_name prefix i.
Proof. intros prefix i H. unfold centroids_name, ids_name in H. apply eq_app in H. discriminate. Qed.

Lemma write_shards_other : forall prefix l i d name, (forall j, i <= j < i + length l -> name <> shard_name prefix j /\ name <> ids_name prefix j) -> write_shards prefix i l d name = d name.
Proof.
  intros prefix. induction l as [|[data ids] l IH]; intros i d name H; cbn [write_shards]; [reflexivity|]. cbn [length] in H. rewrite IH by (intros j Hj; apply H; lia).
  destruct (H i ltac:(lia)) as [H1 H2]. rewrite fs_neq by auto. destruct data; [rewrite fs_neq by auto|]; reflexivity.
Qed.

(** Without data, the names of data files are not touched either. *)
Lemma write_shards_ids_only : forall prefix l i d name, (forall x, In x l -> fst x = None) -> (forall j, i <= j < i + length l -> name <> ids_name prefix j) -> write_shards prefix i l d name = d name.
Proof.
  intros prefix. induction l as [|[data ids] l IH]; intros i d name Hl H; cbn [write_shards]; [reflexivity|]. cbn [length] in H.
  rewrite IH; [|intros x Hx; apply Hl; now right|intros j Hj; apply H; lia]. rewrite fs_neq by (apply H; lia). specialize (Hl (data, ids) (or_introl eq_refl)). cbn in Hl. now rewrite Hl.
Qed.

Lemma write_shards_at : forall prefix l i d j x, nth_error l j = Some x ->
  write_shards prefix i l d (ids_name prefix (i + j)) = Some (snd x) /\ (forall f, fst x = Some f -> write_shards prefix i l d (shard_name prefix (i + j)) = Some f).
Proof.
  intros prefix. induction l as [|[data ids] l IH]; intros i d j x Hj; [destruct j; discriminate|]. destruct j as [|j]; cbn [nth_error] in Hj; cbn [write_shards].
  - injection Hj as <-. cbn [fst snd]. rewrite Nat.add_0_r. split.
    + rewrite write_shards_other; [apply fs_set_same|]. intros j Hj. split; [apply not_eq_sym, shard_ids|]. intros E. apply ids_ids in E. lia.
    + intros f ->. rewrite write_shards_other; [rewrite fs_neq by apply shard_ids; apply fs_set_same|]. intros j Hj. split; [|apply shard_ids]. intros E. apply shard_shard in E. lia.
  - replace (i + S j) with (S i + j) by lia. apply IH; auto.
Qed.

(** ** Saving the shards *)
Lemma file_row_ok : forall w conv n dim base p, rows_ok n (dim * w) dim base -> p < n -> file_row w conv dim (Some (vector_file dim base)) p = nth p (float_rows w conv dim base) [].
Proof.
  intros w conv n dim base p [HL [HR _]] Hp. unfold file_row, float_rows. rewrite (nth_indep (map _ base) [] (map conv (dec_all w dim []))) by (rewrite map_length; lia).
  rewrite (map_nth (fun r => map conv (dec_all w dim r))). do 2 f_equal. replace (dim * w) with (1 * (dim * w)) at 1 by lia. rewrite block_rows by auto.
  destruct (skipn p base) as [|r t] eqn:E; [apply (f_equal (@length _)) in E; rewrite skipn_length in E; cbn in E; lia|].
  cbn [firstn concat]. rewrite app_nil_r. rewrite <- (firstn_skipn p base) at 1. rewrite app_nth2; rewrite firstn_length_le by lia; [|lia]. rewrite E, Nat.sub_diag. reflexivity.
Qed.

Lemma shard_data_len : forall g popf mbs maxb wd dmat w nc dim k orders f out, shard_data g popf mbs maxb wd dmat w nc dim k orders f = Ok (Some out) ->
  forall x, In x out -> (wd = false -> fst x = None).
Proof.
  intros g popf mbs maxb wd dmat w nc dim k orders f out H x Hx ->. unfold shard_data in H. apply bind_ok in H. destruct H as [r1 [_ H]]. apply bind_ok in H. destruct H as [r2 [_ H]].
  destruct (negb _); [discriminate|]. match type of H with (if ?b then _ else _) = _ => destruct b; [discriminate|] end. apply bind_ok in H. destruct H as [sh [_ H]]. injection H as <-.
  apply in_map_iff in Hx. destruct Hx as [s [<- _]]. reflexivity.
Qed.

Lemma shard_copies_len : forall wd k p id row closest cnt p1 shards out, shard_copies wd k p id row closest p1 cnt shards = Ok out -> length out = length shards.
Proof.
  intros wd k p id row closest. induction cnt as [|cnt IH]; intros p1 shards out H; cbn [shard_copies] in H; [injection H as <-; reflexivity|].
  apply bind_ok in H. destruct H as [s [_ H]]. apply bind_ok in H. destruct H as [sh [_ H]]. apply bind_ok in H. destruct H as [sh' [E H]]. apply IH in H. rewrite H. eapply wr_length; eauto.
Qed.

Lemma shard_points_len : forall wd rl k start blk closest cnt p shards out, shard_points wd rl k start blk closest p cnt shards = Ok out -> length out = length shards.
Proof.
  intros wd rl k start blk closest. induction cnt as [|cnt IH]; intros p shards out H; cbn [shard_points] in H; [injection H as <-; reflexivity|].
  apply bind_ok in H. destruct H as [sh [E H]]. apply IH in H. rewrite H. eapply shard_copies_len; eauto.
Qed.

Lemma shard_blocks_len : forall g popf mbs wd dmat n rl nc k bs orders cnt c b closest shards out,
  shard_blocks g popf mbs wd dmat n rl nc k bs orders c b cnt closest shards = Ok out -> length out = length shards.
Proof.
  intros g popf mbs wd dmat n rl nc k bs orders. induction cnt as [|cnt IH]; intros c b closest shards out H; cbn [shard_blocks] in H; [injection H as <-; reflexivity|].
  apply bind_ok in H. destruct H as [r [_ H]]. apply bind_ok in H. destruct H as [cl [_ H]]. apply bind_ok in H. destruct H as [sh [E H]]. apply IH in H. rewrite H. eapply shard_points_len; eauto.
Qed.

Lemma shard_data_count : forall g popf mbs maxb wd dmat w nc dim k orders f out, shard_data g popf mbs maxb wd dmat w nc dim k orders f = Ok (Some out) -> length out = nc.
Proof.
  intros g popf mbs maxb wd dmat w nc dim k orders f out H. unfold shard_data in H. apply bind_ok in H. destruct H as [r1 [_ H]]. apply bind_ok in H. destruct H as [r2 [_ H]].
  destruct (negb _); [discriminate|]. match type of H with (if ?b then _ else _) = _ => destruct b; [discriminate|] end. apply bind_ok in H. destruct H as [sh [E H]]. injection H as <-.
  rewrite map_length. apply shard_blocks_len in E. now rewrite E, repeat_length.
Qed.

Lemma not_named : forall prefix p name, ~ In name (partition_names prefix p) -> name <> centroids_name prefix /\ forall j, j < p -> name <> shard_name prefix j /\ name <> ids_name prefix j.
Proof.
  intros prefix p name H. split; [intros E; apply H; left; auto|]. intros j Hj. split; intros E; apply H; right; apply in_flat_map; exists j; (split; [apply in_seq; lia|]); [left|right; left]; auto.
Qed.

Lemma save_shards_ok : forall g a wd w conv data prefix n dim k base cs d d', rows_ok n (dim * w) dim base -> d data = Some (vector_file dim base) ->
  (forall r, In r cs -> length r = dim) -> ~ In data (partition_names prefix (length cs)) -> save_shards g a wd w conv data prefix dim k cs d = Ok d' ->
  d' (centroids_name prefix) = Some (float_file (length cs) dim cs) /\ same_but (partition_names prefix (length cs)) d d' /\
  (wd = false -> forall i, d' (shard_name prefix i) = d (shard_name prefix i)) /\ 1 <= n /\
  (pops (cl_popf a) -> 1 <= cl_mbs a -> 1 <= cl_maxb a -> 1 <= length cs -> k <= length cs -> shard_orders n k (min n (cl_maxb a)) (cl_mbs a) (cl_orders a) ->
   usable_dists (data_dist a (float_rows w conv dim base) cs) n (length cs) k ->
   exists assign, nearest_shards (data_dist a (float_rows w conv dim base) cs) n (length cs) k assign /\
     forall i, i < length cs -> d' (ids_name prefix i) = Some (id_file (shard_points_of assign n i)) /\
       (wd = true -> d' (shard_name prefix i) = Some (shard_file dim base (shard_points_of assign n i)))).
Proof.
  intros g a wd w conv data prefix n dim k base cs d d' HR Hdata Hcs Hnd H. pose proof HR as [HL [HR1 [Hn32 [Hd32 Hf]]]]. unfold save_shards in H.
  rewrite (save_bin_ok 4 (map bits_of_f32 (concat cs))) in H by (rewrite map_length, (concat_uniform _ dim cs Hcs); lia). cbn [bind] in H.
  destruct (not_named _ _ _ Hnd) as [Nc Ns]. rewrite !fs_neq, Hdata in H by auto. fold (float_file (length cs) dim cs) in H. set (d1 := fs_set d (centroids_name prefix) _) in *.
  apply bind_ok in H. destruct H as [out [E H]]. injection H as <-.
  assert (Hn : 1 <= n). { destruct n as [|n]; [|lia]. exfalso. unfold shard_data in E. destruct (vector_header g 0 _ dim base HR) as [c1 [c2 [F1 [F2 R]]]]. rewrite F1 in E. cbn [bind fst snd] in E.
    rewrite F2 in E. cbn [bind fst snd] in E. rewrite !dec_u32 in E by auto. rewrite N.eqb_refl in E. discriminate. }
  assert (Eo : exists l, out = Some l).
  { destruct out as [l|]; [eauto|]. exfalso. unfold shard_data in E. destruct (vector_header g n _ dim base HR) as [c1 [c2 [F1 [F2 R]]]]. rewrite F1 in E. cbn [bind fst snd] in E.
    rewrite F2 in E. cbn [bind fst snd] in E. rewrite !dec_u32 in E by auto. rewrite N.eqb_refl in E. cbn [negb] in E.
    match type of E with (if ?b then _ else _) = _ => destruct b; [discriminate|] end. apply bind_ok in E. destruct E as [sh [_ E]]. discriminate. }
  destruct Eo as [l El]. rewrite El in *. pose proof (shard_data_count _ _ _ _ _ _ _ _ _ _ _ _ _ E) as Ll. split; [|split; [|split; [|split; [exact Hn|]]]].
  - rewrite write_shards_other; [apply fs_set_same|]. intros j _. split; [apply cent_shard|apply cent_ids].
  - intros name Hname. destruct (not_named _ _ _ Hname) as [Mc Ms]. rewrite write_shards_other; [apply fs_neq; auto|]. intros j Hj. apply Ms. lia.
  - intros Hwd i. rewrite write_shards_ids_only; [apply fs_neq, not_eq_sym, cent_shard| |intros; apply shard_ids].
    intros x Hx. eapply shard_data_len; eauto.
  - intros Hp Hm Hx Hc Hk Ho HU.
    assert (HU' : usable_dists (fun p c => cl_dist a p (file_row w conv dim (Some (vector_file dim base)) p) (nth c cs [])) n (length cs) k).
    { intros p Hp'. specialize (HU p Hp'). unfold data_dist in HU. rewrite (file_row_ok w conv n dim base p HR Hp'). exact HU. }
    destruct (shard_nearest g (cl_popf a) (cl_mbs a) (cl_maxb a) wd _ n w (length cs) dim k (cl_orders a) base Hp Hm Hx Hc Hn HR HU' Ho Hk) as [assign [A [[out' [E' [_ Hout]]] _]]].
    rewrite E' in E. injection E as <-. exists assign. split.
    + intros p Hp'. specialize (A p Hp'). cbn beta in A. unfold data_dist. rewrite (file_row_ok w conv n dim base p HR Hp') in A. exact A.
    + intros i Hi. specialize (Hout i Hi). cbv zeta in Hout. destruct (write_shards_at prefix out' 0 d1 i _ Hout) as [W1 W2]. cbn [plus fst snd] in W1, W2.
      split; [exact W1|]. intros Hwd. apply W2. now rewrite Hwd.
Qed.

(** ** partition *)
Lemma partition_ok : forall g g' e a w conv pick data prefix nparts reps k n dim base d d', rows_ok n (dim * w) dim base -> d data = Some (vector_file dim base) ->
  ~ In data (partition_names prefix nparts) -> 1 <= reps -> partition g g' e a w conv pick data prefix nparts reps k d = Ok d' ->
  exists cs, kmeans_new e dim nparts reps (picked w conv dim base pick) = Ok cs /\ rows_of nparts dim cs /\
    d' (centroids_name prefix) = Some (float_file nparts dim cs) /\ same_but (partition_names prefix nparts) d d' /\
    (pops (cl_popf a) -> 1 <= cl_mbs a -> 1 <= cl_maxb a -> 1 <= nparts -> k <= nparts -> shard_orders n k (min n (cl_maxb a)) (cl_mbs a) (cl_orders a) ->
     usable_dists (data_dist a (float_rows w conv dim base) cs) n nparts k ->
     exists assign, nearest_shards (data_dist a (float_rows w conv dim base) cs) n nparts k assign /\
       forall i, i < nparts -> d' (ids_name prefix i) = Some (id_file (shard_points_of assign n i)) /\ d' (shard_name prefix i) = Some (shard_file dim base (shard_points_of assign n i))).
Proof.
  intros g g' e a w conv pick data prefix nparts reps k n dim base d d' HR Hdata Hnd Hreps H. unfold partition in H. rewrite Hdata in H.
  destruct (sample_split g w conv n dim base pick HR) as [floats [E1 [E2 _]]]. rewrite E1 in H. cbn [bind] in H. rewrite E2 in H.
  assert (EP : map (fun p => nth p (float_rows w conv dim base) []) (filter pick (seq 0 n)) = picked w conv dim base pick) by (unfold picked; destruct HR as [HL _]; now rewrite HL). rewrite EP in H.
  apply bind_ok in H. destruct H as [cs [Ek H]]. destruct (kmeans_new_shape _ _ _ _ _ _ Ek Hreps) as [[Lc Rc] _]. rewrite <- Lc in Hnd.
  destruct (save_shards_ok _ _ _ _ _ _ _ _ _ _ _ _ _ _ HR Hdata Rc Hnd H) as [F1 [F2 [_ [_ F3]]]]. rewrite Lc in *.
  exists cs. split; [auto|]. split; [split; auto|]. split; [auto|]. split; [auto|]. intros Hp Hm Hx Hc Hk Ho HU. destruct (F3 Hp Hm Hx Hc Hk Ho HU) as [assign [A B]].
  exists assign. split; [auto|]. intros i Hi. destruct (B i Hi) as [B1 B2]. auto.
Qed.

(** ** The budget *)
Lemma max_ram_lt : forall dim w degree rate limit sizes m r, max_ram dim w degree rate sizes m = Ok r -> is_nan m = false ->
  (SFltb limit r = true <-> SFltb limit m = true \/ exists s q, In s sizes /\ u64_of_f64 (f64_div (f64_of_N s) rate) = Ok q /\ SFltb limit (vamana_ram q dim w degree) = true) /\
  (forall s, In s sizes -> exists q, u64_of_f64 (f64_div (f64_of_N s) rate) = Ok q).
Proof.
  intros dim w degree rate limit. induction sizes as [|p sizes IH]; intros m r H Hm; cbn [max_ram] in H.
  - injection H as <-. split; [|intros s []]. split; [auto|]. intros [A|[s [q [[] _]]]]. exact A.
  - apply bind_ok in H. destruct H as [q [Eq H]]. set (v := vamana_ram q dim w degree) in *.
    assert (Hm' : is_nan (if SFltb m v then v else m) = false). { destruct (SFltb m v) eqn:E; [|auto]. apply (flt_not_nan m v) in E. apply E. }
    destruct (IH _ _ H Hm') as [I1 I2]. split; [|intros s [<-|Hs]; [eauto|auto]]. rewrite I1. split.
    + intros [A|[s [q' [Hs B]]]]; [|right; exists s, q'; split; [now right|auto]]. destruct (SFltb m v); [right; exists p, q; split; [now left|auto]|now left].
    + intros [A|[s [q' [[<-|Hs] [B C]]]]].
      * left. destruct (SFltb m v) eqn:E; [|auto]. exact (flt_trans limit m v A E).
      * left. assert (q' = q) by congruence. subst q'. fold v in C. destruct (SFltb m v) eqn:E; [auto|]. destruct (flt_not_nan limit v C) as [_ Hv].
        apply (flt_fle_trans limit v m C). exact (flt_false_fle m v Hm Hv E).
      * right. eauto.
Qed.

Lemma over_budget_ok : forall dim w degree rate budget sizes b, over_budget dim w degree rate budget sizes = Ok b -> b = false <-> fits_budget dim w degree rate budget sizes.
Proof.
  intros dim w degree rate budget sizes b H. unfold over_budget in H. apply bind_ok in H. destruct H as [m [E H]]. injection H as <-.
  destruct (max_ram_lt dim w degree rate (ram_limit budget) sizes f64_zero m E eq_refl) as [I1 I2]. unfold fits_budget. split.
  - intros H. assert (N : ~ (SFltb (ram_limit budget) f64_zero = true \/ exists s q, In s sizes /\ u64_of_f64 (f64_div (f64_of_N s) rate) = Ok q /\ SFltb (ram_limit budget) (vamana_ram q dim w degree) = true)) by (rewrite <- I1; congruence).
    split; [destruct (SFltb (ram_limit budget) f64_zero) eqn:E0; [exfalso; apply N; auto|auto]|]. intros s Hs. destruct (I2 s Hs) as [q Hq]. exists q. split; [auto|].
    destruct (SFltb (ram_limit budget) (vamana_ram q dim w degree)) eqn:Ev; [|auto]. exfalso. apply N. right. eauto.
  - intros [H0 H]. destruct (SFltb (ram_limit budget) m) eqn:Em; [|auto]. exfalso. destruct (proj1 I1 eq_refl) as [A|[s [q [Hs [Hq C]]]]]; [congruence|].
    destruct (H s Hs) as [q' [Hq' C']]. congruence.
Qed.

Lemma budget_loop_ok : forall env est garbage w dim k degree rate budget train test fuel p q cs,
  budget_loop fuel env est garbage w dim k degree rate budget train test p = Ok (Some (q, cs)) ->
  exists j, q = p + 2 * j /\ kmeans_new (env q) dim q 10 train = Ok cs /\
    (exists sizes, round_sizes (est q) (garbage q) test cs k = Ok sizes /\ fits_budget dim w degree rate budget sizes) /\
    forall i, i < j -> exists cs' sizes, kmeans_new (env (p + 2 * i)) dim (p + 2 * i) 10 train = Ok cs' /\ round_sizes (est (p + 2 * i)) (garbage (p + 2 * i)) test cs' k = Ok sizes /\
      ~ fits_budget dim w degree rate budget sizes.
Proof.
  intros env est garbage w dim k degree rate budget train test. induction fuel as [|fuel IH]; intros p q cs H; cbn [budget_loop] in H; [discriminate|].
  apply bind_ok in H. destruct H as [cs0 [Ek H]]. apply bind_ok in H. destruct H as [sizes [Es H]]. apply bind_ok in H. destruct H as [over [Eo H]].
  pose proof (over_budget_ok _ _ _ _ _ _ _ Eo) as B. destruct (kmeans_new_shape _ _ _ _ _ _ Ek ltac:(lia)) as [[Lc _] _].
  assert (Er : round_sizes (est p) (garbage p) test cs0 k = Ok sizes) by (unfold round_sizes; rewrite Lc; exact Es). destruct over.
  - destruct (IH _ _ _ H) as [j [E1 [E2 [E3 E4]]]]. exists (S j). split; [lia|]. split; [auto|]. split; [auto|]. intros [|i] Hi.
    + exists cs0, sizes. replace (p + 2 * 0) with p by lia. split; [auto|]. split; [auto|]. rewrite <- B. discriminate.
    + destruct (E4 i ltac:(lia)) as [cs' [sz H']]. exists cs', sz. replace (p + 2 * S i) with (2 + p + 2 * i) by lia. exact H'.
  - injection H as <- <-. exists 0. split; [lia|]. split; [auto|]. split; [exists sizes; split; [auto|now apply B]|]. intros; lia.
Qed.

Lemma budget_negative : forall env est garbage w dim k degree rate budget train test, SFltb (ram_limit budget) f64_zero = true -> forall fuel p r,
  budget_loop fuel env est garbage w dim k degree rate budget train test p = Ok r -> r = None.
Proof.
  intros env est garbage w dim k degree rate budget train test Hb fuel p [[q cs]|] H; [|auto]. exfalso. destruct (budget_loop_ok _ _ _ _ _ _ _ _ _ _ _ _ _ _ _ H) as [j [_ [_ [[sizes [_ [F _]]] _]]]]. congruence.
Qed.

Lemma partition_budget_ok : forall fuel g g2 g' env est garbage a w conv pick pick2 rate budget degree data prefix k n dim base d p d',
  rows_ok n (dim * w) dim base -> d data = Some (vector_file dim base) -> (forall q, ~ In data (partition_names prefix q)) ->
  partition_budget fuel g g2 g' env est garbage a w conv pick pick2 rate budget degree data prefix k d = Ok (Some (p, d')) ->
  let train := picked w conv dim base pick in let test := picked w conv dim base pick2 in
  exists j cs, p = 3 + 2 * j /\ kmeans_new (env p) dim p 10 train = Ok cs /\ rows_of p dim cs /\
    (exists sizes, round_sizes (est p) (garbage p) test cs k = Ok sizes /\ fits_budget dim w degree rate budget sizes) /\
    (forall i, i < j -> exists cs' sizes, kmeans_new (env (3 + 2 * i)) dim (3 + 2 * i) 10 train = Ok cs' /\ round_sizes (est (3 + 2 * i)) (garbage (3 + 2 * i)) test cs' k = Ok sizes /\
      ~ fits_budget dim w degree rate budget sizes) /\
    d' (centroids_name prefix) = Some (float_file p dim cs) /\ same_but (centroids_name prefix :: map (ids_name prefix) (seq 0 p)) d d' /\
    (pops (cl_popf a) -> 1 <= cl_mbs a -> 1 <= cl_maxb a -> k <= p -> shard_orders n k (min n (cl_maxb a)) (cl_mbs a) (cl_orders a) ->
     usable_dists (data_dist a (float_rows w conv dim base) cs) n p k ->
     exists assign, nearest_shards (data_dist a (float_rows w conv dim base) cs) n p k assign /\
       forall i, i < p -> d' (ids_name prefix i) = Some (id_file (shard_points_of assign n i)) /\
         forall gr g1 g3 maxb, 1 <= maxb -> length g1 = 4 -> length g3 = 4 ->
           retrieve gr g1 g3 maxb w (d' data) (d' (ids_name prefix i)) = Ok (shard_file dim base (shard_points_of assign n i))).
Proof.
  intros fuel g g2 g' env est garbage a w conv pick pick2 rate budget degree data prefix k n dim base d p d' HR Hdata Hnd H train test. unfold partition_budget in H. rewrite Hdata in H.
  assert (HL : length base = n) by apply HR.
  destruct (sample_split g w conv n dim base pick HR) as [floats [E1 [E2 _]]]. rewrite E1 in H. cbn [bind] in H. rewrite E2 in H.
  destruct (sample_split g2 w conv n dim base pick2 HR) as [floats2 [E3 [E4 _]]]. rewrite E3 in H. cbn [bind] in H. rewrite E4 in H.
  assert (EP : forall pk, map (fun p => nth p (float_rows w conv dim base) []) (filter pk (seq 0 n)) = picked w conv dim base pk) by (intros pk; unfold picked; now rewrite HL).
  rewrite !EP in H. fold train test in H. apply bind_ok in H. destruct H as [r [Er H]]. destruct r as [[q cs]|]; [|discriminate]. apply bind_ok in H. destruct H as [d1 [Es H]]. injection H as -> ->.
  destruct (budget_loop_ok _ _ _ _ _ _ _ _ _ _ _ _ _ _ _ Er) as [j [Ej [Ek [Hs Hi]]]]. destruct (kmeans_new_shape _ _ _ _ _ _ Ek ltac:(lia)) as [[Lc Rc] _].
  destruct (save_shards_ok _ _ _ _ _ _ _ _ _ _ _ _ _ _ HR Hdata Rc (Hnd _) Es) as [F1 [F2 [F4 [Hn F3]]]]. rewrite Lc in *.
  exists j, cs. split; [auto|]. split; [auto|]. split; [split; auto|]. split; [auto|]. split; [auto|]. split; [auto|]. split.
  - intros name Hname. destruct (in_dec string_dec name (partition_names prefix p)) as [I|I]; [|apply F2; auto].
    destruct I as [I|I]; [exfalso; apply Hname; left; auto|]. apply in_flat_map in I. destruct I as [i [Hi' [I|[I|[]]]]].
    + rewrite <- I. apply F4. reflexivity.
    + exfalso. apply Hname. right. apply in_map_iff. eauto.
  - intros Hp Hm Hx Hk Ho HU. destruct (F3 Hp Hm Hx ltac:(lia) Hk Ho HU) as [assign [A B]]. exists assign. split; [auto|]. intros i Hi'. destruct (B i Hi') as [B1 _]. split; [auto|].
    intros gr g1 g3 maxb Hmb L1 L3. rewrite B1. rewrite (F2 data (Hnd p)), Hdata. apply retrieve_eq; auto.
Qed.

Lemma round_sizes_ok : forall est garbage test cs k, pops (cl_popf est) -> 1 <= cl_mbs est -> 1 <= cl_maxb est -> 1 <= length test -> 1 <= length cs -> k <= length cs ->
  usable_dists (data_dist est test cs) (length test) (length cs) k -> shard_orders (length test) k (min (length test) (cl_maxb est)) (cl_mbs est) (cl_orders est) ->
  length garbage = min (length test) (cl_maxb est) * k -> (N.of_nat (length test * k) < 2 ^ 32)%N ->
  exists assign, nearest_shards (data_dist est test cs) (length test) (length cs) k assign /\
    round_sizes est garbage test cs k = Ok (map (fun i => N.of_nat (length (shard_points_of assign (length test) i))) (seq 0 (length cs))).
Proof. intros est garbage test cs k. intros. unfold round_sizes. apply estimate_ok; auto. Qed.

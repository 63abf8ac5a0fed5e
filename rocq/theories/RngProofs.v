From Coq Require Import List Arith Lia Bool Sorting.Sorted Sorting.Permutation.
From Verif Require Import Base Float32 DivFacts PoolModel SortSpec GraphSpec GreedyModel GreedyProofs SearchSpec SearchModel
  SearchProofs PruneModel PruneSpec PruneProofs BuildProofs2 EntryModel EntrySpec EntryProofs RngModel RngSpec.
Import ListNotations.

Lemma rng_pool_ids : forall sp loc, map nid (rng_pool sp loc) = filter (fun j => negb (j =? loc)) (seq 0 (sp_n sp)).
Proof. intros. unfold rng_pool. rewrite map_map. cbn. apply map_id. Qed.

Lemma rng_pool_In : forall sp loc z, In z (rng_pool sp loc) <->
  exists j, j < sp_n sp /\ j <> loc /\ z = mkN j (sp_pd sp j loc) true.
Proof.
  intros sp loc z. unfold rng_pool. rewrite in_map_iff. split.
  - intros [j [E H]]. apply filter_In in H. destruct H as [H1 H2]. apply in_seq in H1.
    apply negb_true_iff in H2. apply Nat.eqb_neq in H2. exists j. repeat split; auto; lia.
  - intros [j [H1 [H2 ->]]]. exists j. split; auto. apply filter_In. split; [apply in_seq; lia|].
    apply negb_true_iff. apply Nat.eqb_neq. auto.
Qed.

Lemma rng_pool_len : forall sp loc, length (rng_pool sp loc) <= sp_n sp.
Proof.
  intros sp loc. rewrite <- (map_length nid), rng_pool_ids. etransitivity; [|rewrite <- (seq_length (sp_n sp) 0); reflexivity].
  generalize (seq 0 (sp_n sp)). induction l as [|x l IH]; cbn; [lia|]. destruct (negb (x =? loc)); cbn; lia.
Qed.

Lemma rng_pool_ok : forall sp loc, (forall a b, is_nan (sp_pd sp a b) = false) ->
  (sp_filtered sp = true -> length (pts_to_labels (sp_labels sp)) = sp_n sp) -> prune_input_ok sp (rng_pool sp loc).
Proof.
  intros sp loc Hnan Hl. split; [|auto]. intros z Hz. apply rng_pool_In in Hz. destruct Hz as [j [H1 [H2 ->]]]. cbn. auto.
Qed.

Lemma select_lt : forall (A : Type) (keep : list bool) (l : list A) i,
  i < length l -> length (select (firstn i keep) l) <= i.
Proof.
  intros A keep. induction keep as [|b keep IH]; intros l i Hi; [destruct i; cbn; lia|].
  destruct i as [|i]; [cbn; lia|]. destruct l as [|x l]; [destruct b; cbn; lia|]. cbn in Hi.
  specialize (IH l i ltac:(lia)). destruct b; cbn; lia.
Qed.

Lemma select_nth_In : forall (A : Type) (keep : list bool) (l : list A) i x,
  nth_error l i = Some x -> nth i keep false = true -> In x (select keep l).
Proof.
  intros A keep. induction keep as [|b keep IH]; intros l i x Hi Hk; [destruct i; discriminate|].
  destruct l as [|y l]; [destruct i; discriminate|]. destruct i as [|i]; cbn in Hi, Hk.
  - subst b. inversion Hi. subst. left. auto.
  - destruct b; [right|]; eapply IH; eauto.
Qed.

Lemma select_firstn_In : forall (A : Type) (keep : list bool) (l : list A) i x,
  In x (select (firstn i keep) l) -> In x (select keep l).
Proof.
  intros A keep. induction keep as [|b keep IH]; intros l i x H; [destruct i; destruct H|].
  destruct i as [|i]; [destruct H|]. destruct l as [|y l]; [destruct b; destruct H|]. destruct b; cbn in H |- *.
  - destruct H as [->|H]; [left; auto|right; eauto].
  - eauto.
Qed.

(** One list: everything is kept or occluded by something kept. *)
Lemma rng_list : forall sortf sp loc, sorts sortf -> (forall a b, is_nan (sp_pd sp a b) = false) ->
  (sp_filtered sp = true -> length (pts_to_labels (sp_labels sp)) = sp_n sp) ->
  exists out, prune_alpha sortf sp (rng_params sp) loc (rng_pool sp loc) [] = Ok out /\ NoDup out /\
    (forall y, In y out -> y < sp_n sp /\ y <> loc) /\
    (forall y, y < sp_n sp -> y <> loc -> In y out \/
       exists k, In k out /\ flt f32_one (fdiv (sp_pd sp y loc) (sp_pd sp y k)) = true).
Proof.
  intros sortf sp loc Hs Hnan Hl. pose proof (rng_pool_ok sp loc Hnan Hl) as Hin.
  destruct (pruned_nodup sortf sp (rng_params sp) loc (rng_pool sp loc) Hs Hin) as [[out [E Hnd]] _].
  { rewrite rng_pool_ids. apply NoDup_filter. apply seq_NoDup. }
  exists out. split; [auto|]. split; [auto|].
  destruct (prune_alpha_exact sortf sp (rng_params sp) loc (rng_pool sp loc) Hs Hin) as [keep [[Hlen HK] E2]]; [reflexivity|].
  destruct (Hs (rng_pool sp loc)) as [P _]; [intros z Hz; apply Hin; auto|].
  assert (Hfn : firstn (bp_C (rng_params sp)) (sortf (rng_pool sp loc)) = sortf (rng_pool sp loc)).
  { apply firstn_all2. rewrite <- (Permutation_length P). apply rng_pool_len. }
  rewrite Hfn in *. rewrite E in E2. assert (Eo : out = map nid (select keep (sortf (rng_pool sp loc)))) by congruence.
  rewrite Eo. split.
  - intros y Hy. apply in_map_iff in Hy. destruct Hy as [z [<- Hz]]. apply select_In in Hz.
    apply (Permutation_in _ (Permutation_sym P)) in Hz. apply rng_pool_In in Hz. destruct Hz as [j [H1 [H2 ->]]]. cbn. auto.
  - intros y Hy Hne. set (c := mkN y (sp_pd sp y loc) true).
    assert (Hc : In c (sortf (rng_pool sp loc))).
    { apply (Permutation_in _ P). apply rng_pool_In. exists y. auto. }
    apply In_nth_error in Hc. destruct Hc as [i Hi]. specialize (HK i c Hi).
    destruct (nth i keep false) eqn:Ek.
    + left. apply in_map_iff. exists c. split; [auto|]. eapply select_nth_In; eauto.
    + right.
      assert (Hlt : i < length (sortf (rng_pool sp loc))) by (apply nth_error_Some; congruence).
      assert (Hdec : (exists k, In k (select (firstn i keep) (sortf (rng_pool sp loc))) /\ occludes sp f32_one k c) \/
        (forall k, In k (select (firstn i keep) (sortf (rng_pool sp loc))) -> ~ occludes sp f32_one k c)).
      { generalize (select (firstn i keep) (sortf (rng_pool sp loc))). intros l. induction l as [|k l IH]; [right; intros k []|].
        destruct IH as [[k' [H1 H2]]|IH]; [left; exists k'; split; [right|]; auto|].
        assert (D : occludes sp f32_one k c \/ ~ occludes sp f32_one k c).
        { unfold occludes. destruct (may_occlude_dec sp k c) as [M|M]; [|right; intros [C _]; auto].
          destruct (flt f32_one (fdiv (ndist c) (sp_pd sp (nid c) (nid k)))); [left; auto|right; intros [_ C]; discriminate]. }
        destruct D as [D|D]; [left; exists k; split; [left|]; auto|].
        right. intros k' [<-|H]; auto. }
      destruct Hdec as [[k [Hk Ho]]|Hno].
      * exists (nid k). split; [|exact (proj2 Ho)]. apply in_map. eapply select_firstn_In; eauto.
      * exfalso. assert (false = true); [|discriminate]. apply HK. split; [exact Hne|]. split; [|exact Hno].
        pose proof (select_lt _ keep _ i Hlt). pose proof (rng_pool_len sp loc) as HL.
        rewrite (Permutation_length P) in HL. unfold rng_params in *. cbn [bp_R]. lia.
Qed.

Lemma rng_loop_ok : forall sortf sp, sorts sortf -> 10 <= sp_n sp -> (forall a b, is_nan (sp_pd sp a b) = false) ->
  (sp_filtered sp = true -> length (pts_to_labels (sp_labels sp)) = sp_n sp) ->
  forall order g, NoDup order -> (forall x, In x order -> x < sp_n sp) -> length g = sp_n sp ->
  exists g', rng_loop sortf sp g order = Ok g' /\ length g' = sp_n sp /\
    (forall x, ~ In x order -> nth_error g' x = nth_error g x) /\
    (forall x old, In x order -> nth_error g x = Some old ->
       exists l, prune_alpha sortf sp (rng_params sp) x (rng_pool sp x) [] = Ok l /\ nth_error g' x = Some (old ++ l)).
Proof.
  intros sortf sp Hs Hn Hnan Hl order. induction order as [|loc rest IH]; intros g Hnd Hb Hg; cbn [rng_loop].
  - exists g. repeat split; auto. intros x old [].
  - inversion Hnd as [|? ? Hni Hnd']. subst.
    destruct (rng_list sortf sp loc Hs Hnan Hl) as [out [E _]].
    assert (Hloc : loc < sp_n sp) by (apply Hb; left; auto).
    destruct (rd_lt _ g loc) as [old Eold]; [lia|].
    unfold rng_step. assert (Hten : (sp_n sp / 10 =? 0) = false).
    { apply Nat.eqb_neq. intros C. apply Nat.div_small_iff in C; lia. }
    rewrite Hten, E. cbn [bind]. rewrite Eold. cbn [bind].
    destruct (wr_nth _ g loc (old ++ out)) as [g1 [Ew [Hlen Hnth]]]; [lia|]. rewrite Ew. cbn [bind].
    destruct (IH g1 Hnd') as [g' [E' [Hg' [Hout Hin]]]]; [intros x Hx; apply Hb; right; auto|lia|].
    exists g'. split; [auto|]. split; [auto|]. split.
    + intros x Hx. rewrite Hout by (intros C; apply Hx; right; auto).
      rewrite Hnth. destruct (Nat.eq_dec x loc) as [->|]; [|auto]. exfalso. apply Hx. left. auto.
    + intros x o Hx Ho. destruct Hx as [<-|Hx].
      * exists out. split; [auto|]. rewrite Hout by auto. rewrite Hnth. destruct (Nat.eq_dec loc loc); [|congruence].
        apply rd_ok in Eold. congruence.
      * apply Hin; auto. rewrite Hnth. destruct (Nat.eq_dec x loc) as [->|]; [contradiction|auto].
Qed.

(** ** The whole build *)
Lemma rng_build_core : forall sortf sp tags centroid order, rng_input_ok sortf sp tags centroid order ->
  exists ix md, rng_build sortf sp tags centroid order = Ok (ix, md) /\ index_ok ix /\
    ix_n ix = sp_n sp /\ ix_tags ix = tags /\ ix_labels ix = sp_labels sp /\
    first_min centroid (ix_start ix) /\ max_length (ix_graph ix) md /\
    (forall x l, nth_error (ix_graph ix) x = Some l -> NoDup l /\ forall y, In y l -> y < sp_n sp /\ y <> x) /\
    (forall x y, x < sp_n sp -> y < sp_n sp -> x <> y ->
      exists l, nth_error (ix_graph ix) x = Some l /\
       (In y l \/ exists k, In k l /\ flt f32_one (fdiv (sp_pd sp y x) (sp_pd sp y k)) = true)).
Proof.
  intros sortf sp tags centroid order [Hs Hn Hnan Ht Hc Hcn Hl Ho].
  unfold rng_build. destruct (calculate_medoid_ok (sp_n sp) centroid) as [s [Es [Hsn Hfm]]]; auto; [lia|].
  rewrite Es. cbn [bind].
  destruct (rng_loop_ok sortf sp Hs Hn Hnan Hl order (repeat [] (sp_n sp))) as [g [Eg [Hg [_ Hin]]]].
  { eapply Permutation_NoDup; [apply Permutation_sym; exact Ho|apply seq_NoDup]. }
  { intros x Hx. apply (Permutation_in _ Ho) in Hx. apply in_seq in Hx. lia. }
  { apply repeat_length. }
  rewrite Eg. cbn [bind].
  assert (Hlist : forall x, x < sp_n sp -> exists l, prune_alpha sortf sp (rng_params sp) x (rng_pool sp x) [] = Ok l /\
    nth_error g x = Some l).
  { intros x Hx. apply (Hin x []).
    - apply (Permutation_in _ (Permutation_sym Ho)). apply in_seq. lia.
    - rewrite (nth_error_nth' (repeat [] (sp_n sp)) []) by (rewrite repeat_length; auto). f_equal. apply nth_repeat. }
  assert (Hok : forall x l, nth_error g x = Some l -> NoDup l /\ forall y, In y l -> y < sp_n sp /\ y <> x).
  { intros x l Hx. assert (x < sp_n sp) by (rewrite <- Hg; apply nth_error_Some; congruence).
    destruct (Hlist x) as [l' [E1 E2]]; auto. assert (l' = l) by congruence. subst.
    destruct (rng_list sortf sp x Hs Hnan Hl) as [out [E [N [V _]]]]. assert (out = l) by congruence. subst. auto. }
  assert (Hgok : graph_ok (sp_n sp) g).
  { split; [auto|]. intros x l y Hx Hy. apply (Hok x l Hx). auto. }
  destruct (degree_stats_ok g 0) as [m [ind [Em [Hm _]]]]; [rewrite Hg; auto|]. rewrite Hg in Em. rewrite Em. cbn [bind fst].
  eexists. exists m. split; [reflexivity|]. split.
  { unfold index_ok. cbn. split; [lia|]. split; [exact Hgok|]. split; [auto|]. split; [auto|]. intros x id []. }
  cbn. repeat (split; [solve [auto]|]). intros x y Hx Hy Hne. destruct (Hlist x Hx) as [l [E1 E2]]. exists l. split; [auto|].
  destruct (rng_list sortf sp x Hs Hnan Hl) as [out [E [_ [_ C]]]]. assert (out = l) by congruence. subst. apply C; auto.
Qed.

Lemma diss_nan : forall pd, dissimilarity pd -> forall a b, is_nan (pd a b) = false.
Proof. intros pd H a b. pose proof (ds_nonneg _ H a b) as E. destruct (pd a b); auto. Qed.

Lemma rng_build_ok : forall sortf sp tags centroid order, rng_input_ok sortf sp tags centroid order ->
  dissimilarity (sp_pd sp) ->
  exists ix md, rng_build sortf sp tags centroid order = Ok (ix, md) /\ index_ok ix /\
    ix_n ix = sp_n sp /\ ix_tags ix = tags /\ ix_labels ix = sp_labels sp /\
    first_min centroid (ix_start ix) /\ max_length (ix_graph ix) md /\
    (forall x l, nth_error (ix_graph ix) x = Some l -> NoDup l /\ forall y, In y l -> y < sp_n sp /\ y <> x) /\
    rng_covers (sp_n sp) (sp_pd sp) (ix_graph ix).
Proof.
  intros sortf sp tags centroid order Hin Hd.
  destruct (rng_build_core _ _ _ _ _ Hin) as [ix [md [E [H1 [H2 [H3 [H4 [H5 [H6 [H7 H8]]]]]]]]]].
  exists ix, md. repeat (split; [solve [auto]|]). intros x y Hx Hy Hne. destruct (H8 x y Hx Hy Hne) as [l [El [C|[k [Hk Hf]]]]].
  - exists l. auto.
  - exists l. split; [auto|]. right. exists k. split; [auto|]. apply div_gt_one; auto; try apply Hd.
Qed.

(** ** Descent *)
Lemma closer_or_zero : forall n pd g, dissimilarity pd -> rng_covers n pd g ->
  forall q x, q < n -> x < n -> feq (pd x q) f32_zero = true \/
    exists l y, nth_error g x = Some l /\ In y l /\ flt (pd y q) (pd x q) = true.
Proof.
  intros n pd g Hd Hc q x Hq Hx. destruct (Nat.eq_dec x q) as [->|Hne]; [left; apply Hd|].
  destruct (feq (pd x q) f32_zero) eqn:Ez; [auto|right].
  destruct (Hc x q Hx Hq Hne) as [l [El [Hin|[k [Hk Hf]]]]].
  - exists l, q. split; [auto|]. split; [auto|].
    pose proof (ds_self _ Hd q) as Hz. pose proof (ds_nonneg _ Hd x q) as Hp. revert Ez Hz Hp.
    destruct (pd x q) as [s|s| |s m e]; try discriminate; destruct (pd q q) as [s'|s'| |s' m' e']; try discriminate;
      destruct s; try discriminate; destruct s'; try discriminate; reflexivity.
  - exists l, k. split; [auto|]. split; [auto|]. rewrite (ds_sym _ Hd k q), (ds_sym _ Hd x q). auto.
Qed.

(** Number of points strictly closer. *)
Definition nearer (n : nat) (dist : nat -> f32) (x : nat) : list nat :=
  filter (fun y => flt (dist y) (dist x)) (seq 0 n).

Lemma filter_le_len : forall (A : Type) (f g : A -> bool) l, (forall x, In x l -> f x = true -> g x = true) ->
  length (filter f l) <= length (filter g l).
Proof.
  intros A f g l. induction l as [|x l IH]; intros H; cbn; [lia|].
  specialize (IH (fun y Hy => H y (or_intror Hy))). destruct (f x) eqn:E.
  - rewrite (H x (or_introl eq_refl) E). cbn. lia.
  - destruct (g x); cbn; lia.
Qed.

Lemma filter_lt_len : forall (A : Type) (f g : A -> bool) l z, (forall x, In x l -> f x = true -> g x = true) ->
  In z l -> f z = false -> g z = true -> length (filter f l) < length (filter g l).
Proof.
  intros A f g l. induction l as [|x l IH]; intros z H Hz Hf Hg; [destruct Hz|].
  pose proof (filter_le_len A f g l (fun y Hy => H y (or_intror Hy))) as Hle.
  destruct Hz as [->|Hz].
  - cbn. rewrite Hf, Hg. cbn. lia.
  - specialize (IH z (fun y Hy => H y (or_intror Hy)) Hz Hf Hg). cbn. destruct (f x) eqn:E.
    + rewrite (H x (or_introl eq_refl) E). cbn. lia.
    + destruct (g x); cbn; lia.
Qed.

Lemma nearer_lt : forall n dist x y, y < n -> flt (dist y) (dist x) = true ->
  length (nearer n dist y) < length (nearer n dist x).
Proof.
  intros n dist x y Hy H. unfold nearer. apply filter_lt_len with y; auto.
  - intros z _ Hz. eapply flt_fle_trans; [exact Hz|]. apply flt_fle. auto.
  - apply in_seq. lia.
  - apply flt_irrefl.
Qed.

Lemma rng_descends : forall n pd g, dissimilarity pd -> rng_covers n pd g -> graph_ok n g ->
  forall q x, q < n -> x < n ->
  exists y, y < n /\ descends g (fun id => pd id q) x y /\ feq (pd y q) f32_zero = true.
Proof.
  intros n pd g Hd Hc Hg q x Hq.
  remember (length (nearer n (fun id => pd id q) x)) as k eqn:Ek. revert x Ek.
  induction k as [k IH] using lt_wf_ind. intros x Ek Hx.
  destruct (closer_or_zero n pd g Hd Hc q x Hq Hx) as [Hz|[l [y [El [Hy Hf]]]]].
  - exists x. split; [auto|]. split; [constructor|auto].
  - assert (Hyn : y < n) by (destruct Hg as [_ Hg]; eapply Hg; eauto).
    destruct (IH (length (nearer n (fun id => pd id q) y))) with (x := y) as [z [H1 [H2 H3]]]; auto.
    { subst k. apply nearer_lt; auto. }
    exists z. split; [auto|]. split; [|auto]. eapply desc_step; eauto.
Qed.

(** ** Search *)
Lemma rng_finds : forall sortf n pd g s q L, sorts sortf -> dissimilarity pd -> rng_covers n pd g -> graph_ok n g ->
  q < n -> s < n -> 1 <= L ->
  exists st z rest, greedy_search sortf n (fun id => pd id q) (fun _ => Ok true) L g [s] = Ok st /\
    found st = z :: rest /\ nid z < n /\ ndist z = pd (nid z) q /\ feq (pd (nid z) q) f32_zero = true.
Proof.
  intros sortf n pd g s q L Hs Hd Hc Hg Hq Hsn HL.
  assert (Hnan : forall id, is_nan (pd id q) = false) by (intros; apply diss_nan; auto).
  assert (Hini : forall id, In id [s] -> id < n) by (intros id [<-|[]]; auto).
  destruct (greedy_fixed_point sortf n (fun id => pd id q) (fun _ => Ok true) (fun _ => true) L g [s])
    as [st [E [Hexp Hfix]]]; auto.
  destruct (greedy_sorted_distinct sortf n (fun id => pd id q) (fun _ => Ok true) (fun _ => true) L (fun _ => g) [s])
    as [st2 [E2 [Hsort _]]]; auto. assert (st2 = st) by (unfold greedy_search in E; congruence). subst st2.
  destruct (greedy_true_distances sortf n (fun id => pd id q) (fun _ => Ok true) (fun _ => true) L g [s])
    as [st3 [E3 Htrue]]; auto. assert (st3 = st) by congruence. subst st3.
  exists st. destruct (found st) as [|z rest] eqn:Ef.
  - exfalso.
    destruct (greedy_dyn_ok sortf n (fun id => pd id q) (fun _ => Ok true) (fun _ => true) L (fun _ => g) [s])
      as [st0 [st1 [_ [E1 [HI [_ [Hrun [_ [_ [_ [Hor HI0]]]]]]]]]]]; auto.
    assert (st1 = st) by (unfold greedy_search in E; congruence). subst st1.
    assert (Hne : exists y, In y (p_ins (g_pool st0))).
    { destruct Hor as [Hor|Hor]; [|exists s; apply Hor; left; auto].
      destruct (p_ins (g_pool st0)) as [|y l] eqn:Ey; [|exists y; left; auto]. exfalso.
      destruct HI0 as [_ _ Hcur _ _ _ _ _ _]. assert (p_cur (g_pool st0) = 0) by (apply Hcur; auto). lia. }
    destruct Hne as [y Hy]. apply (proj1 (run_mono _ _ _ _ _ Hrun)) in Hy.
    destruct (ginv_discovered _ _ _ _ _ y HI Hy) as [C|[C _]]; rewrite Ef in C; [destruct C|cbn in C; lia].
  - exists z, rest. split; [auto|]. split; [auto|]. destruct (Htrue z (or_introl eq_refl)) as [Hz [Hdz _]].
    split; [auto|]. split; [auto|].
    destruct (closer_or_zero n pd g Hd Hc q (nid z) Hq Hz) as [|[l [y [El [Hy Hf]]]]]; [auto|exfalso].
    destruct (Hfix (nid z) y) as [Hin|[_ Hall]].
    + apply Hexp. left. auto.
    + exists l. auto.
    + apply in_map_iff in Hin. destruct Hin as [w [<- Hw]].
      destruct (Htrue w Hw) as [_ [Hdw _]]. rewrite <- Hdz, <- Hdw in Hf. destruct Hw as [->|Hw].
      * rewrite flt_irrefl in Hf. discriminate.
      * inversion Hsort as [|? ? _ HF]. subst. rewrite Forall_forall in HF. specialize (HF w Hw).
        pose proof (flt_fle_trans _ _ _ Hf HF) as C. rewrite flt_irrefl in C. discriminate.
    + specialize (Hall z (or_introl eq_refl)). rewrite Hdz in Hall.
      pose proof (flt_fle_trans _ _ _ Hf Hall) as C. rewrite flt_irrefl in C. discriminate.
Qed.

Lemma rng_search_finds : forall sortf sp tags centroid order ix md q L res_count filters ind dst,
  rng_input_ok sortf sp tags centroid order -> dissimilarity (sp_pd sp) ->
  rng_build sortf sp tags centroid order = Ok (ix, md) ->
  q < sp_n sp -> 1 <= L -> 1 <= res_count <= L + 1 -> res_count <= length ind -> res_count <= length dst ->
  exists ind' dst' cnt id, rng_search sortf ix (fun id => sp_pd sp id q) L res_count filters ind dst = Ok (ind', dst', cnt) /\
    1 <= cnt /\ id < sp_n sp /\ nth_error ind' 0 = nth_error tags id /\ nth_error dst' 0 = Some (sp_pd sp id q) /\
    feq (sp_pd sp id q) f32_zero = true.
Proof.
  intros sortf sp tags centroid order ix md q L rc filters ind dst Hin Hd Eb Hq HL Hrc Hi Hds.
  destruct (rng_build_ok _ _ _ _ _ Hin Hd) as [ix' [md' [E [Hix [En [Et [El [_ [_ [_ Hc]]]]]]]]]].
  assert (ix' = ix) by congruence. subst ix'. destruct Hix as [H1 [Hg [Htl [Hst _]]]]. rewrite En in *. rewrite Et in *.
  destruct (rng_finds sortf (sp_n sp) (sp_pd sp) (ix_graph ix) (ix_start ix) q L) as [st [z [rest [Es [Ef [Hz [Hdz Hzero]]]]]]];
    auto; [apply Hin|].
  destruct (search_core sortf (sp_n sp) (fun id => sp_pd sp id q) (fun _ => Ok true) (fun _ => true) L (ix_graph ix) [ix_start ix]
    tags rc ind dst) as [st' [ind' [dst' [Es' [Er [Hcur [_ [_ [_ Hrep]]]]]]]]]; auto; try lia.
  { apply Hin. } { intros. apply diss_nan. auto. } { intros id [<-|[]]. auto. }
  assert (st' = st) by congruence. subst st'. exists ind', dst', (min rc (p_cur (g_pool st))), (nid z).
  unfold rng_search. rewrite En, Et. change (passes_filter (ix_labels ix) []) with (fun _ : nat => @Ok bool true). rewrite Es. cbn [bind].
  rewrite Er. cbn [bind]. split; [auto|]. split.
  { rewrite Hcur, Ef. cbn [length]. lia. }
  split; [auto|]. destruct (Hrep 0 z) as [Ha Hb]; [lia|rewrite Ef; auto|]. rewrite Ha, Hb, Hdz. auto.
Qed.

Lemma rng_search_exact : forall sortf sp tags centroid order ix md q L res_count filters ind dst,
  rng_input_ok sortf sp tags centroid order -> dissimilarity (sp_pd sp) ->
  rng_build sortf sp tags centroid order = Ok (ix, md) ->
  q < sp_n sp -> (forall p, p < sp_n sp -> p <> q -> feq (sp_pd sp p q) f32_zero = false) ->
  1 <= L -> 1 <= res_count <= L + 1 -> res_count <= length ind -> res_count <= length dst ->
  exists ind' dst' cnt, rng_search sortf ix (fun id => sp_pd sp id q) L res_count filters ind dst = Ok (ind', dst', cnt) /\
    1 <= cnt /\ nth_error ind' 0 = nth_error tags q.
Proof.
  intros sortf sp tags centroid order ix md q L rc filters ind dst Hin Hd Eb Hq Huniq HL Hrc Hi Hds.
  destruct (rng_search_finds sortf sp tags centroid order ix md q L rc filters ind dst)
    as [ind' [dst' [cnt [id [E [Hc [Hid [Ht [_ Hz]]]]]]]]]; auto.
  exists ind', dst', cnt. split; [auto|]. split; [auto|]. rewrite Ht. f_equal.
  destruct (Nat.eq_dec id q) as [|Hne]; [auto|]. rewrite (Huniq id Hid Hne) in Hz. discriminate.
Qed.

Lemma rng_connected : forall sortf sp tags centroid order ix md,
  rng_input_ok sortf sp tags centroid order -> dissimilarity (sp_pd sp) ->
  rng_build sortf sp tags centroid order = Ok (ix, md) ->
  forall q x, q < sp_n sp -> x < sp_n sp ->
  exists y, y < sp_n sp /\ descends (ix_graph ix) (fun id => sp_pd sp id q) x y /\ feq (sp_pd sp y q) f32_zero = true.
Proof.
  intros sortf sp tags centroid order ix md Hin Hd Eb q x Hq Hx.
  destruct (rng_build_ok _ _ _ _ _ Hin Hd) as [ix' [md' [E [Hix [En [Et [El [_ [_ [_ Hc]]]]]]]]]].
  assert (ix' = ix) by congruence. subst ix'. destruct Hix as [H1 [Hg _]]. rewrite En in Hg.
  eapply rng_descends; eauto.
Qed.

Lemma rng_small : forall sortf sp loc g rest, 1 <= sp_n sp < 10 -> rng_loop sortf sp g (loc :: rest) = UB.
Proof.
  intros sortf sp loc g rest H. cbn [rng_loop]. unfold rng_step. rewrite Nat.div_small by lia. reflexivity.
Qed.

Lemma rng_small_build : forall sortf sp tags centroid loc rest, 1 <= sp_n sp < 10 ->
  length centroid = sp_n sp -> (forall d, In d centroid -> is_nan d = false) ->
  rng_build sortf sp tags centroid (loc :: rest) = UB.
Proof.
  intros sortf sp tags centroid loc rest H Hc Hn. unfold rng_build.
  destruct (calculate_medoid_ok (sp_n sp) centroid) as [s [-> _]]; auto; [lia|]. cbn [bind].
  rewrite rng_small by auto. reflexivity.
Qed.

(** ** Building twice on the same object: lists are kept (resize does not clear). *)
Lemma rng_rebuild : forall sortf sp tags centroid order, rng_input_ok sortf sp tags centroid order ->
  exists g1 g2, rng_loop sortf sp (repeat [] (sp_n sp)) order = Ok g1 /\ rng_loop sortf sp g1 order = Ok g2 /\
    forall x l, nth_error g1 x = Some l -> nth_error g2 x = Some (l ++ l).
Proof.
  intros sortf sp tags centroid order [Hs Hn Hnan Ht Hc Hcn Hl Ho].
  assert (Hnd : NoDup order) by (eapply Permutation_NoDup; [apply Permutation_sym; exact Ho|apply seq_NoDup]).
  assert (Hb : forall x, In x order -> x < sp_n sp).
  { intros x Hx. apply (Permutation_in _ Ho) in Hx. apply in_seq in Hx. lia. }
  destruct (rng_loop_ok sortf sp Hs Hn Hnan Hl order (repeat [] (sp_n sp)) Hnd Hb) as [g1 [E1 [L1 [_ I1]]]]; [apply repeat_length|].
  destruct (rng_loop_ok sortf sp Hs Hn Hnan Hl order g1 Hnd Hb L1) as [g2 [E2 [L2 [_ I2]]]].
  exists g1, g2. split; [auto|]. split; [auto|]. intros x l Hx.
  assert (Hxn : x < sp_n sp) by (rewrite <- L1; apply nth_error_Some; congruence).
  assert (Hxo : In x order) by (apply (Permutation_in _ (Permutation_sym Ho)); apply in_seq; lia).
  destruct (I2 x l Hxo Hx) as [l2 [P2 N2]]. destruct (I1 x [] Hxo) as [l1 [P1 N1]].
  { rewrite (nth_error_nth' (repeat [] (sp_n sp)) []) by (rewrite repeat_length; auto). f_equal. apply nth_repeat. }
  cbn in N1. rewrite N2. congruence.
Qed.

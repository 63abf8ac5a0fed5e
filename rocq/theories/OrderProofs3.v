(** * IVF on related distances; measures that order the points alike. *)
From Coq Require Import ZArith String List Arith Lia Bool Floats.SpecFloat.
From Verif Require Import Base Float32 PoolModel SortSpec SortInst GraphSpec GreedyModel SearchSpec SearchModel PruneModel BuildModel VamanaModel HnswModel HnswSpec RngModel ListLemmas
  ClosestModel ClosestSpec FlatModel FlatSpec IvfModel PopInst LshModel SearchProofs OrderSpec OrderProofs OrderProofs2.
Import ListNotations.

Lemma report_ids_rel : forall R cnt arr arr' i ind dst dst', Forall2 (nb_rel R) arr arr' ->
  match dst, dst' with None, None => True | Some d, Some d' => Forall2 (dst_rel R) d d' | _, _ => False end ->
  res_rel (fun x y => fst x = fst y /\ match snd x, snd y with None, None => True | Some d, Some d' => Forall2 (dst_rel R) d d' | _, _ => False end)
    (report_ids arr i cnt ind dst) (report_ids arr' i cnt ind dst').
Proof.
  intros R cnt. induction cnt as [|cnt IH]; intros arr arr' i ind dst dst' Ha Hd; cbn [report_ids]; [split; [reflexivity|exact Hd]|].
  apply (bind_rel _ _ _ _ (nb_rel R)); [apply rd_rel; exact Ha|]. intros x x' Hx. rewrite (proj1 Hx).
  apply (bind_rel _ _ _ _ eq); [apply same_rel|]. intros ind1 ? <-.
  apply (bind_rel _ _ _ _ (fun a b => match a, b with None, None => True | Some d, Some d' => Forall2 (dst_rel R) d d' | _, _ => False end)).
  - destruct dst as [d|], dst' as [d'|]; try contradiction; cbn [wr_opt]; [|exact I].
    apply (bind_rel _ _ _ _ (Forall2 (dst_rel R))); [apply wr_rel; [exact Hd|left; apply Hx]|]. intros. assumption.
  - intros. apply IH; assumption.
Qed.

(** The answers of a flat search: the same ids, count and comparisons. *)
Definition flat_rel (R : f32 -> f32 -> Prop) (x y : list nat * option (list f32) * nat * nat) : Prop :=
  fst (fst (fst x)) = fst (fst (fst y)) /\ snd (fst x) = snd (fst y) /\ snd x = snd y /\
  match snd (fst (fst x)), snd (fst (fst y)) with None, None => True | Some d, Some d' => Forall2 (dst_rel R) d d' | _, _ => False end.

Lemma flat_search_rel : forall R n dist dist' accept k cands ind dst, sides R n dist dist' ->
  res_rel (flat_rel R) (flat_search n dist accept k cands ind dst) (flat_search n dist' accept k cands ind dst).
Proof.
  intros R n dist dist' accept k cands ind dst HS. unfold flat_search.
  apply (bind_rel _ _ _ _ (pool_rel R)).
  - apply process_rel; [exact HS|]. unfold empty_pool. repeat split; auto. cbn. apply repeat_rel. repeat split. apply HS.
  - intros p p' [Ha [E1 [_ [E3 _]]]]. cbv zeta. rewrite <- E1.
    eapply bind_rel; [apply report_ids_rel; [exact Ha|]; destruct dst; [apply dst_same|exact I]|].
    intros [i d] [i' d'] [H1 H2]. cbn in *. repeat split; cbn; auto.
Qed.

Lemma closest_one_rel : forall R row row', alike R -> (forall c, R (row c) (row' c)) -> forall cnt j mn mn' slot, R mn mn' ->
  closest_one row j cnt mn slot = closest_one row' j cnt mn' slot.
Proof.
  intros R row row' HR H cnt. induction cnt as [|cnt IH]; intros j mn mn' slot Hm; cbn [closest_one]; [reflexivity|].
  rewrite (flt_rel R _ _ _ _ HR (H j) Hm). destruct (flt _ _); apply IH; auto.
Qed.

Lemma flt_fneg : forall a b, flt (fneg a) (fneg b) = flt b a.
Proof.
  intros a b. unfold flt, fneg, SFltb, SFopp, SFcompare. destruct a as [[]|[]| |[] m e], b as [[]|[]| |[] m' e']; cbn; try reflexivity.
  - rewrite (Z.compare_antisym e e'). destruct (e ?= e')%Z; cbn; try reflexivity. rewrite !Pos.compare_cont_spec, (Pos.compare_antisym m m').
    destruct (m ?= m')%positive; reflexivity.
  - rewrite (Z.compare_antisym e e'). destruct (e ?= e')%Z; cbn; try reflexivity. rewrite !Pos.compare_cont_spec, (Pos.compare_antisym m m').
    destruct (m ?= m')%positive; reflexivity.
Qed.

Lemma fle_fneg : forall a b, fle (fneg a) (fneg b) = fle b a.
Proof.
  intros a b. unfold fle, fneg, SFleb, SFopp, SFcompare. destruct a as [[]|[]| |[] m e], b as [[]|[]| |[] m' e']; cbn; try reflexivity.
  - rewrite (Z.compare_antisym e e'). destruct (e ?= e')%Z; cbn; try reflexivity. rewrite !Pos.compare_cont_spec, (Pos.compare_antisym m m').
    destruct (m ?= m')%positive; reflexivity.
  - rewrite (Z.compare_antisym e e'). destruct (e ?= e')%Z; cbn; try reflexivity. rewrite !Pos.compare_cont_spec, (Pos.compare_antisym m m').
    destruct (m ?= m')%positive; reflexivity.
Qed.

Definition negated (R : f32 -> f32 -> Prop) (x y : f32) : Prop := exists a b, R a b /\ x = fneg a /\ y = fneg b.

Lemma negated_alike : forall R, alike R -> alike (negated R).
Proof.
  intros R HR a a' b b' [x [x' [Hx [-> ->]]]] [y [y' [Hy [-> ->]]]]. rewrite !flt_fneg, !fle_fneg. apply HR; assumption.
Qed.

Lemma closest_many_rel : forall R popf row row' nc k, alike R -> pops_by_comparisons popf -> (forall c, R (row c) (row' c)) ->
  closest_many popf row nc k = closest_many popf row' nc k.
Proof.
  intros R popf row row' nc k HR Hp H. unfold closest_many.
  assert (F : Forall2 (fun x y => fst x = fst y /\ negated R (snd x) (snd y)) (map (fun j => (j, fneg (row j))) (seq 0 nc)) (map (fun j => (j, fneg (row' j))) (seq 0 nc))).
  { induction (seq 0 nc) as [|j l IH]; cbn [map]; constructor; [|exact IH]. split; [reflexivity|]. exists (row j), (row' j). auto. }
  apply (Hp _ _ _ (negated_alike R HR)) in F. apply (firstn_rel _ _ _ _ _) with (k := k) in F.
  induction F as [|x y l l' [E _] _ IH]; cbn [map]; congruence.
Qed.

Lemma compute_closest_rel : forall R popf mbs dmat dmat' n nc k orders ivf inv, alike R -> R FLT_MAX FLT_MAX -> pops_by_comparisons popf ->
  (forall i c, R (dmat i c) (dmat' i c)) -> compute_closest popf mbs dmat n nc k orders ivf inv = compute_closest popf mbs dmat' n nc k orders ivf inv.
Proof.
  intros R popf mbs dmat dmat' n nc k orders ivf inv HR HM Hp H. unfold compute_closest. destruct (nc <? k); [reflexivity|]. cbv zeta.
  destruct (_ =? _); [reflexivity|]. set (bs := min n mbs). clearbody bs.
  assert (Hrows : forall cnt start i cl, closest_rows popf dmat nc k start i cnt cl = closest_rows popf dmat' nc k start i cnt cl).
  { intros cnt. induction cnt as [|cnt IH]; intros start i cl; cbn [closest_rows]; [reflexivity|].
    rewrite (closest_many_rel R popf _ (dmat' (start + i)) nc k HR Hp) by (intros; apply H).
    assert (E : (if k =? 1 then do s <- rd cl i; wr cl i (closest_one (dmat (start + i)) 0 nc FLT_MAX s) else write_ids cl (i * k) (closest_many popf (dmat' (start + i)) nc k))
      = (if k =? 1 then do s <- rd cl i; wr cl i (closest_one (dmat' (start + i)) 0 nc FLT_MAX s) else write_ids cl (i * k) (closest_many popf (dmat' (start + i)) nc k))).
    { destruct (k =? 1); [|reflexivity]. destruct (rd cl i) as [s| | | |]; cbn [bind]; auto.
      rewrite (closest_one_rel R _ (dmat' (start + i)) HR (H (start + i)) nc 0 FLT_MAX FLT_MAX s HM). reflexivity. }
    rewrite E. match goal with |- bind ?a _ = _ => destruct a end; cbn [bind]; auto. }
  generalize (n_blocks n bs) as cnt. generalize (repeat (@None nat) (bs * k)) as cl. generalize 0 as b. intros b cl cnt. revert b cl ivf inv.
  induction cnt as [|cnt IH]; intros b cl ivf inv; cbn [closest_blocks]; [reflexivity|].
  assert (E : closest_in_block popf dmat nc k (b * bs) (min bs (n - b * bs)) cl = closest_in_block popf dmat' nc k (b * bs) (min bs (n - b * bs)) cl).
  { unfold closest_in_block. destruct (nc <? k); [reflexivity|]. apply Hrows. }
  rewrite E. destruct (closest_in_block popf dmat' nc k (b * bs) _ cl) as [cl'| | | |]; cbn [bind]; auto.
  destruct (distribute k (b * bs) (orders b) cl' ivf inv); cbn [bind]; auto.
Qed.

Lemma ivf_search_rel : forall R RC popf mbs ix cdist cdist' dist dist' probe k fs ind dst, pops_by_comparisons popf ->
  alike RC -> RC FLT_MAX FLT_MAX -> (forall c, RC (cdist c) (cdist' c)) -> sides R (ivf_n ix) dist dist' ->
  res_rel (flat_rel R) (ivf_search popf mbs ix cdist dist probe k fs ind dst) (ivf_search popf mbs ix cdist' dist' probe k fs ind dst).
Proof.
  intros R RC popf mbs ix cdist cdist' dist dist' probe k fs ind dst Hp HC HM Hc HS. unfold ivf_search.
  replace (ivf_candidates popf mbs ix cdist' probe) with (ivf_candidates popf mbs ix cdist probe).
  - apply (bind_rel _ _ _ _ eq); [apply same_rel|]. intros c ? <-. apply flat_search_rel. exact HS.
  - unfold ivf_candidates. rewrite (compute_closest_rel RC popf mbs (fun _ => cdist) (fun _ => cdist')); auto.
Qed.

Lemma ivf_build_rel : forall R popf mbs dmat dmat' n nc orders old, alike R -> R FLT_MAX FLT_MAX -> pops_by_comparisons popf ->
  (forall i c, R (dmat i c) (dmat' i c)) -> ivf_build popf mbs dmat n nc orders old = ivf_build popf mbs dmat' n nc orders old.
Proof. intros R popf mbs dmat dmat' n nc orders old HR HM Hp H. unfold ivf_build. rewrite (compute_closest_rel R popf mbs dmat dmat'); auto. Qed.

(** ** Two measures that order the points alike *)
Definition paired (n : nat) (dist dist' : nat -> f32) (x y : f32) : Prop := exists id, id < n /\ x = dist id /\ y = dist' id.

Lemma fle_of_flt : forall a b, is_nan a = false -> is_nan b = false -> fle a b = negb (flt b a).
Proof.
  intros a b Ha Hb. destruct (flt b a) eqn:E; cbn; [apply flt_fle_false; exact E|apply flt_false_fle; auto].
Qed.

Lemma paired_alike : forall n dist dist', finite_distances n dist -> finite_distances n dist' -> same_order n dist dist' -> alike (widen (paired n dist dist')).
Proof.
  intros n dist dist' [N F] [N' F'] S.
  assert (K : forall a a' b b', widen (paired n dist dist') a a' -> widen (paired n dist dist') b b' -> flt a b = flt a' b').
  { intros a a' b b' [[i [Hi [-> ->]]]|[-> ->]] [[j [Hj [-> ->]]]|[-> ->]]; [apply S; assumption| | |reflexivity].
    - rewrite (F i Hi), (F' i Hi). reflexivity.
    - destruct (flt FLT_MAX (dist j)) eqn:E1; [pose proof (flt_trans _ _ _ E1 (F j Hj)) as C; rewrite flt_irrefl in C; discriminate|].
      destruct (flt FLT_MAX (dist' j)) eqn:E2; [pose proof (flt_trans _ _ _ E2 (F' j Hj)) as C; rewrite flt_irrefl in C; discriminate|]. reflexivity. }
  assert (NN : forall a a', widen (paired n dist dist') a a' -> is_nan a = false /\ is_nan a' = false).
  { intros a a' [[i [Hi [-> ->]]]|[-> ->]]; auto. }
  intros a a' b b' Ha Hb. split; [apply K; assumption|]. destruct (NN _ _ Ha), (NN _ _ Hb). rewrite !fle_of_flt by assumption. f_equal. apply K; assumption.
Qed.

Lemma paired_sides : forall n dist dist', finite_distances n dist -> finite_distances n dist' -> same_order n dist dist' -> sides (widen (paired n dist dist')) n dist dist'.
Proof.
  intros n dist dist' F F' S. split; [apply paired_alike; assumption|]. split; [right; auto|]. intros id Hid. left. exists id. auto.
Qed.

Lemma rel_ok : forall (A B : Type) (P : A -> B -> Prop) r r' a, res_rel P r r' -> r = Ok a -> exists b, r' = Ok b /\ P a b.
Proof. intros A B P r r' a H ->. destruct r'; cbn in H; try contradiction. eauto. Qed.

(** ** Searches *)
Lemma found_rel : forall R s s', g_rel R s s' -> map nid (found s) = map nid (found s').
Proof.
  intros R s s' [[Ha [E _]] _]. unfold found, pool_entries. rewrite <- E. pose proof (firstn_rel _ _ _ _ _ Ha (p_cur (g_pool s))) as F.
  induction F as [|x y l l' [Exy _] _ IH]; cbn [map]; congruence.
Qed.

Lemma vamana_same_order : forall sortf ix dist dist' L k filters indices distances, sorts sortf -> by_comparisons sortf -> index_ok ix -> 1 <= L ->
  finite_distances (ix_n ix) dist -> finite_distances (ix_n ix) dist' -> same_order (ix_n ix) dist dist' ->
  (filters = [] \/ length (pts_to_labels (ix_labels ix)) = ix_n ix) -> k <= L + 1 -> k <= length indices -> k <= length distances ->
  exists ids i d d',
    vamana_search sortf ix dist L k filters indices distances = Ok (i, d, length ids) /\ reports (ix_n ix) (ix_tags ix) dist i d ids /\
    vamana_search sortf ix dist' L k filters indices distances = Ok (i, d', length ids) /\ reports (ix_n ix) (ix_tags ix) dist' i d' ids.
Proof.
  intros sortf ix dist dist' L k fs ind dst Hs Hb Hix HL F F' S Hfl Hk Hi Hd.
  destruct (vamana_search_ok sortf ix dist L k fs ind dst) as [st [i [d [G [E [_ [_ [Rp _]]]]]]]]; auto; [apply F|].
  destruct (vamana_search_ok sortf ix dist' L k fs ind dst) as [st' [i' [d' [G' [E' [_ [_ [Rp' _]]]]]]]]; auto; [apply F'|].
  pose proof (paired_sides _ _ _ F F' S) as P.
  assert (Q : map nid (found st) = map nid (found st')).
  { pose proof (greedy_rel _ sortf (ix_n ix) dist dist' (passes_filter (ix_labels ix) fs) L (ix_graph ix) (vamana_init_ids ix fs) Hb P) as K.
    rewrite G, G' in K. exact (found_rel _ _ _ K). }
  assert (i' = i).
  { pose proof (vamana_rel _ sortf ix dist dist' L k fs ind dst Hb P) as K. rewrite E, E' in K. destruct K as [[K _] _]. cbn in K. congruence. }
  subst i'. exists (firstn k (map nid (found st))), i, d, d'. rewrite <- Q in Rp'.
  assert (Lq : length (found st') = length (found st)) by (rewrite <- (map_length nid (found st')), <- Q, map_length; reflexivity).
  rewrite firstn_length, map_length. rewrite Lq in E'. auto.
Qed.

Lemma rng_same_order : forall sortf ix dist dist' L k filters indices distances i d c, by_comparisons sortf ->
  finite_distances (ix_n ix) dist -> finite_distances (ix_n ix) dist' -> same_order (ix_n ix) dist dist' ->
  rng_search sortf ix dist L k filters indices distances = Ok (i, d, c) ->
  exists d', rng_search sortf ix dist' L k filters indices distances = Ok (i, d', c).
Proof.
  intros sortf ix dist dist' L k fs ind dst i d c Hb F F' S E.
  destruct (rel_ok _ _ _ _ _ _ (rng_rel _ sortf ix dist dist' L k fs ind dst Hb (paired_sides _ _ _ F F' S)) E) as [[[i' d'] c'] [E' [[E1 _] E2]]].
  cbn in E1, E2. subst. eauto.
Qed.

Lemma levels_tags : forall levels, levels_ok levels -> tags_in (match levels with [] => 0 | ix :: _ => ix_n ix end) levels.
Proof.
  intros levels. induction levels as [|ix inner IH]; intros H; [exact I|]. cbn [tags_in]. split; [lia|]. destruct inner as [|inn rest]; [split; exact I|].
  destruct H as [Hix [Ht Hl]]. split; [|apply IH; exact Hl]. intros i Hi. apply Ht. apply nth_In.
  destruct rest as [|r rest]; [destruct Hl as [Hl _]|destruct Hl as [Hl _]]; destruct Hl as [_ [_ [El _]]]; rewrite El; exact Hi.
Qed.

Lemma hnsw_same_order : forall sortf ix inner dist dist' L k filters indices distances i d c, by_comparisons sortf -> levels_ok (ix :: inner) ->
  finite_distances (ix_n ix) dist -> finite_distances (ix_n ix) dist' -> same_order (ix_n ix) dist dist' ->
  hnsw_search sortf (ix :: inner) dist L k filters indices distances = Ok (i, d, c) ->
  exists d', hnsw_search sortf (ix :: inner) dist' L k filters indices distances = Ok (i, d', c).
Proof.
  intros sortf ix inner dist dist' L k fs ind dst i d c Hb Hl F F' S E. pose proof (paired_sides _ _ _ F F' S) as [P1 [P2 P3]].
  assert (K := hnsw_rel (widen (paired (ix_n ix) dist dist')) sortf Hb (ix :: inner) dist dist' L k fs ind dst P1 P2).
  destruct (rel_ok _ _ _ _ _ _ (K (fun ix' in' Eq id Hid => P3 id (eq_ind_r (fun z => id < ix_n z) Hid (f_equal (hd ix) Eq))) (levels_tags _ Hl)) E)
    as [[[i' d'] c'] [E' [[E1 _] E2]]]. cbn in E1, E2. subst. eauto.
Qed.

Lemma ivf_same_order : forall popf mbs ix cdist cdist' dist dist' probe k filters indices distances i d c m, pops_by_comparisons popf ->
  (forall a, flt (cdist a) FLT_MAX = true /\ flt (cdist' a) FLT_MAX = true) -> (forall a b, flt (cdist a) (cdist b) = flt (cdist' a) (cdist' b)) ->
  finite_distances (ivf_n ix) dist -> finite_distances (ivf_n ix) dist' -> same_order (ivf_n ix) dist dist' ->
  ivf_search popf mbs ix cdist dist probe k filters indices distances = Ok (i, d, c, m) ->
  exists d', ivf_search popf mbs ix cdist' dist' probe k filters indices distances = Ok (i, d', c, m).
Proof.
  intros popf mbs ix cdist cdist' dist dist' probe k fs ind dst i d c m Hp HC HO F F' S E.
  set (RC := widen (fun x y => exists a, x = cdist a /\ y = cdist' a)).
  assert (A : alike RC).
  { assert (K : forall a a' b b', RC a a' -> RC b b' -> flt a b = flt a' b').
    { intros a a' b b' [[x [-> ->]]|[-> ->]] [[y [-> ->]]|[-> ->]]; [apply HO| | |reflexivity].
      - destruct (HC x) as [-> ->]. reflexivity.
      - destruct (flt FLT_MAX (cdist y)) eqn:E1; [pose proof (flt_trans _ _ _ E1 (proj1 (HC y))) as C; rewrite flt_irrefl in C; discriminate|].
        destruct (flt FLT_MAX (cdist' y)) eqn:E2; [pose proof (flt_trans _ _ _ E2 (proj2 (HC y))) as C; rewrite flt_irrefl in C; discriminate|]. reflexivity. }
    assert (NN : forall a a', RC a a' -> is_nan a = false /\ is_nan a' = false).
    { intros a a' [[x [-> ->]]|[-> ->]]; [|auto]. destruct (HC x) as [H1 H2]. apply flt_not_nan in H1. apply flt_not_nan in H2. tauto. }
    intros a a' b b' Ha Hb. split; [apply K; assumption|]. destruct (NN _ _ Ha), (NN _ _ Hb). rewrite !fle_of_flt by assumption. f_equal. apply K; assumption. }
  destruct (rel_ok _ _ _ _ _ _ (ivf_search_rel _ RC popf mbs ix cdist cdist' dist dist' probe k fs ind dst Hp A (or_intror (conj eq_refl eq_refl))
    (fun a => or_introl (ex_intro _ a (conj eq_refl eq_refl))) (paired_sides _ _ _ F F' S)) E) as [[[[i' d'] c'] m'] [E' [E1 [E2 [E3 _]]]]].
  cbn in E1, E2, E3. subst. eauto.
Qed.

Lemma lsh_same_order : forall dotf ix q dist dist' k filters indices distances i d c m ix2,
  finite_distances (l_n ix) dist -> finite_distances (l_n ix) dist' -> same_order (l_n ix) dist dist' ->
  lsh_search dotf ix q dist k filters indices distances = Ok (i, d, c, m, ix2) ->
  exists d', lsh_search dotf ix q dist' k filters indices distances = Ok (i, d', c, m, ix2).
Proof.
  intros dotf ix q dist dist' k fs ind dst i d c m ix2 F F' S E. unfold lsh_search in *. destruct (lookup_all dotf q (l_tables ix)) as [cands ts].
  destruct (flat_search (l_n ix) dist (passes_filter (l_labels ix) fs) k cands ind dst) as [r| | | |] eqn:E1; cbn [bind] in E; try discriminate.
  destruct (rel_ok _ _ _ _ _ _ (flat_search_rel _ (l_n ix) dist dist' (passes_filter (l_labels ix) fs) k cands ind dst (paired_sides _ _ _ F F' S)) E1)
    as [[[[i' d'] c'] m'] [E' [E2 [E3 [E4 _]]]]].
  rewrite E'. cbn [bind]. injection E as -> <-. cbn in E2, E3, E4. subst. eauto.
Qed.

(** ** The executable sort and queue look at distances only by comparing them. *)
Lemma isort_by_comparisons : by_comparisons isort.
Proof.
  intros R l l' HR H. induction H as [|x y l l' Hxy _ IH]; cbn [isort]; [constructor|]. revert IH. generalize (isort l) (isort l'). clear l l'.
  intros l l' H. induction H as [|a b l l' Hab Hl IH]; cbn [ins_nb]; [constructor; [exact Hxy|constructor]|].
  rewrite (flt_rel R _ (ndist b) _ (ndist y) HR); [|apply Hab|apply Hxy]. destruct (flt _ _); constructor; auto.
Qed.

Lemma pop_all_by_comparisons : pops_by_comparisons pop_all.
Proof.
  intros R l l' HR H. induction H as [|x y l l' Hxy _ IH]; cbn [pop_all]; [constructor|]. revert IH. generalize (pop_all l) (pop_all l'). clear l l'.
  intros l l' H. induction H as [|a b l l' Hab Hl IH]; cbn [ins_desc]; [constructor; [exact Hxy|constructor]|].
  rewrite (flt_rel R _ (snd y) _ (snd b) HR); [|apply Hxy|apply Hab]. destruct (flt _ _); constructor; auto.
Qed.

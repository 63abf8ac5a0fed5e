(** * Whole searches with longer lists, more answers, more probes. *)
From Coq Require Import String List Arith Lia Bool Sorting.Sorted Sorting.Permutation Floats.SpecFloat.
From Verif Require Import Base Float32 PoolModel TopKSpec SortSpec GraphSpec GreedyModel SearchSpec SearchModel ListLemmas PoolProofs PoolProofs2 GreedyProofs
  SearchProofs AcceptProofs ClosestModel ClosestSpec FlatModel FlatSpec IvfModel IvfProofs WideSpec LongerSpec LongerProofs.
Import ListNotations.

Lemma no_worse_firstn : forall dist k k' l l', k <= k' -> no_worse dist l l' -> no_worse dist (firstn k l) (firstn k' l').
Proof.
  intros dist k k' l l' Hk H i x Hx.
  assert (i < k) by (assert (i < length (firstn k l)) by (apply nth_error_Some; congruence); rewrite firstn_length in *; lia).
  rewrite nth_error_firstn_lt in Hx by assumption. destruct (H i x Hx) as [y [Hy Hle]]. exists y. split; [|exact Hle].
  rewrite nth_error_firstn_lt by lia. exact Hy.
Qed.

Lemma starts_length : forall ix fs L, 1 <= L -> length fs <= L -> length (vamana_init_ids ix fs) <= L.
Proof.
  intros ix fs L H1 H2. unfold vamana_init_ids. destruct fs as [|f fs]; [exact H1|]. pose proof (filter_starts_length (ix_medoids ix) (f :: fs)). lia.
Qed.

Lemma vamana_longer : forall sortf ix dist L L' k k' filters indices distances indices' distances',
  sorts sortf -> index_ok ix -> 1 <= L -> L <= L' -> (forall id, is_nan (dist id) = false) -> no_ties (ix_n ix) dist ->
  (filters = [] \/ length (pts_to_labels (ix_labels ix)) = ix_n ix) -> length filters <= L ->
  k <= L + 1 -> k' <= L' + 1 -> k <= k' -> k <= length indices -> k <= length distances -> k' <= length indices' -> k' <= length distances' ->
  exists ids i1 d1 ids' i2 d2,
    vamana_search sortf ix dist L k filters indices distances = Ok (i1, d1, length ids) /\ reports (ix_n ix) (ix_tags ix) dist i1 d1 ids /\
    vamana_search sortf ix dist L' k' filters indices' distances' = Ok (i2, d2, length ids') /\ reports (ix_n ix) (ix_tags ix) dist i2 d2 ids' /\
    no_worse dist ids ids'.
Proof.
  intros sortf ix dist L L' k k' fs ind dst ind' dst' Hs Hix HL HLL Hnan T Hfl HfL Hk Hk' Hkk Hi Hd Hi' Hd'.
  destruct (vamana_search_ok sortf ix dist L k fs ind dst) as [st [i1 [d1 [E [V [_ [_ [R _]]]]]]]]; auto.
  destruct (vamana_search_ok sortf ix dist L' k' fs ind' dst') as [st' [i2 [d2 [E' [V' [_ [_ [R' _]]]]]]]]; auto; try lia.
  destruct (greedy_longer sortf (ix_n ix) dist (passes_filter (ix_labels ix) fs) (acc_of (ix_labels ix) fs) L L' (ix_graph ix) (vamana_init_ids ix fs))
    as [s [s' [F [F' [_ [_ [_ [_ W]]]]]]]]; auto; try apply Hix.
  { intros id Hid. eapply acc_of_ok; eauto. }
  { apply init_ids_ok. exact Hix. }
  { apply starts_length; auto. }
  assert (s = st) by congruence. assert (s' = st') by congruence. subst s s'.
  exists (firstn k (map nid (found st))), i1, d1, (firstn k' (map nid (found st'))), i2, d2.
  split; [rewrite firstn_length, map_length; exact V|]. split; [exact R|]. split; [rewrite firstn_length, map_length; exact V'|]. split; [exact R'|].
  apply no_worse_firstn; assumption.
Qed.

Lemma rng_longer : forall sortf ix dist L L' k k' filters filters' indices distances indices' distances',
  sorts sortf -> index_ok ix -> 1 <= L -> L <= L' -> (forall id, is_nan (dist id) = false) -> no_ties (ix_n ix) dist ->
  k <= L + 1 -> k' <= L' + 1 -> k <= k' -> k <= length indices -> k <= length distances -> k' <= length indices' -> k' <= length distances' ->
  exists ids i1 d1 ids' i2 d2,
    rng_search sortf ix dist L k filters indices distances = Ok (i1, d1, length ids) /\ reports (ix_n ix) (ix_tags ix) dist i1 d1 ids /\
    rng_search sortf ix dist L' k' filters' indices' distances' = Ok (i2, d2, length ids') /\ reports (ix_n ix) (ix_tags ix) dist i2 d2 ids' /\
    no_worse dist ids ids'.
Proof.
  intros. rewrite !rng_is_vamana. apply vamana_longer; auto. cbn. lia.
Qed.

(** Asking for more with the same list. *)
Lemma vamana_more : forall sortf ix dist L k k' filters indices distances indices' distances',
  sorts sortf -> index_ok ix -> 1 <= L -> (forall id, is_nan (dist id) = false) ->
  (filters = [] \/ length (pts_to_labels (ix_labels ix)) = ix_n ix) -> k <= k' -> k' <= L + 1 ->
  k <= length indices -> k <= length distances -> k' <= length indices' -> k' <= length distances' ->
  exists ids i1 d1 i2 d2,
    vamana_search sortf ix dist L k filters indices distances = Ok (i1, d1, length (firstn k ids)) /\ reports (ix_n ix) (ix_tags ix) dist i1 d1 (firstn k ids) /\
    vamana_search sortf ix dist L k' filters indices' distances' = Ok (i2, d2, length ids) /\ reports (ix_n ix) (ix_tags ix) dist i2 d2 ids.
Proof.
  intros sortf ix dist L k k' fs ind dst ind' dst' Hs Hix HL Hnan Hfl Hkk Hk' Hi Hd Hi' Hd'.
  destruct (vamana_search_ok sortf ix dist L k fs ind dst) as [st [i1 [d1 [E [V [_ [_ [R _]]]]]]]]; auto; try lia.
  destruct (vamana_search_ok sortf ix dist L k' fs ind' dst') as [st' [i2 [d2 [E' [V' [_ [_ [R' _]]]]]]]]; auto; try lia.
  assert (st' = st) by congruence. subst st'.
  exists (firstn k' (map nid (found st))), i1, d1, i2, d2. rewrite firstn_firstn. replace (min k k') with k by lia.
  rewrite !firstn_length, !map_length. auto.
Qed.

(** Recall. *)
Lemma count_le : forall (A : Type) (p : A -> bool) l l', length l <= length l' ->
  (forall i x y, nth_error l i = Some x -> nth_error l' i = Some y -> p x = true -> p y = true) -> length (filter p l) <= length (filter p l').
Proof.
  intros A p l. induction l as [|a l IH]; intros l' Hl H; cbn [filter]; [cbn; lia|]. destruct l' as [|b l']; [cbn in Hl; lia|]. cbn [filter].
  assert (IH' : length (filter p l) <= length (filter p l')).
  { apply IH; [cbn in Hl; lia|]. intros i x y Hx Hy. apply (H (S i)); assumption. }
  destruct (p a) eqn:Ea.
  - rewrite (H 0 a b eq_refl eq_refl Ea). cbn. lia.
  - destruct (p b); cbn; lia.
Qed.

Lemma no_worse_hits : forall n dist ids ids' k (P : nat -> Prop) truth, no_ties n dist -> no_worse dist ids ids' ->
  (forall x, P x -> x < n) -> (forall x, In x ids -> P x) -> (forall x, In x ids' -> P x) -> nearest_among k P dist truth -> hits truth ids <= hits truth ids'.
Proof.
  intros n dist ids ids' k P truth T W Pn I I' [all [Nd [Hall [rest [Pm [_ [_ R]]]]]]].
  assert (Hmem : forall x, existsb (Nat.eqb x) truth = true <-> In x truth).
  { intros x. rewrite existsb_exists. split; [intros [y [Hy E]]; apply Nat.eqb_eq in E; subst; exact Hy|]. intros H. exists x. split; [exact H|apply Nat.eqb_refl]. }
  apply count_le.
  - destruct (le_lt_dec (length ids) (length ids')) as [?|C]; [assumption|exfalso].
    destruct (nth_error ids (length ids')) as [x|] eqn:E; [|apply nth_error_None in E; lia].
    destruct (W _ _ E) as [y [Hy _]]. assert (length ids' < length ids') by (apply nth_error_Some; congruence). lia.
  - intros i x y Hx Hy Hp. apply Hmem. apply Hmem in Hp. destruct (W i x Hx) as [y' [Hy' Hle]]. assert (y' = y) by congruence. subst y'.
    assert (Py : P y) by (apply I'; eapply nth_error_In; eauto). assert (Px : P x) by (apply I; eapply nth_error_In; eauto).
    assert (In (y, dist y) (score dist truth ++ rest)).
    { apply (Permutation_in _ Pm). unfold score. apply in_map_iff. exists y. split; [reflexivity|]. apply Hall. exact Py. }
    apply in_app_or in H. destruct H as [H|H].
    + unfold score in H. apply in_map_iff in H. destruct H as [z [E Hz]]. congruence.
    + assert (no_farther (x, dist x) (y, dist y)).
      { apply R; [|exact H]. unfold score. apply in_map_iff. exists x. auto. }
      unfold no_farther in H0. cbn in H0. assert (x = y); [|subst; exact Hp].
      apply T; [apply Pn; exact Px|apply Pn; exact Py|]. apply fle_both; assumption.
Qed.

Lemma vamana_recall : forall sortf ix dist L L' k indices distances truth,
  sorts sortf -> index_ok ix -> 1 <= L -> L <= L' -> (forall id, is_nan (dist id) = false) -> no_ties (ix_n ix) dist ->
  k <= L -> k <= length indices -> k <= length distances -> nearest_among k (fun x => x < ix_n ix) dist truth ->
  exists ids i1 d1 ids' i2 d2,
    vamana_search sortf ix dist L k [] indices distances = Ok (i1, d1, length ids) /\ reports (ix_n ix) (ix_tags ix) dist i1 d1 ids /\
    vamana_search sortf ix dist L' k [] indices distances = Ok (i2, d2, length ids') /\ reports (ix_n ix) (ix_tags ix) dist i2 d2 ids' /\
    hits truth ids <= hits truth ids'.
Proof.
  intros sortf ix dist L L' k ind dst truth Hs Hix HL HLL Hnan T Hk Hi Hd Ht.
  destruct (vamana_longer sortf ix dist L L' k k [] ind dst ind dst) as [ids [i1 [d1 [ids' [i2 [d2 [V [R [V' [R' W]]]]]]]]]]; auto; try (cbn; lia).
  exists ids, i1, d1, ids', i2, d2. split; [exact V|]. split; [exact R|]. split; [exact V'|]. split; [exact R'|].
  apply (no_worse_hits (ix_n ix) dist ids ids' k (fun x => x < ix_n ix) truth); auto; [apply R|apply R'].
Qed.

(** IVF. *)
Lemma score_inj : forall dist a b, score dist a = score dist b -> a = b.
Proof. intros dist a b H. rewrite <- (score_fst dist a), <- (score_fst dist b), H. reflexivity. Qed.

Lemma score_firstn : forall dist k l, score dist (firstn k l) = firstn k (score dist l).
Proof. intros. unfold score. symmetry. apply firstn_map. Qed.

Lemma score_NoDup : forall dist l, NoDup l -> NoDup (score dist l).
Proof. intros dist l H. unfold score. apply FinFun.Injective_map_NoDup; [|exact H]. intros a b Hab. congruence. Qed.

Lemma ivf_longer : forall popf mbs ix cdist dist probe probe' m m' filters indices distances indices' distances',
  pops popf -> 1 <= mbs -> ivf_ok ix -> probe <= probe' -> probe' <= ivf_nc ix -> 1 <= m -> m <= m' ->
  (filters = [] \/ length (pts_to_labels (ivf_labels ix)) = ivf_n ix) ->
  (forall c, is_nan (cdist c) = false) -> no_ties (ivf_nc ix) cdist -> (exists c, c < ivf_nc ix /\ flt (cdist c) FLT_MAX = true) ->
  finite_distances (ivf_n ix) dist -> room m indices distances -> room m' indices' distances' ->
  exists ids i1 d1 c1 ids' i2 d2 c2,
    ivf_search popf mbs ix cdist dist probe m filters indices distances = Ok (i1, d1, length ids, c1) /\ FlatSpec.holds dist ids indices i1 distances d1 /\
    ivf_search popf mbs ix cdist dist probe' m' filters indices' distances' = Ok (i2, d2, length ids', c2) /\ FlatSpec.holds dist ids' indices' i2 distances' d2 /\
    no_worse dist ids ids'.
Proof.
  intros popf mbs ix cdist dist pr pr' m m' fs ind dst ind' dst' Hp Hmb Hok Hpr Hpr' Hm Hmm Hfl Hcn T Hfar Hd Hr Hr'.
  destruct (ivf_search_probed popf mbs ix cdist dist pr m fs ind dst) as [P [ids [i1 [d1 [c1 [A1 [A2 [A3 [A4 [A5 [A6 [A7 [A8 A9]]]]]]]]]]]]]; auto; try lia.
  destruct (ivf_search_probed popf mbs ix cdist dist pr' m' fs ind' dst') as [P' [ids' [i2 [d2 [c2 [B1 [B2 [B3 [B4 [B5 [B6 [B7 [B8 B9]]]]]]]]]]]]]; auto; try lia.
  exists ids, i1, d1, c1, ids', i2, d2, c2. split; [exact A5|]. split; [exact A9|]. split; [exact B5|]. split; [exact B9|].
  assert (EP : P = firstn pr P').
  { apply (score_inj cdist). rewrite score_firstn. apply (top_k_longer pr pr' (score cdist (seq 0 (ivf_nc ix)))); auto.
    - apply score_NoDup. apply seq_NoDup.
    - intros u v Hu Hv H1 H2. unfold score in Hu, Hv. apply in_map_iff in Hu. destruct Hu as [a [<- Ha]]. apply in_map_iff in Hv. destruct Hv as [b [<- Hb]].
      apply in_seq in Ha. apply in_seq in Hb. unfold no_farther in *. cbn [snd] in *. assert (a = b); [|subst; reflexivity].
      apply T; try lia. apply fle_both; assumption. }
  destruct Hd as [Hn _].
  assert (Ig : forall x, In x P -> In x P') by (intros x Hx; rewrite EP in Hx; eapply In_firstn; eauto).
  intros i x Hx. destruct (top_k_dominates m m' _ _ _ _ A6 B6 Hmm) with (i := i) (x := (x, dist x)) as [y [Hy Hle]].
  - apply score_NoDup. apply NoDup_nodup.
  - intros u Hu. unfold score in *. apply in_map_iff in Hu. destruct Hu as [a [<- Ha]]. apply in_map_iff. exists a. split; [reflexivity|].
    apply nodup_In. apply nodup_In in Ha. apply filter_In in Ha. destruct Ha as [Ha Hacc]. apply filter_In. split; [|exact Hacc].
    apply in_concat in Ha. destruct Ha as [l [Hl Ha]]. apply in_concat. exists l. split; [|exact Ha]. apply in_map_iff in Hl. destruct Hl as [c [E Hc]].
    apply in_map_iff. exists c. auto.
  - intros u Hu. unfold score in Hu. apply in_map_iff in Hu. destruct Hu as [a [<- Ha]]. apply Hn.
  - unfold score. rewrite nth_error_map, Hx. reflexivity.
  - unfold score in Hy. rewrite nth_error_map in Hy. destruct (nth_error ids' i) as [w|]; [|discriminate]. cbn in Hy. injection Hy as <-.
    exists w. split; [reflexivity|exact Hle].
Qed.

(** * Lemmas about whole programs: reloading. *)
From Coq Require Import NArith String List Arith Lia Bool Permutation Sorting.Sorted.
From Verif Require Import Base Float32 Bytes StreamModel BinModel BinSpec BinProofs BinProofs2 TextModel TextProofs GraphFileSpec PoolModel GraphSpec FilterSpec
  SortSpec GreedyModel SearchModel SearchSpec HnswModel PruneModel BuildModel BuildSpec EntryModel EntrySpec EntryProofs VamanaModel VamanaProofs
  ClosestModel FlatModel IvfModel IndexFileModel IndexFileSpec IndexFileProofs IndexFileProofs2 IndexFileProofs3 SystemModel SystemSpec.
Import ListNotations.
Local Open Scope string_scope.

Lemma labels_view_same : forall a a', same_ann a a' -> labels_view a' = labels_view a.
Proof.
  intros a a' (_ & _ & _ & _ & _ & _ & H1 & H2 & H3 & _). unfold labels_view. rewrite H1, H2, H3. reflexivity.
Qed.

Lemma graph_view_same : forall x x', same_graph x x' -> g_medoids x' = g_medoids x -> graph_view x' = graph_view x.
Proof.
  intros x x' [Ha [_ [Hs Hl]]] Hm. pose proof (labels_view_same _ _ Ha) as Hv.
  destruct Ha as (Hn & _ & _ & _ & Ht & _). unfold graph_view. rewrite Hv, Hn, Ht, Hm, Hs, Hl. reflexivity.
Qed.

Lemma query_dist_same : forall qd a a' q, a_data a' = a_data a -> query_dist qd a' q = query_dist qd a q.
Proof. intros qd a a' q H. unfold query_dist. rewrite H. reflexivity. Qed.

Lemma vamana_reload : forall w g name x d, garbage_ok g -> gann_ok w x ->
  (if a_filtered (g_ann x) then medoids_ok (g_medoids x) /\ (g_medoids x = [] -> d (name ++ "_labels_to_medoids.txt") = None)
   else g_medoids x = [] /\ d (name ++ "_labels_to_medoids.txt") = None) ->
  exists d' x', save_vamana w name x d = Ok d' /\ load_vamana w g name (new_gann 0 0 0) d' = Ok (x', true) /\
    a_adim (g_ann x') = a_adim (g_ann x) /\ g_max x' = g_max x /\ graph_view x' = graph_view x /\
    forall sortf qd filters k, same_answers (vamana_searcher sortf qd filters k x) (vamana_searcher sortf qd filters k x').
Proof.
  intros w g name x d Hg Hx Hm. destruct (vamana_round_trip w g name x d 0 0 0 Hg Hx Hm) as [d' [x' [E1 [E2 [E3 [E4 _]]]]]].
  exists d', x'. split; [auto|]. split; [auto|]. pose proof (graph_view_same _ _ E3 E4) as Ev.
  destruct E3 as [Ha [Hmx _]]. pose proof Ha as (_ & _ & Hd & Hda & _). split; [auto|]. split; [auto|]. split; [auto|].
  intros sortf qd filters k q L ids ds. unfold vamana_searcher. rewrite Ev, (query_dist_same qd _ _ q Hda). reflexivity.
Qed.

Lemma rng_search_view : forall sortf ix ix' dist L k f ids ds, ix_n ix' = ix_n ix -> ix_tags ix' = ix_tags ix ->
  ix_labels ix' = ix_labels ix -> ix_start ix' = ix_start ix -> ix_graph ix' = ix_graph ix ->
  rng_search sortf ix' dist L k f ids ds = rng_search sortf ix dist L k f ids ds.
Proof. intros sortf ix ix' dist L k f ids ds H1 H2 H3 H4 H5. unfold rng_search. rewrite H1, H2, H3, H4, H5. reflexivity. Qed.

Lemma same_graph_parts : forall x x', same_graph x x' ->
  ix_n (graph_view x') = ix_n (graph_view x) /\ ix_tags (graph_view x') = ix_tags (graph_view x) /\
  ix_labels (graph_view x') = ix_labels (graph_view x) /\ ix_start (graph_view x') = ix_start (graph_view x) /\
  ix_graph (graph_view x') = ix_graph (graph_view x).
Proof.
  intros x x' [Ha [_ [Hs Hl]]]. pose proof (labels_view_same _ _ Ha) as Hv. destruct Ha as (Hn & _ & _ & _ & Ht & _).
  cbn. rewrite Hn, Ht, Hs, Hl, Hv. repeat split; reflexivity.
Qed.

Lemma rng_reload : forall w g name x d, garbage_ok g -> gann_ok w x ->
  exists d' x', save_rng w name x d = Ok d' /\ load_rng w g name (new_gann 0 0 0) d' = Ok (x', true) /\
    a_adim (g_ann x') = a_adim (g_ann x) /\ g_max x' = g_max x /\ ix_graph (graph_view x') = ix_graph (graph_view x) /\
    forall sortf qd k, same_answers (rng_searcher sortf qd k x) (rng_searcher sortf qd k x').
Proof.
  intros w g name x d Hg Hx. destruct (rng_round_trip w g name x d 0 0 0 Hg Hx) as [d' [x' [E1 [E2 [E3 _]]]]].
  exists d', x'. split; [auto|]. split; [auto|]. destruct (same_graph_parts _ _ E3) as [P1 [P2 [P3 [P4 P5]]]].
  destruct E3 as [Ha [Hmx _]]. pose proof Ha as (_ & _ & Hd & Hda & _). split; [auto|]. split; [auto|]. split; [auto|].
  intros sortf qd k q L ids ds. unfold rng_searcher. rewrite (query_dist_same qd _ _ q Hda). apply rng_search_view; auto.
Qed.

(** HNSW: the search reads of each level what RelativeNG reads. *)
Definition same_parts (ix ix' : gindex) : Prop :=
  ix_n ix' = ix_n ix /\ ix_tags ix' = ix_tags ix /\ ix_labels ix' = ix_labels ix /\ ix_start ix' = ix_start ix /\ ix_graph ix' = ix_graph ix.

Lemma hnsw_search_parts : forall sortf ls ls', Forall2 same_parts ls ls' -> forall dist L k f ids ds,
  hnsw_search sortf ls' dist L k f ids ds = hnsw_search sortf ls dist L k f ids ds.
Proof.
  intros sortf ls ls' H. induction H as [|ix ix' ls ls' [P1 [P2 [P3 [P4 P5]]]] H IH]; intros dist L k f ids ds; [reflexivity|].
  cbn [hnsw_search]. rewrite P1, P2, P3, P4, P5.
  destruct H as [|iy iy' ls1 ls1' Hy H1]; [reflexivity|].
  rewrite IH. unfold inner_dist. destruct Hy as [_ [Q _]]. rewrite Q. reflexivity.
Qed.

Lemma Forall2_nth : forall (A B : Type) (R : A -> B -> Prop) l l', length l = length l' ->
  (forall i x, nth_error l i = Some x -> exists y, nth_error l' i = Some y /\ R x y) -> Forall2 R l l'.
Proof.
  intros A B R l. induction l as [|x l IH]; intros [|y l'] Hl H; try discriminate; constructor.
  - destruct (H 0 x eq_refl) as [y' [E Hr]]. cbn in E. assert (y' = y) by congruence. subst. auto.
  - apply IH; [cbn in Hl; lia|]. intros i z Hz. apply (H (S i) z Hz).
Qed.

Lemma Forall2_map2 : forall (A B C D : Type) (R : C -> D -> Prop) (f : A -> C) (h : B -> D) l l',
  Forall2 (fun x y => R (f x) (h y)) l l' -> Forall2 R (map f l) (map h l').
Proof. intros A B C D R f h l l' H. induction H; cbn; constructor; auto. Qed.

Lemma Forall2_rev : forall (A B : Type) (R : A -> B -> Prop) l l', Forall2 R l l' -> Forall2 R (rev l) (rev l').
Proof. intros A B R l l' H. induction H; cbn; [constructor|]. apply Forall2_app; auto. Qed.

Lemma Forall2_mono : forall (A B : Type) (R R' : A -> B -> Prop) l l', (forall x y, R x y -> R' x y) -> Forall2 R l l' -> Forall2 R' l l'.
Proof. intros A B R R' l l' H H1. induction H1; constructor; auto. Qed.

Lemma fresh_repeat : forall levels, fresh_levels 0 0 0 levels = repeat (new_gann 0 0 0) (length levels).
Proof. intros levels. unfold fresh_levels. induction levels as [|x l IH]; cbn; [auto|rewrite IH; auto]. Qed.

(** [levels] innermost first, as in the files. *)
Lemma hnsw_reload : forall w g name levels d, garbage_ok g -> (forall x, In x levels -> gann_ok w x) ->
  exists d' rs, save_hnsw w name 0 levels d = Ok d' /\ load_hnsw w g name 0 (repeat (new_gann 0 0 0) (length levels)) d' = Ok rs /\
    (forall r, In r rs -> snd r = true) /\
    forall sortf qd k, same_answers (hnsw_searcher sortf qd k (rev levels)) (hnsw_searcher sortf qd k (rev (map fst rs))).
Proof.
  intros w g name levels d Hg Hx. destruct (hnsw_round_trip w g name levels d 0 0 0 Hg Hx) as [d' [rs [E1 [E2 [E3 [E4 _]]]]]].
  rewrite fresh_repeat in E2. exists d', rs. split; [auto|]. split; [auto|].
  assert (HF : Forall2 (fun x r => snd r = true /\ same_graph x (fst r)) levels rs).
  { apply Forall2_nth; [auto|]. intros i x Hi. destruct (E4 i x Hi) as [x' [A B]]. exists (x', true). auto. }
  split.
  - intros r Hr. clear - HF Hr. induction HF as [|x y l l' [A _] H IH]; [destruct Hr|]. destruct Hr as [<-|Hr]; auto.
  - intros sortf qd k q L ids ds.
    assert (HG : Forall2 same_graph (rev levels) (rev (map fst rs))).
    { apply Forall2_rev. rewrite <- (map_id levels). apply Forall2_map2. eapply Forall2_mono; [|exact HF]. intros x y [_ A]. exact A. }
    assert (HP : Forall2 same_parts (map graph_view (rev levels)) (map graph_view (rev (map fst rs)))).
    { apply Forall2_map2. eapply Forall2_mono; [|exact HG]. intros x y A. exact (same_graph_parts _ _ A). }
    unfold hnsw_searcher. destruct HG as [|x x' l l' Hxx HG]; [reflexivity|].
    destruct Hxx as [Ha _]. destruct Ha as (_ & _ & _ & Hda & _).
    rewrite (query_dist_same qd _ _ q Hda). apply hnsw_search_parts. auto.
Qed.

Lemma ivf_view_same : forall a a' k lists, same_ann a a' -> ivf_view a' k lists = ivf_view a k lists.
Proof.
  intros a a' k lists Ha. pose proof (labels_view_same _ _ Ha) as Hv. destruct Ha as (Hn & _ & _ & _ & Ht & _).
  unfold ivf_view. rewrite Hn, Ht, Hv. reflexivity.
Qed.

Lemma centres_same : forall adim k centers rows, length rows = k -> length centers = k * adim ->
  (forall i row, nth_error rows i = Some row -> length row = adim * 4 /\
     forall j, j < adim -> mem_elem 4 row j = nth_error centers (i * adim + j)) ->
  centres_of_rows adim rows = centres_of_array adim k centers.
Proof.
  intros adim k centers rows Hl _ H. unfold centres_of_rows, centres_of_array. subst k.
  assert (G : forall rs o, (forall i row, nth_error rs i = Some row -> forall j, j < adim -> mem_elem 4 row j = nth_error centers ((o + i) * adim + j)) ->
    map (fun row => map (mem_elem 4 row) (seq 0 adim)) rs = map (fun c => map (fun j => nth_error centers (c * adim + j)) (seq 0 adim)) (seq o (length rs))).
  { induction rs as [|r rs IH]; intros o Hr; cbn [map length seq]; [reflexivity|]. f_equal.
    - apply map_ext_in. intros j Hj. apply in_seq in Hj. rewrite (Hr 0 r eq_refl j) by lia. rewrite Nat.add_0_r. reflexivity.
    - apply IH. intros i row Hi j Hj. rewrite (Hr (S i) row Hi j Hj). do 2 f_equal. lia. }
  apply G. intros i row Hi j Hj. apply (H i row Hi). auto.
Qed.

Lemma ivf_reload : forall w g name x d, garbage_ok g -> ivf_ok w x ->
  exists d' a' rows, save_ivf w name x d = Ok d' /\
    load_ivf w g name (mkIA (new_ann 0 0) 0 [] []) d' = Ok (a', i_k x, rows, i_lists x) /\
    a_adim a' = a_adim (i_ann x) /\
    forall popf mbs qd cd filters k,
      same_answers (ivf_searcher popf mbs qd cd filters k (i_ann x) (centres_of_array (N.to_nat (a_adim (i_ann x))) (N.to_nat (i_k x)) (i_centers x)) (i_k x) (i_lists x))
        (ivf_searcher popf mbs qd cd filters k a' (centres_of_rows (N.to_nat (a_adim a')) rows) (i_k x) (i_lists x)).
Proof.
  intros w g name x d Hg Hx. destruct (ivf_round_trip w g name x d 0 0 0 [] Hg Hx) as [d' [a' [rows [E1 [E2 [E3 [E4 [E5 _]]]]]]]].
  exists d', a', rows. split; [auto|]. split; [auto|]. pose proof E3 as (_ & _ & Hd & Hda & _). split; [auto|].
  intros popf mbs qd cd filters k q L ids ds. unfold ivf_searcher.
  rewrite (ivf_view_same _ _ _ _ E3), (query_dist_same qd _ _ q Hda), Hd.
  rewrite (centres_same _ (N.to_nat (i_k x)) (i_centers x) rows); auto.
  destruct Hx as [_ [_ [Hc _]]]. lia.
Qed.
